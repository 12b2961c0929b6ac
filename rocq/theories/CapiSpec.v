(** Specification vocabulary for the C interface *)
From Verif Require Import Base SoValue JsonSpec Element ElementSpec SerializeSpec SourceMap Capi.

Definition annotation_eq_dec : forall a b : annotation, {a = b} + {a <> b}.
Proof.
  decide equality; [|apply N.eq_dec|apply String.string_dec].
  apply list_eq_dec. decide equality; apply N.eq_dec.
Defined.

(** the distinct warnings of a sequence, in the order of their first occurrence *)
Fixpoint firsts (l : list annotation) : list annotation :=
  match l with
  | [] => []
  | w :: r => w :: filter (fun x => if annotation_eq_dec x w then false else true) (firsts r)
  end.

(** the outcome of an analysis: the API category (if any), the error (if any), the warnings *)
Inductive outcome (rep : report) (conv : conversion * list annotation)
  : option element -> option annotation -> list annotation -> Prop :=
| out_parse_error :           (* the parser reports an error: nothing is converted *)
    a_code (r_error rep) <> 0%N -> outcome rep conv None (Some (r_error rep)) (r_warnings rep)
| out_ok e ws :
    a_code (r_error rep) = 0%N -> conv = (Converted e, ws) ->
    outcome rep conv (Some e) None (r_warnings rep ++ firsts ws)
| out_exception what ws :     (* std::exception: an MSON error with its text *)
    a_code (r_error rep) = 0%N -> conv = (ThrowsStd what, ws) ->
    outcome rep conv None (Some (Annotation what 4 [])) (r_warnings rep ++ firsts ws)
| out_error a ws :
    a_code (r_error rep) = 0%N -> conv = (ThrowsError a, ws) -> a_code a <> 0%N ->
    outcome rep conv None (Some a) (r_warnings rep ++ firsts ws).

Definition code_of (err : option annotation) : Z := match err with Some a => Z.of_N (a_code a) | None => 0%Z end.

(** every range has a positive end (see C35: the lookup of [0,0] is undefined) *)
Definition placed (a : annotation) : Prop :=
  Forall (fun r => 0 < location r + len r < 2 ^ 63)%N (a_location a).

(** an element that shows an annotation of the given class *)
Definition shows (key : string) (a : annotation) (e : element) : Prop :=
  ename e = "annotation"%string /\ ehas e = true /\ edata e = DString (a_message a) /\
  emeta e = [("classes"%string, make_element (DArray [make_element (DString key)]))] /\
  ifind (eattrs e) "code" = Some (make_element (DNumber (dec (a_code a)))).

(** an element that serializes well: no null mandatory pointers, no repeated names in meta or
    attributes, number literals that are JSON numbers *)
Definition tidy (e : element) : Prop :=
  no_null e /\ keys_unique e /\
  (forall x, sub x e -> Forall (fun s => json_number s = true) (own_numbers x)).

Section Oracle.
  Context {Blueprint : Type} (parse : bool -> string -> report * Blueprint)
          (convert : Blueprint -> option parse_options -> conversion * list annotation).

  (** analysing a source with the given options comes out as ... *)
  Definition analysed (opts : option parse_options) (src : string) api err ws : Prop :=
    let required := match opts with Some o => name_required o | None => false end in
    outcome (fst (parse required src)) (convert (snd (parse required src)) opts) api err ws.

  (** what is assumed of the parser and of the conversion: they end in one of these ways, every
      annotation range has a positive end, the API category holds a value, has no null
      mandatory pointer and is no annotation *)
  Definition well_behaved : Prop := forall opts src, exists api err ws,
    analysed opts src api err ws /\ Forall placed (opt_list err ++ ws) /\
    (forall e, api = Some e -> no_null e /\ ehas e = true /\ ename e <> "annotation"%string).
End Oracle.

(** a heap the interface can have produced: addresses are unique and below the next one,
    results have no null mandatory pointers *)
Definition heap_ok (h : heap) : Prop :=
  NoDup (map fst (cells h)) /\ Forall (fun c => fst c < next h) (cells h) /\
  (forall p e, In (p, OResult e) (cells h) -> no_null e).

Definition live (h : heap) (p : nat) : Prop := In p (map fst (cells h)).

(** calls a client can make *)
Inductive call : Type :=
| CParseTo (source : option string) (out : bool) (popts sopts : option nat)
| CParse (source : option string) (out : bool) (popts : option nat)
| CCheck (source : option string) (out : bool) (popts : option nat)
| CSerialize (res sopts : option nat)
| CFreeResult (p : option nat)
| CFreeText (p : option nat)                 (* free() of a text handed out *)
| CInitParse | CInitSerialize
| CFreeParse (p : option nat) | CFreeSerialize (p : option nat)
| CSetNameRequired (p : nat) | CSetSkipBodies (p : nat) | CSetSkipSchemas (p : nat)
| CSetSourcemaps (p : nat) | CSetFormat (p : nat) (f : Z).

Definition freed_by (c : call) : list nat :=
  match c with
  | CFreeResult p | CFreeText p | CFreeParse p | CFreeSerialize p => opt_list p
  | _ => []
  end.
Definition changed_by (c : call) : list nat :=
  match c with
  | CSetNameRequired p | CSetSkipBodies p | CSetSkipSchemas p | CSetSourcemaps p | CSetFormat p _ => [p]
  | _ => []
  end.

(** the client passes NULL or live objects of the right type *)
Definition is_result (h : heap) (p : option nat) : Prop :=
  forall q, p = Some q -> exists e, In (q, OResult e) (cells h).
Definition is_text (h : heap) (p : option nat) : Prop :=
  forall q, p = Some q -> exists s, In (q, OText s) (cells h).
Definition is_parse_options (h : heap) (p : option nat) : Prop :=
  forall q, p = Some q -> exists o, In (q, OParseOptions o) (cells h).
Definition is_serialize_options (h : heap) (p : option nat) : Prop :=
  forall q, p = Some q -> exists o, In (q, OSerializeOptions o) (cells h).

Definition proper (h : heap) (c : call) : Prop :=
  match c with
  | CParseTo _ _ p s => is_parse_options h p /\ is_serialize_options h s
  | CParse _ _ p | CCheck _ _ p => is_parse_options h p
  | CSerialize r s => is_result h r /\ is_serialize_options h s
  | CFreeResult p => is_result h p
  | CFreeText p => is_text h p
  | CInitParse | CInitSerialize => True
  | CFreeParse p => is_parse_options h p
  | CFreeSerialize p => is_serialize_options h p
  | CSetNameRequired p | CSetSkipBodies p | CSetSkipSchemas p => is_parse_options h (Some p)
  | CSetSourcemaps p | CSetFormat p _ => is_serialize_options h (Some p)
  end.

Section Step.
  Context {Blueprint : Type} (parse : bool -> string -> report * Blueprint)
          (convert : Blueprint -> option parse_options -> conversion * list annotation).

  Definition handed (o : option (option nat)) : list nat := match o with Some (Some p) => [p] | _ => [] end.
  Definition of_ret (r : option ret) : option (list nat * heap) :=
    match r with Some (_, w, h) => Some (handed w, h) | None => None end.
  Definition of_heap (r : option heap) : option (list nat * heap) :=
    match r with Some h => Some ([], h) | None => None end.

  (** performing a call: the pointers the client receives, and the heap *)
  Definition perform (h : heap) (c : call) : option (list nat * heap) :=
    match c with
    | CParseTo s o p q => of_ret (drafter_parse_blueprint_to _ parse convert h s o p q)
    | CParse s o p => of_ret (drafter_parse_blueprint _ parse convert h s o p)
    | CCheck s o p => of_ret (drafter_check_blueprint _ parse convert h s o p)
    | CSerialize r s =>
        match drafter_serialize h r s with Some (p, h') => Some (opt_list p, h') | None => None end
    | CFreeResult p => of_heap (drafter_free_result h p)
    | CFreeText p =>
        match p with
        | None => Some ([], h)
        | Some q => match load h q with Some (OText _) => of_heap (release h q) | _ => None end
        end
    | CInitParse => let '(p, h') := drafter_init_parse_options h in Some ([p], h')
    | CInitSerialize => let '(p, h') := drafter_init_serialize_options h in Some ([p], h')
    | CFreeParse p => of_heap (drafter_free_parse_options h p)
    | CFreeSerialize p => of_heap (drafter_free_serialize_options h p)
    | CSetNameRequired p => of_heap (drafter_set_name_required h (Some p))
    | CSetSkipBodies p => of_heap (drafter_set_skip_gen_bodies h (Some p))
    | CSetSkipSchemas p => of_heap (drafter_set_skip_gen_body_schemas h (Some p))
    | CSetSourcemaps p => of_heap (drafter_set_sourcemaps_included h (Some p))
    | CSetFormat p f => of_heap (drafter_set_format f h (Some p))
    end.

  (** a history of proper calls: what the client was handed and freed, in order *)
  Inductive history : heap -> list nat -> list nat -> Prop :=
  | h_start : history (Heap [] 0) [] []
  | h_call h given freed c outs h' :
      history h given freed -> proper h c -> perform h c = Some (outs, h') ->
      history h' (given ++ outs) (freed ++ freed_by c).
End Step.
