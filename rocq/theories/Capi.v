(** Model of the C interface: packages/drafter/src/drafter.cc, options.{h,cc}, SerializeResult.cc
    (WrapRefract), ConversionContext.cc (warnings), Iterate.h/FilterVisitor.h/Query.cc.
    The API Blueprint parser (snowcrash::parse) and the conversion of its AST
    (RegisterNamedTypes; BlueprintToRefract) are oracles: section variables, so that every
    theorem holds for all of them.
    [None] as the result of a call: undefined behaviour (use after free, double free, a failed
    assertion, reading before a vector) or an exception leaving the C interface. *)
From Verif Require Import Base Utf8 SoValue JsonIo YamlIo Element SerializeSo SourceMap.
Local Open Scope Z_scope.

(** ConversionContext.cc:44-67 warn: drop a warning equal to one already recorded *)
Definition range_eqb (a b : range) : bool := (N.eqb (location a) (location b) && N.eqb (len a) (len b))%bool.
Fixpoint locations_eqb (l r : list range) : bool :=
  match l, r with
  | [], [] => true
  | x :: l', y :: r' => range_eqb x y && locations_eqb l' r'
  | _, _ => false
  end.
Definition same_warning (a b : annotation) : bool :=
  locations_eqb (a_location a) (a_location b) && N.eqb (a_code a) (a_code b) && String.eqb (a_message a) (a_message b).
Definition warn (ws : list annotation) (w : annotation) : list annotation :=
  if existsb (fun item => same_warning item w) ws then ws else (ws ++ [w])%list.

(** snowcrash Report (SourceAnnotation.h:150-169): one error (code 0 = OK) and warnings *)
Record report : Type := Report { r_error : annotation; r_warnings : list annotation }.

(** what RegisterNamedTypes + BlueprintToRefract do: return the API category or throw
    std::exception (its what()), snowcrash::Error, or something else *)
Inductive conversion : Type :=
| Converted (e : element)
| ThrowsStd (what : string)
| ThrowsError (a : annotation)
| ThrowsOther.

(** options.h:14-31 *)
Record parse_options : Type := ParseOptions { name_required : bool; skip_bodies : bool; skip_schemas : bool }.
Record serialize_options : Type := SerializeOptions { sourcemaps : bool; format : Z }.
Definition YAML : Z := 0.
Definition JSON : Z := 1.

Definition EINVALID_INPUT : Z := -2.                      (* drafter.h:107 *)
Definition MSONError : N := 4.                            (* SourceAnnotation.h:109 *)
Definition is_ok (a : annotation) : bool := N.eqb (a_code a) 0.   (* SourceAnnotation::OK *)

(** the heap: live objects by address *)
Inductive obj : Type :=
| OResult (e : element)
| OText (s : string)
| OParseOptions (o : parse_options)
| OSerializeOptions (o : serialize_options).
Record heap : Type := Heap { cells : list (nat * obj); next : nat }.

Definition load (h : heap) (p : nat) : option obj :=
  match find (fun c => Nat.eqb (fst c) p) (cells h) with Some (_, o) => Some o | None => None end.
Definition alloc (h : heap) (o : obj) : nat * heap := (next h, Heap ((next h, o) :: cells h) (S (next h))).
(** delete/free of a non null pointer: undefined unless live *)
Definition release (h : heap) (p : nat) : option heap :=
  match load h p with
  | Some _ => Some (Heap (filter (fun c => negb (Nat.eqb (fst c) p)) (cells h)) (next h))
  | None => None
  end.
Definition store (h : heap) (p : nat) (o : obj) : heap :=
  Heap (map (fun c => if Nat.eqb (fst c) p then (p, o) else c) (cells h)) (next h).

(** a pointer argument that may be NULL, and what it points at *)
Definition load_parse_options (h : heap) (p : option nat) : option (option parse_options) :=
  match p with
  | None => Some None
  | Some q => match load h q with Some (OParseOptions o) => Some (Some o) | _ => None end
  end.
Definition load_serialize_options (h : heap) (p : option nat) : option (option serialize_options) :=
  match p with
  | None => Some None
  | Some q => match load h q with Some (OSerializeOptions o) => Some (Some o) | _ => None end
  end.

(** options.cc:10-23 *)
Definition is_name_required (o : option parse_options) : bool :=
  match o with Some o => name_required o | None => false end.
Definition are_sourcemaps_included (o : option serialize_options) : bool :=
  match o with Some o => sourcemaps o | None => false end.
Definition get_format (o : option serialize_options) : Z :=
  match o with Some o => format o | None => YAML end.

Definition annotations_to_refract (index : list N) (key : string) (l : list annotation) : option (list element) :=
  mapM (AnnotationToRefract index key) l.

(** Iterate.h:68-109 Children with FilterVisitor.h:32-39 and Query.cc:11-14: every child of an
    iterable root whose element name matches, in order. Iterate.h:96 calls get() on the root and
    on every child, which asserts that it holds a value. Simplification: the children of an enum
    or holder root (not iterable) are not modelled, parse results are arrays. *)
Definition iterable (d : dsd element) : option (list element) :=
  match d with
  | DArray l | DObject l | DExtend l | DOption l | DSelect l => Some l
  | _ => None
  end.
Definition filter_children (name : string) (e : element) : option (list element) :=
  match eget e with
  | None => None
  | Some d =>
    match iterable d with
    | None => Some []
    | Some l => if forallb ehas l then Some (filter (fun c => String.eqb (ename c) name) l) else None
    end
  end.

Section Api.
  Variable Blueprint : Type.
  (** snowcrash::parse: [true] iff RequireBlueprintNameOption *)
  Variable parse : bool -> string -> report * Blueprint.
  (** RegisterNamedTypes and BlueprintToRefract, with the warnings they pass to context.warn *)
  Variable convert : Blueprint -> option parse_options -> conversion * list annotation.

  (** SerializeResult.cc:40-91 WrapRefract: the report afterwards and the parse result *)
  Definition WrapRefract (index : list N) (rep : report) (bp : Blueprint) (opts : option parse_options)
    : option (report * element) :=
    let conv :=
      if is_ok (r_error rep) then
        match convert bp opts with
        | (Converted e, ws) => Some (r_error rep, [e], ws)
        | (ThrowsStd what, ws) => Some (Annotation what MSONError [], [], ws)   (* 59-60 *)
        | (ThrowsError a, ws) =>                                                 (* 61-63, 67-69 *)
            Some (if is_ok a then r_error rep else a, [], ws)
        | (ThrowsOther, _) => None
        end
      else Some (r_error rep, [], []) in
    match conv with
    | None => None
    | Some (error, api, ws) =>
      let warnings := (r_warnings rep ++ fold_left warn ws [])%list in          (* 81-83 *)
      match annotations_to_refract index "error" (if is_ok error then [] else [error]),   (* 76-78 *)
            annotations_to_refract index "warning" warnings with                 (* 85-90 *)
      | Some es, Some wes =>
          Some (Report error warnings, set_name (make_element (DArray (api ++ es ++ wes)%list)) "parseResult")
      | _, _ => None
      end
    end.

  (** result of an entry point with an out parameter: return code, what is written to *out
      (None: nothing is written), the heap *)
  Definition ret : Type := (Z * option (option nat) * heap)%type.

  (** drafter.cc:68-93 drafter_parse_blueprint; [out]: is the out pointer non-NULL? *)
  Definition drafter_parse_blueprint (h : heap) (source : option string) (out : bool) (popts : option nat)
    : option ret :=
    match source with
    | None => Some (EINVALID_INPUT, None, h)
    | Some src =>
      match load_parse_options h popts, GetLinesEndIndex src with
      | Some opts, Some index =>
        let '(rep, bp) := parse (is_name_required opts) src in
        match WrapRefract index rep bp opts with
        | None => None
        | Some (rep', e) =>
          let code := Z.of_N (a_code (r_error rep')) in
          let '(p, h1) := alloc h (OResult e) in
          if out then Some (code, Some (Some p), h1)
          else match release h1 p with Some h2 => Some (code, None, h2) | None => None end
        end
      | _, _ => None
      end
    end.

  (** drafter.cc:96-121 drafter_serialize; strdup(c_str()) copies up to the first NUL *)
  Definition drafter_serialize (h : heap) (res : option nat) (sopts : option nat)
    : option (option nat * heap) :=
    match res with
    | None => Some (None, h)
    | Some r =>
      match load h r, load_serialize_options h sopts with
      | Some (OResult e), Some opts =>
        let f := get_format opts in
        let sm := are_sourcemaps_included opts in
        if f =? JSON then
          match render_so e sm with
          | Some v => let '(p, h') := alloc h (OText (c_str (serialize_json v))) in Some (Some p, h')
          | None => None
          end
        else if f =? YAML then
          match obind (render_so e sm) serialize_yaml with
          | Some t => let '(p, h') := alloc h (OText (c_str t)) in Some (Some p, h')
          | None => None
          end
        else Some (None, h)
      | _, _ => None
      end
    end.

  (** drafter.cc:166-169: delete of a null pointer does nothing *)
  Definition drafter_free_result (h : heap) (p : option nat) : option heap :=
    match p with
    | None => Some h
    | Some q => match load h q with Some (OResult _) => release h q | _ => None end
    end.

  (** drafter.cc:39-62 drafter_parse_blueprint_to *)
  Definition drafter_parse_blueprint_to (h : heap) (source : option string) (out : bool)
      (popts sopts : option nat) : option ret :=
    match source with
    | None => Some (EINVALID_INPUT, None, h)
    | Some src =>
      match drafter_parse_blueprint h (Some src) true popts with
      | Some (code, Some (Some r), h1) =>
        match (if out then match drafter_serialize h1 (Some r) sopts with
                           | Some (t, h2) => Some (Some t, h2)
                           | None => None
                           end
               else Some (None, h1)) with
        | None => None
        | Some (w, h2) =>
          match drafter_free_result h2 (Some r) with
          | Some h3 => Some (code, w, h3)
          | None => None
          end
        end
      | Some (code, _, h1) => Some (code, None, h1)              (* 52-54: result is still null *)
      | None => None
      end
    end.

  (** drafter.cc:125-164 drafter_check_blueprint *)
  Definition drafter_check_blueprint (h : heap) (source : option string) (res : bool) (popts : option nat)
    : option ret :=
    match source with
    | None => Some (EINVALID_INPUT, None, h)
    | Some src =>
      match drafter_parse_blueprint h (Some src) res popts with   (* 134-135 *)
      | Some (code, Some (Some r), h1) =>
        match load h1 r with
        | Some (OResult e) =>
          match filter_children "annotation" e with
          | None => None
          | Some l =>
            let '(out, h2) :=
              match l with
              | [] => (None, h1)
              | _ => let '(p, h') := alloc h1 (OResult (set_name (make_element (DArray (map (clone cAll) l))) "parseResult"))
                     in (Some p, h')
              end in
            match drafter_free_result h2 (Some r) with
            | Some h3 => Some (code, Some out, h3)
            | None => None
            end
          end
        | _ => None
        end
      | Some (code, _, h1) => Some (code, None, h1)               (* 137-139 *)
      | None => None
      end
    end.

  (** drafter.cc:171-220 options *)
  Definition drafter_init_parse_options (h : heap) : nat * heap := alloc h (OParseOptions (ParseOptions false false false)).
  Definition drafter_init_serialize_options (h : heap) : nat * heap := alloc h (OSerializeOptions (SerializeOptions false YAML)).
  Definition drafter_free_parse_options (h : heap) (p : option nat) : option heap :=
    match p with
    | None => Some h
    | Some q => match load h q with Some (OParseOptions _) => release h q | _ => None end
    end.
  Definition drafter_free_serialize_options (h : heap) (p : option nat) : option heap :=
    match p with
    | None => Some h
    | Some q => match load h q with Some (OSerializeOptions _) => release h q | _ => None end
    end.
  (** setters assert(opts) *)
  Definition set_parse_options (f : parse_options -> parse_options) (h : heap) (p : option nat) : option heap :=
    match p with
    | None => None
    | Some q => match load h q with Some (OParseOptions o) => Some (store h q (OParseOptions (f o))) | _ => None end
    end.
  Definition drafter_set_name_required := set_parse_options (fun o => ParseOptions true (skip_bodies o) (skip_schemas o)).
  Definition drafter_set_skip_gen_bodies := set_parse_options (fun o => ParseOptions (name_required o) true (skip_schemas o)).
  Definition drafter_set_skip_gen_body_schemas := set_parse_options (fun o => ParseOptions (name_required o) (skip_bodies o) true).
  Definition set_serialize_options (f : serialize_options -> serialize_options) (h : heap) (p : option nat) : option heap :=
    match p with
    | None => None
    | Some q => match load h q with Some (OSerializeOptions o) => Some (store h q (OSerializeOptions (f o))) | _ => None end
    end.
  Definition drafter_set_sourcemaps_included := set_serialize_options (fun o => SerializeOptions true (format o)).
  Definition drafter_set_format (f : Z) := set_serialize_options (fun o => SerializeOptions (sourcemaps o) f).
End Api.
