(** Model of packages/drafter/src/refract/dsd/Extend.cc: merging the elements of an inheritance
    chain. *)
From Verif Require Import Base Element.

(** the ways a call ends *)
Inductive res (A : Type) : Type :=
| Ok (a : A)
| Throws (what : string)      (* refract::LogicError *)
| Undefined.                  (* an assertion fails (a null or value-less element is read) *)
Arguments Ok {A} _. Arguments Throws {A} _. Arguments Undefined {A}.

(** Extend.cc:44-56 InfoMerge *)
Definition info_merge (skip : string -> bool) (target source : info) : info :=
  fold_left (fun t kv => if skip (fst kv) then t else iset t (fst kv) (clone cAll (snd kv))) source target.
(** Extend.cc:58-71, 186-191 *)
Definition skip_nothing (k : string) : bool := false.
Definition skip_meta_keywords (k : string) : bool :=
  (String.eqb k "id" || String.eqb k "prefix" || String.eqb k "namespace")%bool.
Definition skip_enumerations (k : string) : bool := String.eqb k "enumerations".

(** std::find_if over a list whose predicate may be undefined ([None]) *)
Fixpoint any_match {A} (p : A -> option bool) (l : list A) : option bool :=
  match l with
  | [] => Some false
  | x :: r => match p x with Some true => Some true | Some false => any_match p r | None => None end
  end.

(** Extend.cc:99-101, 106-110, 121-128: the key of a member that must be a string with a value *)
Definition asserted_key (e : element) : option string :=
  match eget e with
  | Some (DMember (Some k) _) => match eget k with Some (DString s) => Some s | _ => None end
  | _ => None
  end.

(** Extend.cc:104-134: does entry [e] of the target hold the member key [k]? *)
Definition member_match (k : string) (e : element) : option bool :=
  match ekind e with
  | KMember => option_map (String.eqb k) (asserted_key e)
  | KSelect =>
    match eget e with
    | Some (DSelect opts) =>
      any_match (fun o =>
        match eget o with
        | Some (DOption l) =>
          any_match (fun x => match ekind x with
                              | KMember => option_map (String.eqb k) (asserted_key x)
                              | _ => Some false
                              end) l
        | _ => None
        end) opts
    | _ => None
    end
  | _ => Some false
  end.

(** Extend.cc:136-142: refs are matched by symbol (Ref.cc:34) *)
Definition ref_symbol (e : element) : option string :=
  match eget e with Some (DRef s) => Some s | _ => None end.
Definition ref_match (s : string) (e : element) : option bool :=
  match ekind e with
  | KRef => option_map (String.eqb s) (ref_symbol e)
  | _ => Some false
  end.

(** insert(erase(match), m): replace the first match in place; [Some None]: no match *)
Fixpoint splice (p : element -> option bool) (m : element) (l : list element) : option (option (list element)) :=
  match l with
  | [] => Some None
  | x :: r =>
    match p x with
    | None => None
    | Some true => Some (Some (m :: r))
    | Some false => option_map (option_map (cons x)) (splice p m r)
    end
  end.

(** Extend.cc:97-152: one entry of the merged object *)
Definition merge_entry (value : list element) (m : element) : option (list element) :=
  let found :=
    match ekind m with
    | KMember => match asserted_key m with Some k => splice (member_match k) (clone cAll m) value | None => None end
    | KRef => match ref_symbol m with Some s => splice (ref_match s) (clone cAll m) value | None => None end
    | _ => Some None
    end in
  match found with
  | None => None
  | Some (Some l) => Some l
  | Some None => Some (obj_push_back value (clone cAll m))
  end.

Fixpoint foldM {A B} (f : A -> B -> option A) (a : A) (l : list B) : option A :=
  match l with [] => Some a | x :: r => match f a x with Some a' => foldM f a' r | None => None end end.

(** Extend.cc:76-169 ValueMerge. The element keeps its name, meta and attributes.
    - primitives, enums, refs (76-83): set(merge.get()); called only if append holds a value
    - objects (85-156): the target is set() at the first entry if it holds no value
    - other containers (158-169): appended, but only if the target holds a value *)
Definition value_merge (t a : element) : option element :=
  match edata t, edata a with
  | DObject _, DObject la =>
    match la with
    | [] => Some t
    | _ :: _ =>
      let t' := if ehas t then t else eset t (DObject []) in
      match edata t' with
      | DObject lt => option_map (fun l => eset t' (DObject l)) (foldM merge_entry lt la)
      | _ => None
      end
    end
  | DArray lt, DArray la => if ehas t then Some (eset t (DArray (lt ++ map (clone cAll) la))) else Some t
  | DString _, DString _ | DNumber _, DNumber _ | DBoolean _, DBoolean _ | DRef _, DRef _ | DEnum _, DEnum _ =>
      Some (eset t (dsd_map clone_all (edata a)))
  | _, _ => None
  end.

(** Extend.cc:171-184 ElementMerge *)
Definition element_merge (t a : element) : option element :=
  let t1 := set_meta t (info_merge skip_meta_keywords (emeta t) (emeta a)) in
  let t2 := set_attrs t1 (info_merge skip_nothing (eattrs t1) (eattrs a)) in
  if ehas a then value_merge t2 a else Some t2.

(** Extend.cc:229-242: move an enumeration to the end, dropping the first equal one *)
Fixpoint drop_equal (x : element) (l : list element) : option (list element) :=
  match l with
  | [] => Some []
  | y :: r => match elem_eq x y with
              | Some true => Some r
              | Some false => option_map (cons y) (drop_equal x r)
              | None => None
              end
  end.
Definition add_enumeration (l : list element) (x : element) : option (list element) :=
  option_map (fun r => r ++ [clone cAll x])%list (drop_equal x l).

(** Extend.cc:211-245 the enumerations attribute *)
Definition enumerations_merge (t a : info) : option info :=
  match ifind a "enumerations" with
  | None => Some t
  | Some ae =>
    match eget ae with
    | Some (DArray la) =>
      match la with
      | [] => Some t
      | _ :: _ =>
        match ifind t "enumerations" with
        | None => Some (iset t "enumerations" (clone cAll ae))
        | Some te =>
          match eget te with
          | Some (DArray lt) => option_map (fun l => iset t "enumerations" (eset te (DArray l))) (foldM add_enumeration lt la)
          | _ => None
          end
        end
      end
    | _ => None
    end
  end.

(** Extend.cc:202-249 ElementMerge<EnumElement> *)
Definition enum_merge (t a : element) : option element :=
  let t1 := set_meta t (info_merge skip_meta_keywords (emeta t) (emeta a)) in
  let t2 := set_attrs t1 (info_merge skip_enumerations (eattrs t1) (eattrs a)) in
  match enumerations_merge (eattrs t2) (eattrs a) with
  | None => None
  | Some attrs =>
    let t3 := set_attrs t2 attrs in
    if ehas a then value_merge t3 a else Some t3
  end.

Definition of_option {A} (o : option A) : res A := match o with Some a => Ok a | None => Undefined end.

(** Extend.cc:262-316 ElementMerger::operator() with a result *)
Definition merge_step (t e : element) : res element :=
  if negb (kind_beq (ekind e) (ekind t)) then Throws "Can not merge different types of elements" else
  match ekind t with
  | KString | KNumber | KBoolean | KArray | KObject | KRef => of_option (element_merge t e)
  | KEnum => of_option (enum_merge t e)
  | KMember | KExtend | KNull => Throws "Unappropriate kind of element to merging"
  | _ => Throws "Element has no implemented merging"
  end.

Fixpoint merge_from (t : element) (l : list element) : res element :=
  match l with
  | [] => Ok t
  | e :: r => match merge_step t e with Ok t' => merge_from t' r | x => x end
  end.

(** Extend.cc:371-374 merge; Ok None: the null pointer of an empty chain *)
Definition merge (l : list element) : res (option element) :=
  match l with
  | [] => Ok None
  | e :: r => match merge_from (clone cAll e) r with Ok t => Ok (Some t) | Throws w => Throws w | Undefined => Undefined end
  end.
