(** Model of the tables of named types: packages/apib-parser/src/snowcrash/MSON.h:45-70, BlueprintParser.h:325-533, MSONUtility.h:46-64, 293-357, 395-409 *)
From Verif Require Import Base.

(** std::set<std::string> and std::map<std::string, V>: kept in the order of std::string (bytes compared as unsigned) *)
Fixpoint s_insert (x : string) (s : list string) : list string :=
  match s with
  | [] => [x]
  | y :: r => match String.compare x y with Eq => s | Lt => x :: s | Gt => y :: s_insert x r end
  end.
Definition s_union (a b : list string) : list string := fold_left (fun s x => s_insert x s) b a.
Definition s_mem (x : string) (s : list string) : bool := existsb (String.eqb x) s.
Fixpoint m_find {V} (m : list (string * V)) (k : string) : option V :=
  match m with [] => None | (x, v) :: r => if String.eqb k x then Some v else m_find r k end.
Fixpoint m_set {V} (m : list (string * V)) (k : string) (v : V) : list (string * V) :=
  match m with
  | [] => [(k, v)]
  | (x, w) :: r => match String.compare k x with Eq => (k, v) :: r | Lt => (k, v) :: m | Gt => (x, w) :: m_set r k v end
  end.

(** MSON.h:103-112 BaseTypeName; MSON.h:47-56 BaseType *)
Inductive base_name := UndefinedTN | BooleanTN | StringTN | NumberTN | ArrayTN | EnumTN | ObjectTN.
Inductive base_type := UndefinedBT | PrimitiveBT | ImplicitPrimitiveBT | ObjectBT | ImplicitObjectBT | ValueBT | ImplicitValueBT.
(** MSONUtility.h:46-64 parseBaseType *)
Definition parse_base (b : base_name) : base_type :=
  match b with
  | StringTN | NumberTN | BooleanTN => PrimitiveBT
  | ObjectTN => ObjectBT
  | ArrayTN | EnumTN => ValueBT
  | UndefinedTN => UndefinedBT
  end.
(** MSON.h:87-128 Symbol, TypeName; 149-159 TypeSpecification *)
Record symbol : Type := Sym { s_literal : string; s_variable : bool }.
Record type_name : Type := TN { n_base : base_name; n_symbol : symbol }.
Record type_spec : Type := TS { t_name : type_name; t_nested : list type_name }.
(** MSON.cc:18-26 *)
Definition symbol_empty (s : symbol) : bool := (String.eqb (s_literal s) "" && negb (s_variable s))%bool.
Definition name_empty (n : type_name) : bool := match n_base n with UndefinedTN => symbol_empty (n_symbol n) | _ => false end.
(** the test that recurs: a literal that is not empty and no variable *)
Definition names_type (s : symbol) : bool := (negb (String.eqb (s_literal s) "") && negb (s_variable s))%bool.

(** Errors. Report::error holds the last one. *)
Inductive type_error := Twice (id : string) | Circular (id : string) | Missing (id : string).
(** MSON.h:58-65 the tables. Source maps of the inheritance table are not modelled. *)
Record tables : Type := T {
  bases : list (string * base_type);
  supers : list (string * string);
  deps : list (string * list string)
}.
Definition set_deps (t : tables) (d : list (string * list string)) : tables := T (bases t) (supers t) d.
(** map::operator[] *)
Definition entry (d : list (string * list string)) (k : string) : list string := match m_find d k with Some s => s | None => [] end.
Definition touch (d : list (string * list string)) (k : string) : list (string * list string) :=
  match m_find d k with Some _ => d | None => m_set d k [] end.

(** MSONUtility.h:302-357 addDependency *)
Definition add_dependency (d : list (string * list string)) (dependency dependent : string) (check : bool)
    : list (string * list string) * option type_error :=
  match m_find d dependency with
  | None => (d, Some (Missing dependency))
  | Some more =>
    if (check && (String.eqb dependent dependency || s_mem dependent more))%bool then (d, Some (Circular dependent))
    else
      let d := touch d dependent in
      if s_mem dependency (entry d dependent) then (d, None)
      else (map (fun kv => if (String.eqb (fst kv) dependent || s_mem dependent (snd kv))%bool
                           then (fst kv, s_union (s_insert dependency (snd kv)) more) else kv) d, None)
  end.

(** A declaration met by preprocessNestedSections (BlueprintParser.h:162-229): identifier and type specification of
    its signature. Parsing the signature is not modelled. *)
Record declaration : Type := Decl { d_id : string; d_spec : type_spec }.

(** MSONUtility.h:395-409, the part of parseTypeDefinition that changes the tables; the report is thrown away
    (BlueprintParser.h:335-342) and namedTypeContext is empty *)
Definition parse_definition (t : tables) (spec : type_spec) : tables :=
  let s := n_symbol (t_name spec) in
  let base := match parse_base (n_base (t_name spec)), m_find (bases t) (s_literal s) with
              | UndefinedBT, Some b => b
              | b, _ => b
              end in
  match base with
  | UndefinedBT => if names_type s then set_deps t (fst (add_dependency (deps t) (s_literal s) "" false)) else t
  | _ => t
  end.

(** BlueprintParser.h:325-399 fillNamedTypeTables *)
Definition fill (t : tables) (d : declaration) : tables * option type_error :=
  let t := parse_definition t (d_spec d) in
  let id := d_id d in
  match m_find (deps t) id with
  | Some _ => (t, Some (Twice id))
  | None =>
    let t := set_deps t (m_set (deps t) id []) in
    let n := t_name (d_spec d) in
    match n_base n with
    | UndefinedTN =>
      if names_type (n_symbol n) then
        (T (bases t) (m_set (supers t) id (s_literal (n_symbol n)))
           (m_set (deps t) id (s_insert (s_literal (n_symbol n)) (entry (deps t) id))), None)
      else if name_empty n then (T (m_set (bases t) id ImplicitObjectBT) (supers t) (deps t), None)
      else (t, None)
    | b =>
      let nested := match b with ArrayTN | EnumTN => map (fun n => s_literal (n_symbol n)) (filter (fun n => names_type (n_symbol n)) (t_nested (d_spec d))) | _ => [] end in
      (T (m_set (bases t) id (parse_base b)) (supers t) (m_set (deps t) id (s_union (entry (deps t) id) nested)), None)
    end
  end.
(** the loop of preprocessNestedSections: an error does not end it *)
Definition last_error (a b : option type_error) : option type_error := match b with Some _ => b | None => a end.
Fixpoint fill_all (t : tables) (e : option type_error) (ds : list declaration) : tables * option type_error :=
  match ds with [] => (t, e) | d :: r => let (t', e') := fill t d in fill_all t' (last_error e e') r end.

(** BlueprintParser.h:432-458 resolveNamedTypeDependencyTableEntry: one round of the do loop, and the loop. None: the rounds given do not suffice *)
Definition round (d : list (string * list string)) (id : string) : list (string * list string) :=
  fold_left (fun d x => let d := touch d x in m_set d id (s_union (entry d id) (entry d x))) (entry d id) (touch d id).
Fixpoint rounds (n : nat) (d : list (string * list string)) (id : string) : option (list (string * list string)) :=
  match n with
  | O => None
  | S n =>
    let d' := round d id in
    if forallb (fun x => s_mem x (entry d id)) (entry d' id) then Some d' else rounds n d' id
  end.
(** BlueprintParser.h:407-413. Simplified: entries inserted meanwhile are empty, visiting them as well changes nothing. *)
Fixpoint resolve_deps (n : nat) (d : list (string * list string)) (ids : list string) : option (list (string * list string)) :=
  match ids with [] => Some d | id :: r => match rounds n d id with Some d => resolve_deps n d r | None => None end end.

(** BlueprintParser.h:467-533 resolveNamedTypeBaseTableEntry. The outer None: endless recursion or an iterator dereferenced at its end. *)
Fixpoint resolve_base (n : nat) (t : tables) (sub super : string) : option (tables * option type_error) :=
  match n with
  | O => None
  | S n =>
    match m_find (bases t) sub with
    | Some _ => Some (t, None)
    | None =>
      let t := set_deps t (touch (deps t) sub) in
      if s_mem sub (entry (deps t) sub) then Some (t, Some (Circular sub)) else
      match m_find (bases t) super with
      | Some b => Some (T (m_set (bases t) sub b) (supers t) (deps t), None)
      | None =>
        match m_find (supers t) super with
        | None => Some (t, Some (Missing super))
        | Some above =>
          match resolve_base n t super above with
          | Some (t, None) =>
            match m_find (bases t) super with
            | Some b => Some (T (m_set (bases t) sub b) (supers t) (deps t), None)
            | None => None
            end
          | o => o
          end
        end
      end
    end
  end.
(** BlueprintParser.h:407-422 resolveNamedTypeTables, the second loop: an error, also one from before, ends it *)
Fixpoint resolve_bases (n : nat) (t : tables) (e : option type_error) (l : list (string * string)) : option (tables * option type_error) :=
  match l with
  | [] => Some (t, e)
  | (sub, super) :: r =>
    match resolve_base n t sub super with
    | None => None
    | Some (t, e') => match last_error e e' with Some x => Some (t, Some x) | None => resolve_bases n t None r end
    end
  end.
(** BlueprintParser.h:166-229 for the declarations of a blueprint, with n rounds and calls at most *)
Definition preprocess (n : nat) (ds : list declaration) : option (tables * option type_error) :=
  let (t, e) := fill_all (T [] [] []) None ds in
  match resolve_deps n (deps t) (map fst (deps t)) with
  | None => None
  | Some d => resolve_bases n (set_deps t d) e (supers t)
  end.
