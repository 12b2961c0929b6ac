(** Model of the registration of named types: packages/drafter/src/NamedTypesRegistry.cc:28-49, 397-475 *)
From Coq Require Import Permutation.
From Verif Require Import Base Element Extend Registry Expand SourceMap TypeTables NamedTypes Mson Blueprint.

(** NamedTypesRegistry.cc:28-48 FindNamedTypes *)
Fixpoint find_types (b : belement) : list structure :=
  match b_class b with
  | DataStructureElement => [b_structure b]
  | c =>
    if negb (structure_empty (re_attributes (b_resource b))) then [re_attributes (b_resource b)]
    else match c with CategoryElement => flat_map find_types (let 'BElem _ _ _ _ _ l _ := b in l) | _ => [] end
  end.
Definition find_named_types (l : list belement) : list structure := flat_map find_types l.

(** What DependencyTypeInfo reads of a data structure: NamedTypesRegistry.cc:54-207 *)
Fixpoint seen (e : melement) : mson_element :=
  let sections (m : mmember melement) := map (fun s => map seen (sc_elements s)) (m_sections m) in
  match e with
  | MEmpty => NoMember
  | MProperty n m => Property (td_spec (vd_type (m_value m))) (td_spec (vd_type (p_variable n))) (sections m)
  | MValue m => ValueMember (td_spec (vd_type (m_value m))) (sections m)
  | MMixin t => MixinMember (td_spec t)
  | MOneOf l => OneOfMember (map seen l)
  | MGroup l => GroupMember (map seen l)
  end.
Definition type_name_of (s : structure) : string := s_literal (n_symbol (ds_name s)).
Definition seen_type (s : structure) : named_type :=
  NT (type_name_of s) (td_spec (ds_type s)) (map (fun c => map seen (sc_elements c)) (ds_sections s)).

(** NamedTypesRegistry.cc:430-434, 458-462: the error thrown when add() throws a LogicError *)
Definition reserved_error (s : structure) : annotation :=
  Annotation (type_name_of s +++ " is a reserved keyword and cannot be used.")%string 4 (ds_name_map s).
Definition add_type (s : structure) (e : option element) (r : registry) : X registry :=
  match radd r e with
  | Ok (_, r) => xret r
  | Throws _ => ([], Refused (reserved_error s))
  | Undefined => ([], Breaks)
  end.

Section Registration.
  (** the steps granted to ResolveType and FindRootAncestor *)
  Context (fuel : nat).

  (** NamedTypesRegistry.cc:419-435 an empty element of the right type *)
  Definition stub (b : base_name) (s : structure) : element :=
    set_meta (create b "" eValue) (iset (emeta (create b "" eValue)) "id" (str_elem (type_name_of s))).
  Definition preregister (found : list structure) (r : registry) (s : structure) : X registry :=
    match first_type fuel (map seen_type found) (seen_type s) with
    | None => ([], Runs)
    | Some b => add_type s (Some (stub b s)) r
    end.
  (** NamedTypesRegistry.cc:437-465 *)
  Definition define (r : registry) (s : structure) : X registry :=
    if String.eqb (type_name_of s) "" then xret r
    else xbind (of_mson (structure_to_refract fuel r s)) (fun e => add_type s e (snd (rremove r (type_name_of s)))).

  (** NamedTypesRegistry.cc:399-470 RegisterNamedTypes. The comparison std::sort is given at :412 is no strict weak ordering
      (C38_transitive_refuted): [order] is what the sort makes of [found], an arrangement of it. *)
  Definition register (found order : list structure) : X registry :=
    xbind (xfold (preregister found) base_types order) (fun r => xfold define r order).
End Registration.
