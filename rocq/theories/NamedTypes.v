(** Model of the ordering and typing of named types: packages/drafter/src/NamedTypesRegistry.cc:51-407 *)
From Verif Require Import Base TypeTables.

(** snowcrash/MSON.h:225-348: members of a type, with the parts this file reads: type specifications and nested sections *)
#[local] Unset Elimination Schemes.
Inductive mson_element : Type :=
| Property (value key : type_spec) (sections : list (list mson_element))
| ValueMember (value : type_spec) (sections : list (list mson_element))
| MixinMember (type : type_spec)
| OneOfMember (options : list mson_element)
| GroupMember (members : list mson_element)
| NoMember.
#[local] Set Elimination Schemes.
(** snowcrash/MSON.h:269-282 NamedType *)
Record named_type : Type := NT { nt_name : string; nt_spec : type_spec; nt_sections : list (list mson_element) }.

(** NamedTypesRegistry.cc:54-86 name *)
Definition spec_name (s : type_spec) : string := s_literal (n_symbol (t_name s)).

(** NamedTypesRegistry.cc:193-202 collectMembers of type names *)
Definition collect_names (l : list type_name) : list string := fold_left (fun m n => s_insert (s_literal (n_symbol n)) m) l [].
Section Sections.
Context (collect : mson_element -> list string -> list string).
(** NamedTypesRegistry.cc:168-176 collectMembers of elements *)
Definition collect_elements (l : list mson_element) : list string := fold_left (fun m e => collect e m) l [].
(** NamedTypesRegistry.cc:178-191 collectMembers of sections *)
Definition collect_sections (l : list (list mson_element)) : list string := fold_left (fun m s => s_union m (collect_elements s)) l [].
End Sections.
(** NamedTypesRegistry.cc:99-157 collectElementMember *)
Fixpoint collect_element (e : mson_element) (result : list string) : list string :=
  match e with
  | Property value key sections =>
    if negb (String.eqb (spec_name value) "") then s_insert (spec_name value) result
    else if negb (String.eqb (spec_name key) "") then s_insert (spec_name key) result
    else match t_nested value with
         | [] => s_union result (collect_sections collect_element sections)
         | l => s_union result (collect_names l)
         end
  | ValueMember value sections =>
    if negb (String.eqb (spec_name value) "") then s_insert (spec_name value) result
    else s_union result (collect_sections collect_element sections)
  | MixinMember type => if negb (String.eqb (spec_name type) "") then s_insert (spec_name type) result else result
  | OneOfMember _ | GroupMember _ | NoMember => result
  end.
(** NamedTypesRegistry.cc:204-207 *)
Definition collect_type (d : named_type) : list string := collect_sections collect_element (nt_sections d).

(** NamedTypesRegistry.cc:209-232 collectMembers into the deep: the members, and the set of types met. None: the calls given do not suffice *)
Fixpoint collect_deep (n : nat) (id : string) (members : list (string * list string)) (resolved : list string)
    : option (list string * list string) :=
  match n with
  | O => None
  | S n =>
    if s_mem id resolved then Some ([], resolved) else
    let resolved := s_insert id resolved in
    match m_find members id with
    | None => Some ([], resolved)
    | Some direct =>
      fold_left (fun st i =>
        match st with
        | None => None
        | Some (collected, resolved) =>
          match collect_deep n i members resolved with
          | None => None
          | Some (sub, resolved) => Some (s_union (s_insert i collected) sub, resolved)
          end
        end) direct (Some ([], resolved))
    end
  end.

(** NamedTypesRegistry.cc:234-278 DependencyTypeInfo *)
Record type_info : Type := Info {
  child_to_parent : list (string * string);
  object_to_members : list (string * list string);
  name_to_element : list (string * named_type)
}.
Definition parent_map (ds : list named_type) : list (string * string) :=
  fold_left (fun m d => if negb (String.eqb (spec_name (nt_spec d)) "") then m_set m (nt_name d) (spec_name (nt_spec d)) else m) ds [].
Definition element_map (ds : list named_type) : list (string * named_type) := fold_left (fun m d => m_set m (nt_name d) d) ds [].
Definition member_map (ds : list named_type) : list (string * list string) := fold_left (fun m d => m_set m (nt_name d) (collect_type d)) ds [].
Definition deep_map (n : nat) (members : list (string * list string)) : option (list (string * list string)) :=
  fold_left (fun st kv =>
    match st, collect_deep n (fst kv) members [] with
    | Some m, Some (c, _) => Some (m_set m (fst kv) c)
    | _, _ => None
    end) members (Some []).
Definition make_info (n : nat) (ds : list named_type) : option type_info :=
  match deep_map n (member_map ds) with
  | Some m => Some (Info (parent_map ds) m (element_map ds))
  | None => None
  end.

(** NamedTypesRegistry.cc:294-302 hasMember *)
Definition has_member (i : type_info) (object member : string) : bool :=
  match m_find (object_to_members i) object with Some m => s_mem member m | None => false end.
(** NamedTypesRegistry.cc:304-329 hasAncestor. None: the rounds given do not suffice *)
Fixpoint has_ancestor (n : nat) (i : type_info) (current ancestor : string) (symbols : list string) : option bool :=
  match n with
  | O => None
  | S n =>
    if String.eqb current ancestor then Some true else
    match m_find (child_to_parent i) current with
    | None => Some false
    | Some next => if s_mem current symbols then Some false else has_ancestor n i next ancestor (symbols ++ [current])
    end
  end.
(** NamedTypesRegistry.cc:331-361 GetType, ResolveType. None: the rounds given do not suffice *)
Fixpoint resolve_type (n : nat) (i : type_info) (s : string) : option base_name :=
  match n with
  | O => None
  | S n =>
    if String.eqb s "" then Some UndefinedTN else
    match m_find (name_to_element i) s with
    | None => Some UndefinedTN
    | Some d =>
      match n_base (t_name (nt_spec d)) with
      | UndefinedTN =>
        match m_find (child_to_parent i) s with
        | None => Some UndefinedTN
        | Some p => if String.eqb s p then Some UndefinedTN else resolve_type n i p
        end
      | b => Some b
      end
    end
  end.

(** NamedTypesRegistry.cc:381-394 InheritanceComparator *)
Definition before (n : nat) (i : type_info) (first second : named_type) : option bool :=
  match has_ancestor n i (nt_name first) (nt_name second) [] with
  | None => None
  | Some a =>
    if (a || has_member i (nt_name first) (nt_name second))%bool then Some false else
    match has_ancestor n i (nt_name second) (nt_name first) [] with
    | None => None
    | Some a =>
      if (a || has_member i (nt_name second) (nt_name first))%bool then Some true
      else Some (match String.compare (nt_name first) (nt_name second) with Lt => true | _ => false end)
    end
  end.
(** the comparison the sort of NamedTypesRegistry.cc:412 makes *)
Definition compare_types (n : nat) (ds : list named_type) (first second : named_type) : option bool :=
  match make_info n ds with Some i => before n i first second | None => None end.
(** the type of the element registered first for a named type, NamedTypesRegistry.cc:419-424 *)
Definition first_type (n : nat) (ds : list named_type) (d : named_type) : option base_name :=
  match make_info n ds with Some i => resolve_type n i (nt_name d) | None => None end.
