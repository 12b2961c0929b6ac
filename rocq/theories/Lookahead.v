(** Model of packages/apib-parser/src/snowcrash/BlueprintParser.h:162-240, 325-399 preprocessNestedSections, checkForPossibleSectionMistakes, fillNamedTypeTables;
    ActionParser.h:530-546 checkForTypoMistake; ResourceParser.h:315-326 matchNamedResourceHeader. The tables are those of TypeTables.v, the texts are read as in
    Signature.v and TypeDefs.v. The source maps of the errors are not modelled. *)
From Verif Require Import Base ByteBuffer StringUtility Markdown MarkdownSpec Regex Keywords TypeTables SourceMap Mson Signature TypeDefs MembersTree.
Local Open Scope string_scope.

(** contextSectionType and contextCur: UndefinedSectionType, ResourceSectionType with its header, or DataStructureGroupSectionType *)
Inductive place_in : Type := Nowhere | InResource (header : tree) | InStructures.
(** BlueprintParser.h:180-191: a complete action is recognized as a resource *)
Definition kind_ahead (t : tree) : section_type :=
  match section_keyword t with
  | ResourceSection => match action_type_of t with CompleteAction => ActionSection | _ => ResourceSection end
  | ty => ty
  end.
(** 195-206: the context behind a header, first step *)
Definition entered (t : tree) (c : place_in) : place_in :=
  match kind_ahead t with
  | ResourceSection => InResource t
  | DataStructureGroupSection => InStructures
  | _ => match c with
         | InStructures => InStructures
         | c => match action_section_type t with ActionSection => Nowhere | _ => c end
         end
  end.
(** 209-219: the context behind a header, and whether a named type is declared *)
Definition stays (ty : section_type) : bool :=
  match ty with
  | MSONSampleDefaultSection | MSONPropertyMembersSection | MSONValueMembersSection | UndefinedSection | DataStructureGroupSection => true
  | _ => false
  end.
Definition behind (t : tree) (c : place_in) : place_in :=
  match entered t c with InStructures => if stays (kind_ahead t) then InStructures else Nowhere | c => c end.

(** 346-399: the rest of fillNamedTypeTables, see TypeTables.fill *)
Definition declare (t : tables) (id : string) (spec : type_spec) : tables * option type_error :=
  match m_find (deps t) id with
  | Some _ => (t, Some (Twice id))
  | None =>
    let t := set_deps t (m_set (deps t) id []) in
    let n := t_name spec in
    match n_base n with
    | UndefinedTN =>
      if names_type (n_symbol n) then
        (T (bases t) (m_set (supers t) id (s_literal (n_symbol n)))
           (m_set (deps t) id (s_insert (s_literal (n_symbol n)) (entry (deps t) id))), None)
      else if name_empty n then (T (m_set (bases t) id ImplicitObjectBT) (supers t) (deps t), None)
      else (t, None)
    | b =>
      let nested := match b with ArrayTN | EnumTN => map (fun n => s_literal (n_symbol n)) (filter (fun n => names_type (n_symbol n)) (t_nested spec)) | _ => [] end in
      (T (m_set (bases t) id (parse_base b)) (supers t) (m_set (deps t) id (s_union (entry (deps t) id) nested)), None)
    end
  end.
(** 325-346 fillNamedTypeTables; [name]: "" if not given. What is said about the signature is thrown away; namedTypeContext is empty *)
Definition fill_named (t : tree) (subject name : string) (tb : tables) : outcome (tables * option type_error) :=
  andthen (parse_signature (enough_for [t_text t; subject]) names_traits (t_text t) subject) (fun '(sg, _) =>
  andthen (parse_type_definition (enough_for (attributes sg)) "" (attributes sg) tb) (fun '(td, tb, _) =>
  if String.eqb name "" then andthen (strip_backticks (identifier sg)) (fun '(id, _) => Val (declare tb id (td_spec td)))
  else andthen (check_variable (identifier sg)) (fun variable => if variable : bool then Val (tb, None) else Val (declare tb name (td_spec td))))).

(** ResourceParser.h:315-326 *)
Definition attributes_name (header : tree) : string :=
  match regex_capture (t_text header) NamedResourceHeaderRegex 4 with Some g => trim (nth 1 g "") | None => "" end.
(** ActionParser.h:530-546 *)
Definition typo_text (text : string) : string := "URI path in '" +++ text +++ "' is not absolute, it should have a leading forward slash".
Definition typos (t : tree) : list remark :=
  if is_header t then if regex_match (t_text t) NamedActionNonAbsoluteURIRegex then [Warns 12 (typo_text (t_text t))] else [] else [].

(** the tables, the error and the warnings *)
Record ahead : Type := Ahead { a_tables : tables; a_error : option type_error; a_notes : list (places * remark) }.
Definition filled (r : outcome (tables * option type_error)) (a : ahead) : outcome ahead :=
  andthen r (fun '(tb, e) => Val (Ahead tb (last_error (a_error a) e) (a_notes a))).
(** 178-224: one node *)
Definition look_at (t : tree) (c : place_in) (a : ahead) : outcome (place_in * ahead) :=
  let ty := kind_ahead t in
  andthen (if is_header t then
             match entered t c, ty with
             | InStructures, UndefinedSection => andthen (filled (fill_named t (t_text t) "" (a_tables a)) a) (fun a => Val (InStructures, a))
             | _, _ => Val (behind t c, a)
             end
           else if is_item t then
             match c, ty with
             | InResource h, AttributesSection =>
               if String.eqb (attributes_name h) "" then Val (c, a)
               else match t_children t with
                    | x :: _ => andthen (filled (fill_named t (t_text x) (attributes_name h) (a_tables a)) a) (fun a => Val (c, a))
                    | [] => ByteBuffer.Wild
                    end
             | _, _ => Val (c, a)
             end
           else Val (c, a)) (fun '(c, a) =>
  Val (c, match ty with UndefinedSection => Ahead (a_tables a) (a_error a) (a_notes a ++ map (pair (spot t)) (typos t))%list | _ => a end)).
(** 176-227 the loop *)
Fixpoint look_along (l : list tree) (c : place_in) (a : ahead) : outcome ahead :=
  match l with [] => Val a | t :: r => andthen (look_at t c a) (fun '(c, a) => look_along r c a) end.
(** 229, 407-422 resolveNamedTypeTables, with n rounds and calls at most *)
Definition resolve_tables (n : nat) (t : tables) (e : option type_error) : option (tables * option type_error) :=
  match resolve_deps n (deps t) (map fst (deps t)) with None => None | Some d => resolve_bases n (set_deps t d) e (supers t) end.
Definition preprocess_nodes (n : nat) (l : list tree) : outcome (tables * option type_error * list (places * remark)) :=
  andthen (look_along l Nowhere (Ahead (T [] [] []) None [])) (fun a =>
  match resolve_tables n (a_tables a) (a_error a) with Some (t, e) => Val (t, e, a_notes a) | None => Endless end).
