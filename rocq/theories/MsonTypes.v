(** Model of packages/apib-parser/src/snowcrash/MSONNamedTypeParser.h and DataStructureGroupParser.h, on the trees and the report of MembersTree.v. Siblings are the list of the
    nodes not yet taken. *)
From Verif Require Import Base ByteBuffer StringUtility Markdown MarkdownSpec Regex Keywords TypeTables SourceMap Mson Signature TypeDefs MembersTree.
From Verif Require Sections.
Local Open Scope string_scope.

(** SectionParser.h:96-140 parseNestedSections with the nodes that are left: [step] tells whether the iterator was moved behind the node *)
Fixpoint walk_to {A} (step : tree -> A -> st -> outcome (A * bool * st)) (l : list tree) (a : A) (s : st) : outcome (A * list tree * st) :=
  match l with
  | [] => Val (a, [], s)
  | t :: r => andthen (step t a s) (fun '(a, on, s) => if on : bool then walk_to step r a s else Val (a, l, s))
  end.

(** MSONNamedTypeParser.h:20 MSONReservedCharsRegex: the backslashes are no part of the C string *)
Definition MSONReservedCharsRegex : string := "[]:()<>{}[_*+`-]+".
(** 45-48: TrimString, and the first byte that is left *)
Definition escaped (text : string) : bool := match trim text with String c _ => Ascii.eqb c "`" | "" => false end.
Definition odd_name (text literal : string) : list remark :=
  if escaped text then []
  else if regex_match literal MSONReservedCharsRegex then
    [Warns FormattingCode "please escape the name of the data structure using backticks since it contains MSON reserved characters"]
  else [].

(** MSONNamedTypeParser.h:71-74: an object unless a type with a base is named *)
Definition given_base (b : base_type) : base_type := match b with UndefinedBT => ImplicitObjectBT | b => b end.

Section Types.
Context (source : string).
(** the nodes of a named type, with namedTypeContext *)
Section Below.
Context (context : string) (fuel : nat).
Notation member := (parse_member source context fuel).
Notation one_of := (parse_one_of source context fuel).
(** MSONTypeSectionParser.h MSONTypeSectionHeaderParser: SectionParser.h:32-93 with the HeaderSectionAdapter (147-158). None: the iterator was not moved *)
Definition header_section (ty : section_type) (b : base_type) (t : tree) (r : list tree) (s : st) : outcome (msection melement * option (list tree) * st) :=
  if is_header t then
    andthen (section_head b t s) (fun '(x, on, s) =>
    if on : bool then andthen (walk_to (section_step source context member one_of ty b) r x s) (fun '(x, rest, s) => Val (x, Some rest, s)) else Val (x, None, s))
  else Thrown.
(** MSONNamedTypeParser.h:92-102 processNestedSection; MSONValueMemberParser.h:287-327 processNestedMembers<MSONTypeSectionHeaderParser> *)
Definition type_step (t : tree) (r : list tree) (a : members) (s : st) : outcome (members * option (list tree) * st) :=
  match member_nested_type t with
  | MSONSection | MSONMixinSection | MSONOneOfSection =>
    andthen (mson_section source context member one_of (member_nested_type t) t a s) (fun '(a, on, s) => Val (a, if on : bool then Some r else None, s))
  | ty =>
    let '(l, b) := a in
    let b := resolve t ty b in
    andthen (header_section ty b t r s) (fun '(x, rest, s) => Val ((keep_section t x l, b), rest, s))
  end.
(** SectionParser.h:96-140 parseNestedSections; every node has a nested type *)
Fixpoint type_walk (n : nat) (l : list tree) (a : members) (s : st) : outcome (members * list tree * st) :=
  match n with
  | O => Endless
  | S n =>
    match l with
    | [] => Val (a, [], s)
    | t :: r => andthen (type_step t r a s) (fun '(a, rest, s) => match rest with Some rest => type_walk n rest a s | None => Val (a, l, s) end)
    end
  end.
End Below.

(** MSONNamedTypeParser.h:36-80 finalizeSignature, 82-90 processDescription, 129-135 finalize. Only the name is used of what else the header may hold; the context is empty
    before (it is set by 77 and ResourceParser.h:109 only, and cleared again). The description nodes are always taken, as no section is there yet but theirs *)
Definition parse_named_type (fuel : nat) (l : list tree) (s : st) : outcome (structure * list tree * st) :=
  match l with
  | [] => ByteBuffer.Wild
  | t :: r =>
    if is_header t then
      andthen (signature_of attributes_traits "" t s) (fun '(sg, s) =>
      andthen (parse_type_name (identifier sg) false) (fun name =>
      andthen (define "" t (attributes sg) s) (fun '(td, s) =>
      let context := s_literal (n_symbol name) in
      let s := note (spot t) (odd_name (t_text t) context) s in
      let name_map := if name_empty name then [] else spot t in
      let type_map := if def_empty td then [] else spot t in
      let b := given_base (td_base td) in
      andthen (descriptions source r []) (fun o =>
      match o with
      | None => Val (Str name (set_base b td) [] [] name_map type_map, r, s)
      | Some (sections, others) =>
        andthen (type_walk context fuel (S (List.length others)) others (sections, b) s) (fun '(a, rest, s) =>
        Val (Str name (set_base (snd a) td) (fst a) [] name_map type_map, rest, s))
      end))))
    else Thrown
  end.

(** ** DataStructureGroupParser.h *)
(** Blueprint.h Element, as far as 124-159 isNamedTypeDuplicate looks at it: the name of a resource's attributes, the name of a data structure *)
Inductive belement : Type := BResource (name : string) | BStructure (name : string) | BCategory (l : list belement) | BOther.
Definition is_duplicate (blueprint : list belement) (name : string) : bool :=
  existsb (fun x =>
    match x with
    | BResource n => String.eqb n name
    | BCategory l => existsb (fun y => match y with BResource n | BStructure n => String.eqb n name | _ => false end) l
    | _ => false
    end) blueprint.
(** 30-73 processNestedSection with SectionParser.h:96-140: a node of no named type is unexpected (SectionProcessor.h:270-283) or ends the group *)
Definition taken_text (name : string) : string := "named type with name '" +++ name +++ "' already exists".
Fixpoint structures_walk (fuel : nat) (blueprint : list belement) (n : nat) (l : list tree) (acc : list structure) (s : st) : outcome (list structure * list tree * st) :=
  match n with
  | O => Endless
  | S n =>
    match l with
    | [] => Val (acc, [], s)
    | t :: r =>
      match named_type_type t with
      | MSONNamedTypeSection =>
        andthen (parse_named_type fuel l s) (fun '(x, rest, s) =>
        let name := s_literal (n_symbol (ds_name x)) in
        let '(acc, s) := if is_duplicate blueprint name then (acc, note (spot t) [Warns 2 (taken_text name)] s) else ((acc ++ [x])%list, s) in
        if Sections.same l rest then Val (acc, rest, s) else structures_walk fuel blueprint n rest acc s)
      | _ =>
        if Sections.base_is_unexpected data_structures_upper t then structures_walk fuel blueprint n r acc (unexpected t s) else Val (acc, l, s)
      end
    end
  end.
(** SectionParser.h:32-93; the group's own header gives nothing (SectionProcessor.h:139-147) *)
Definition parse_structures (fuel : nat) (blueprint : list belement) (l : list tree) (s : st) : outcome (list structure * list tree * st) :=
  match l with
  | [] => ByteBuffer.Wild
  | t :: r => if is_header t then structures_walk fuel blueprint (S (List.length r)) r [] s else Thrown
  end.
End Types.
