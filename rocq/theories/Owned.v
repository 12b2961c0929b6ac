(** Model of what ActionParser.h and ResourceParser.h do with attributes, on the outline of the document (Sections.v): ActionParser.h:176-179, ResourceParser.h:106-144. C80 has the sections
    themselves (AttributesParser.h). Of the remarks of resources and actions only those about attributes are given here (the others: Transactions.v, Relations.v, Given.v); parameters and payloads,
    too, change the dependencies of types: the theorems hold for every state before. A second item of one resource or action is read into the attributes that are there already: this is not
    modelled, [once] refuses it. Whether a type with the name of the resource exists (DataStructureGroupParser.h:124-159) depends on the elements of the blueprint that are complete before:
    [exists_] is told the item and the name, and the theorems hold for every answer. *)
From Verif Require Import Base ByteBuffer StringSpec Markdown MarkdownSpec TypeTables SourceMap Mson TypeDefs MembersTree Given.
From Verif Require Keywords Sections Transactions.
Import Keywords(section_type, AttributesSection).
Import Sections(part, Head, Listed, Sub, Sec).
Import Transactions(resource_header, resource_of).
Local Open Scope string_scope.

(** Blueprint.h: Action::attributes; Resource::attributes, actions. [None]: no attributes (the default mson::NamedType) *)
Record owned : Type := Owned { o_attributes : option structure; o_actions : list (option structure) }.
(** SectionParserData / SourceAnnotation.h: the code of a warning about a duplicate *)
Definition DuplicateCode : N := 2%N.
(** ResourceParser.h:136-140 *)
Definition name_after (name : string) (h : tree) (x : structure) : structure :=
  if String.eqb name "" then x else Str (TN UndefinedTN (Sym name false)) (ds_type x) (ds_sections x) (ds_map x) (spot h) (ds_type_map x).
Section Parser.
Context (source : string) (fuel : nat) (exists_ : tree -> string -> bool).
(** see above *)
Definition once (o : option structure) (k : outcome (option structure * st)) : outcome (option structure * st) := match o with None => k | Some _ => ByteBuffer.Wild end.
(** ActionParser.h:176-179 *)
Definition action_takes (x : part) (o : option structure) (s : st) : outcome (option structure * st) :=
  match x with
  | Listed AttributesSection t => once o (andthen (parse_attributes source "" fuel t s) (fun '(x, s) => Val (Some x, s)))
  | _ => Val (o, s)
  end.
Definition action_owns (ps : list part) (s : st) : outcome (option structure * st) :=
  match ps with Head h :: r => each action_takes r None s | _ => ByteBuffer.Wild end.
(** ResourceParser.h:106-144: the name of the resource is the context in which its attributes are read *)
Definition resource_takes (name : string) (h : tree) (x : part) (o : owned) (s : st) : outcome (owned * st) :=
  match x with
  | Listed AttributesSection t =>
    andthen (once (o_attributes o)
      (andthen (parse_attributes source name fuel t s) (fun '(x, s) =>
       if (negb (String.eqb name "") && exists_ t name)%bool
       then Val (None, note (spot t) [Warns DuplicateCode ("named type with name '" +++ name +++ "' already exists")] s)
       else Val (Some (name_after name h x), s)))) (fun '(a, s) => Val (Owned a (o_actions o), s))
  | Sub (Sec _ ps _) => andthen (action_owns ps s) (fun '(a, s) => Val (Owned (o_attributes o) (o_actions o ++ [a])%list, s))
  | _ => Val (o, s)
  end.
(** 49-80; an endpoint (331-351) is just one action *)
Definition resource_owns (ps : list part) (s : st) : outcome (owned * st) :=
  match ps with
  | Head h :: r => each (resource_takes (fst (resource_header h)) h) r (Owned None []) s
  | [Sub (Sec _ qs _)] => andthen (action_owns qs s) (fun '(a, s) => Val (Owned None [a], s))
  | _ => ByteBuffer.Wild
  end.
Definition read_owned (ps : list part) (s : st) : outcome (list owned * st) :=
  each (fun qs os s => andthen (resource_owns qs s) (fun '(o, s) => Val ((os ++ [o])%list, s))) (flat_map resource_of ps) [] s.
End Parser.
