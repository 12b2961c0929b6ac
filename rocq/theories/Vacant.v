(** Model of Attributes::empty() and Parameters::empty() of a payload (PayloadParser.h:612-646 checkRequest, Blueprint.h, MSON.cc:86-89), which Payloads.v leaves open ([found_none]): a payload has the
    attributes and parameters that its items say, read by AttributesParser.h and ParametersParser.h (PayloadParser.h:160-180). What an item says does not depend on the dependencies of types or the
    report (C80_unique, C81): they are read with none. A second attributes item is read into the attributes that are
    there; here the attributes are empty if each item alone makes none (the same, unless a second item replaces the name of a type by an empty one). *)
From Verif Require Import Base ByteBuffer StringSpec Markdown MarkdownSpec TypeTables SourceMap Mson TypeDefs MembersTree Params Given.
From Verif Require Keywords Blueprint.
Import Keywords(section_type, AttributesSection, ParametersSection).
Local Open Scope string_scope.

Section Vacant.
Context (source : string) (known : list (string * base_type)) (fuel : nat).
Definition unread : st := St (T known [] []) [].
(** an item at which reading fails does not get as far as the check *)
Definition vacant_attributes (t : tree) : bool := match parse_attributes source "" fuel t unread with Val (x, _) => structure_empty x | _ => false end.
Definition vacant_parameters (l : list tree) : bool :=
  match each (fun t ps s => parameters_from source fuel ps t s) l [] unread with Val ([], _) => true | _ => false end.
Definition vacant (ty : section_type) (l : list tree) : bool :=
  match ty with
  | AttributesSection => forallb vacant_attributes l
  | ParametersSection => vacant_parameters l
  | _ => true
  end.
End Vacant.
