(** Specification for C83: the named types a document declares, wherever they stand. Headers are those of SectionsSpec, texts are read as in C74 and C79. *)
From Verif Require Import Base StringSpec ByteBuffer ByteSpec Markdown MarkdownSpec KeywordsSpec SignatureSpec TypeTables SourceMap Mson TypeDefsSpec MembersSpec.
From Verif Require SectionsSpec PayloadsSpec.
Import SectionsSpec(a_header, resource_h, structures_h, action_h, values_h, complete_h, type_section_h, type_h).
Import PayloadsSpec(the_text).
Local Open Scope string_scope.

(** ** the section a node stands in: that of the last header that begins or ends one *)
(** a resource of its own: no method and path *)
Definition begins_resource (t : tree) : Prop := resource_h t /\ ~ values_h t /\ ~ complete_h t.
(** headers under a resource that neither end it nor begin another one *)
Definition under_resource (t : tree) : Prop := a_header t -> ~ begins_resource t /\ ~ structures_h t /\ ~ action_h t.
Definition in_resource (before_ : list tree) (h : tree) : Prop := exists p q, before_ = (p ++ h :: q)%list /\ begins_resource h /\ Forall under_resource q.
(** headers under "Data Structures": types and their sections *)
Definition under_structures (t : tree) : Prop := a_header t -> type_h t \/ type_section_h t \/ structures_h t.
Definition in_structures (before_ : list tree) : Prop := exists p g q, before_ = (p ++ g :: q)%list /\ structures_h g /\ Forall under_structures q.

(** ** the name of a resource's attributes: that of the resource, "Name [/path]" *)
Definition resource_named (h : tree) (name : string) : Prop :=
  exists u d n c x, the_text h <> "" /\ before "000" (the_text h) u /\ u = String d n +++ String c ("[" +++ x +++ "]") /\ no_brackets (String d n) /\ blank_char c /\ path x /\
    trims (String d n) name.
Definition attributes_of (before_ : list tree) (t : tree) (name : string) : Prop :=
  item_says reads_attributes t /\ exists h, in_resource before_ h /\ resource_named h name /\ name <> "".

(** ** declarations: a type under "Data Structures", or the attributes of a resource with a name *)
Definition first_text (t : tree) : string := match t with Tree _ _ _ _ (c :: _) => the_text c | _ => "" end.
Definition names_a_type (before_ : list tree) (t : tree) : Prop := type_h t /\ in_structures before_.
Definition subject_says (t : tree) (subject : string) (p : parts) (spec : type_spec) : Prop :=
  exists m e, signed names_shape (the_text t) subject (Some (p, m)) /\ type_says (p_attributes p) spec e.
Inductive declares (before_ : list tree) (t : tree) : declaration -> Prop :=
| declares_type : forall p id spec, names_a_type before_ t -> subject_says t (the_text t) p spec -> bare (p_id p) id -> declares before_ t (Decl id spec)
| declares_attributes : forall name p spec, attributes_of before_ t name -> subject_says t (first_text t) p spec -> declares before_ t (Decl name spec).
Inductive declared (before_ : list tree) : list tree -> list declaration -> Prop :=
| declared_end : declared before_ [] []
| declared_one : forall t r d l, declares before_ t d -> declared (before_ ++ [t]) r l -> declared before_ (t :: r) (d :: l)
| declared_not : forall t r l, ~ names_a_type before_ t -> (forall name, ~ attributes_of before_ t name) -> declared (before_ ++ [t]) r l -> declared before_ (t :: r) l.

(** ** paths that do not begin with a slash *)
Definition relative_h (t : tree) : Prop :=
  type_h t /\ exists u n x, the_text t <> "" /\ before "000" (the_text t) u /\ u = n +++ "[" +++ x +++ "]" /\ n <> "" /\
    method_then (gap_then (fun y => y <> "" /\ ~ has "/" y)) x.
Inductive mistakes : list tree -> list (places * string) -> Prop :=
| mistakes_none : mistakes [] []
| mistakes_one : forall t r l, relative_h t -> mistakes r l ->
    mistakes (t :: r) ((lies t, "URI path in '" +++ the_text t +++ "' is not absolute, it should have a leading forward slash") :: l)
| mistakes_not : forall t r l, ~ relative_h t -> mistakes r l -> mistakes (t :: r) l.
