(** Specification for C82: the structure a named type's header and the nodes behind it stand for, and the structures of a group. The grammar of members is that of MembersSpec. *)
From Verif Require Import Base StringSpec ByteBuffer ByteSpec Markdown MarkdownSpec KeywordsSpec SignatureSpec TypeTables SourceMap Mson TypeDefsSpec MembersSpec.
From Verif Require SectionsSpec PayloadsSpec.
Import SectionsSpec(a_header, type_h, ends_resource).
Import PayloadsSpec(the_text, row).
Local Open Scope string_scope.

(** nodes read one after the other, and the nodes that are left *)
Inductive read_to {A} (step : tree -> A -> A -> located -> bool -> Prop) : list tree -> A -> A -> list tree -> located -> Prop :=
| read_end : forall a, read_to step [] a a [] []
| read_next : forall t r a a' a'' rest e e', step t a a' e true -> read_to step r a' a'' rest e' -> read_to step (t :: r) a a'' rest (e ++ e')%list
| read_stop : forall t r a a' e, step t a a' e false -> read_to step (t :: r) a a' (t :: r) e.

(** names that are to be put into backticks *)
Definition reserved : list ascii := ["["; "]"; ":"; "("; ")"; "<"; ">"; "{"; "}"; "_"; "*"; "+"; "`"; "-"]%char.
Definition reserved_name (n : string) : Prop := exists v c, before "000" n v /\ In c reserved /\ has c v.
Definition in_backticks (text : string) : Prop := exists x, trims text (String "`" x).
Inductive name_remark (text n : string) : list effect -> Prop :=
| remark_odd : ~ in_backticks text -> reserved_name n ->
    name_remark text n [Says 3 "please escape the name of the data structure using backticks since it contains MSON reserved characters"]
| remark_none : in_backticks text \/ ~ reserved_name n -> name_remark text n [].

(** ** the elements of the document so far *)
Inductive found : Type := AResource (attributes_name : string) | AStructure (name : string) | AGroup (l : list found) | Another.
(** a resource of the document or of a group of it; a structure of a group *)
Definition taken_name (document : list found) (n : string) : Prop :=
  In (AResource n) document \/ exists l, In (AGroup l) document /\ (In (AResource n) l \/ In (AStructure n) l).

Section Spec.
(** the base types of the named types; the source *)
Context (known : list (string * base_type)) (source : string).

(** ** below the header: the sections of a type [b] named [name] *)
Section Below.
Context (name : string) (b : base_type).
Notation Member := (member_says known source name).
Notation OneOf := (one_of_says known source name).
Notation Section_ := (section_says known source name).
Definition with_section (t : tree) (s : msection melement) (l : sections) : sections :=
  match s with
  | Sec UndefinedClass _ _ _ _ _ => l
  | Sec c d v es m n => (l ++ [Sec c d v es m (match n with [] => lies t | _ => n end)])%list
  end.
Inductive below_says : list tree -> sections -> sections -> list tree -> located -> Prop :=
| below_end : forall l, below_says [] l l [] []
| below_next : forall t r l l' l'' rest e e', ~ section_node t -> node_says known source name Member OneOf Section_ t (l, b) (l', b) e true -> below_says r l' l'' rest e' ->
    below_says (t :: r) l l'' rest (e ++ e')%list
| below_stop : forall t r l l' e, ~ section_node t -> node_says known source name Member OneOf Section_ t (l, b) (l', b) e false -> below_says (t :: r) l l' (t :: r) e
| below_section : forall t r k s s' r' l l' rest e e' e'', a_header t -> kind_says t k -> head_says b t s e true ->
    read_to (entry_says known source name Member OneOf k b) r s s' r' e' -> below_says r' (with_section t s' l) l' rest e'' ->
    below_says (t :: r) l l' rest (e ++ e' ++ e'')%list
| below_refused : forall t r k s l e, a_header t -> kind_says t k -> head_says b t s e false -> below_says (t :: r) l l (t :: r) e.
End Below.

(** ** a named type: an object unless another type is named *)
Definition type_base (b : base_type) : base_type := match b with UndefinedBT => ImplicitObjectBT | b => b end.
Inductive named_type_says : list tree -> structure -> list tree -> located -> Prop :=
| named_type_by : forall t r p m n v td texts others l0 l rest e w e', a_header t -> signed names_shape (the_text t) "" (Some (p, m)) -> value_says (p_id p) (MV n v) ->
    definition_says known "" (p_attributes p) td e -> name_remark (the_text t) n w -> row text_node r texts others -> adds_texts source texts [] l0 ->
    below_says n (type_base (td_base td)) others l0 l rest e' ->
    named_type_says (t :: r)
      (Str (TN UndefinedTN (Sym n v)) (TD (type_base (td_base td)) (td_spec td) (td_attrs td)) l []
           (lies_unless (String.eqb n "" && negb v) t) (lies_unless (def_empty td) t))
      rest (on t (map (Says 6) m ++ e ++ w) ++ e')%list.

(** ** a group of structures: those whose name is taken are left out *)
Context (document : list found).
Definition name_of (x : structure) : string := s_literal (n_symbol (ds_name x)).
Inductive structures_below : list tree -> list structure -> list tree -> located -> Prop :=
| structures_end : structures_below [] [] [] []
| structures_type : forall t r x r' l rest e e', type_h t -> named_type_says (t :: r) x r' e -> ~ taken_name document (name_of x) -> structures_below r' l rest e' ->
    structures_below (t :: r) (x :: l) rest (e ++ e')%list
| structures_taken : forall t r x r' l rest e e', type_h t -> named_type_says (t :: r) x r' e -> taken_name document (name_of x) -> structures_below r' l rest e' ->
    structures_below (t :: r) l rest (e ++ on t [Says 2 ("named type with name '" +++ name_of x +++ "' already exists")] ++ e')%list
| structures_other : forall t r l rest e, ~ type_h t -> ~ ends_resource t -> structures_below r l rest e -> structures_below (t :: r) l rest (unexpected_node t ++ e)%list
| structures_stop : forall t r, ends_resource t -> structures_below (t :: r) [] (t :: r) [].
Inductive structures_say : list tree -> list structure -> list tree -> located -> Prop :=
| structures_by : forall t r l rest e, a_header t -> structures_below r l rest e -> structures_say (t :: r) l rest e.
End Spec.
