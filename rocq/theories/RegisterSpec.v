(** Specification for C62 and C63: the named types of a blueprint and what is registered for them *)
From Verif Require Import Base TypeTables TypeTablesSpec Element Registry Expand SourceMap Mson MsonSpec Blueprint Register.

(** the data structures and the attributes of resources of a blueprint, at any depth *)
Inductive declares : belement -> structure -> Prop :=
| declares_structure b : b_class b = DataStructureElement -> declares b (b_structure b)
| declares_attributes b : b_class b = ResourceElement -> structure_empty (re_attributes (b_resource b)) = false -> declares b (re_attributes (b_resource b))
| declares_inside b c s : b_class b = CategoryElement -> In c (b_elements b) -> declares c s -> declares b s.
(** only resources have the contents of a resource *)
Inductive tidy : belement -> Prop :=
| tidy_intro b : (b_class b <> ResourceElement -> structure_empty (re_attributes (b_resource b)) = true) -> (forall c, In c (b_elements b) -> tidy c) -> tidy b.

(** [s] declares a type called [a] *)
Definition is_called (a : string) (s : structure) : Prop := type_name_of s = a /\ a <> ""%string.
Definition base_of (s : structure) : base_name := n_base (t_name (td_spec (ds_type s))).
Definition parent_of (s : structure) : string := type_literal (ds_type s).
(** the type [a] is declared as a sub type of [p] *)
Definition parent (ds : list structure) (a p : string) : Prop :=
  exists s, In s ds /\ is_called a s /\ base_of s = UndefinedTN /\ parent_of s = p /\ p <> ""%string.
(** names are declared once, a type with a name has a base type or a parent, parents are no base types, nothing derives from itself *)
Definition well_declared (ds : list structure) : Prop :=
  NoDup (filter (fun a => negb (String.eqb a "")) (map type_name_of ds)) /\
  (forall s, In s ds -> type_name_of s <> ""%string -> base_of s = UndefinedTN \/ parent_of s = ""%string) /\
  (forall s, In s ds -> type_name_of s <> ""%string -> ~ In (parent_of s) (map fst base_types)) /\
  (forall a, ~ reaches (parent ds) a a).
Definition none_reserved (ds : list structure) : Prop := forall s, In s ds -> is_reserved (type_name_of s) = false.

(** the kind of a declared type: that of its base type, or of its parent; an object if there is neither or the parent is unknown *)
Inductive type_kind (ds : list structure) : string -> kind -> Prop :=
| tk_base s a : In s ds -> is_called a s -> base_of s <> UndefinedTN -> type_kind ds a (kind_of (base_of s))
| tk_object s a : In s ds -> is_called a s -> base_of s = UndefinedTN -> parent_of s = ""%string -> type_kind ds a KObject
| tk_unknown s a : In s ds -> is_called a s -> base_of s = UndefinedTN -> (forall x, In x ds -> ~ is_called (parent_of s) x) -> type_kind ds a KObject
| tk_parent a p k : parent ds a p -> type_kind ds p k -> type_kind ds a k.

(** the kind a name stands for: that of a base type or of a declared type, an object for the types without a name *)
Inductive named_kind (ds : list structure) : string -> option kind -> Prop :=
| nk_base n e : In (n, e) base_types -> named_kind ds n (Some (ekind e))
| nk_type n k : ~ In n (map fst base_types) -> type_kind ds n k -> named_kind ds n (Some k)
| nk_nameless s : In s ds -> type_name_of s = ""%string -> named_kind ds "" (Some KObject)
| nk_unknown n : ~ In n (map fst base_types) -> (forall s, In s ds -> type_name_of s <> n) -> named_kind ds n None.
(** in [r] the root ancestor of every name is found, and has the right kind *)
Definition knows (fuel : nat) (ds : list structure) (r : registry) : Prop :=
  forall n, exists o, FindRootAncestor fuel r n = Some o /\ named_kind ds n (option_map ekind o).

(** the element registered for the types without a name *)
Definition nameless : element := Elem "object" [("id"%string, str_elem "")] [] false (DObject []).
(** [r] holds the base types and the types of [ds], each converted with [r] itself *)
Definition holds_types (fuel : nat) (ds : list structure) (r : registry) : Prop :=
  (forall n e, In (n, e) base_types -> rfind r n = Some e) /\
  (forall s, In s ds -> type_name_of s <> ""%string ->
    exists e w k, rfind r (type_name_of s) = Some e /\ structure_to_refract fuel r s = ret (Some e, w) /\ type_kind ds (type_name_of s) k /\ ekind e = k) /\
  (forall n, n <> ""%string -> ~ In n (map fst base_types) -> (forall s, In s ds -> type_name_of s <> n) -> rfind r n = None) /\
  (rfind r "" = if existsb (fun s => String.eqb (type_name_of s) "") ds then Some nameless else None).
(** what the parser reads of the declarations with a name *)
Definition declarations (ds : list structure) : list declaration :=
  map (fun s => Decl (type_name_of s) (td_spec (ds_type s))) (filter (fun s => negb (String.eqb (type_name_of s) "")) ds).
(** the warnings of converting the types, one type after another *)
Definition warns (fuel : nat) (r : registry) (order : list structure) (w : list annotation) : Prop :=
  exists ws, Forall2 (fun s v => if String.eqb (type_name_of s) "" then v = [] else exists e, structure_to_refract fuel r s = ret (Some e, v)) order ws /\ w = concat ws.
