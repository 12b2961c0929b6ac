(** Specification for C48: data structures that bodies and schemas can be generated from *)
From Verif Require Import Base Element ElementSpec Registry.

Definition everywhere (P : element -> Prop) (e : element) : Prop := forall x, sub x e -> P x.
(** the kinds of elements that can be merged *)
Definition mergeable (k : kind) : Prop := In k [KString; KNumber; KBoolean; KArray; KObject; KEnum].
(** nothing is missing that generation reads: a list of type attributes is a list, a member has a name and a value, enumerations are a
    list, a one-of has alternatives, a mixin is resolved, the links of an inheritance chain are of one kind *)
Definition ready_piece (x : element) : Prop :=
  (forall v, In ("typeAttributes"%string, v) (eattrs x) -> ehas v = true) /\
  match edata x with
  | DMember k v => ehas x = true /\ (exists key s, k = Some key /\ ehas key = true /\ edata key = DString s) /\ v <> None
  | DEnum o => (ehas x = true -> o <> None) /\ forall v, In ("enumerations"%string, v) (eattrs x) -> ehas v = true /\ ekind v = KArray
  | DHolder o => ehas x = true -> o <> None
  | DSelect l => ehas x = true /\ Forall (fun o => ekind o = KOption /\ ehas o = true) l
  | DRef _ => ehas x = true /\ ifind (eattrs x) "resolved" <> None
  | DExtend l => ehas x = true /\ l <> [] /\ exists k, mergeable k /\ Forall (fun y => ekind y = k) l
  | _ => True
  end.
Definition ready (e : element) : Prop := everywhere ready_piece e.

(** ** Data structures before their named types are expanded *)
Definition no_mixin (e : element) : Prop := everywhere (fun x => ekind x <> KRef) e.
(** mixins name registered types and are no part of samples, defaults and enumerations; the names of members are strings, one-ofs have
    alternatives, and what carries the name of a type is of its kind *)
Definition tame_piece (r : registry) (x : element) : Prop :=
  (forall k v, In (k, v) (eattrs x) -> no_mixin v) /\
  (is_reserved (ename x) = false -> forall p, rfind r (ename x) = Some p -> ekind p = ekind x) /\
  match edata x with
  | DRef s => s <> ""%string /\ rfind r s <> None
  | DMember (Some k) _ => is_reserved (ename k) = true /\ ehas k = true
  | DSelect _ => ehas x = true
  | _ => True
  end.
Definition tame (r : registry) (e : element) : Prop := everywhere (tame_piece r) e.

(** ** The same, of MSON *)
From Verif Require Import SourceMap TypeTables Mson MsonSpec.
Definition symbol_of (n : type_name) : string := s_literal (n_symbol n).
Section Decent.
  (** the names of the types, and those of enumerations *)
  Context (registered enumerated : string -> Prop).
  (** a type is given by a base type or by a name, not by both *)
  Definition plain (n : type_name) : Prop := n_base n = UndefinedTN \/ symbol_of n = ""%string.
  Definition simple_type (t : type_def) : Prop := plain (t_name (td_spec t)) /\ Forall plain (t_nested (td_spec t)).
  Definition of_enumeration (t : type_def) : Prop := n_base (t_name (td_spec t)) = EnumTN \/ enumerated (symbol_of (t_name (td_spec t))).
  (** the name of a property does not have a named type *)
  Definition plain_key (n : prop_name) : Prop := symbol_of (t_name (td_spec (vd_type (p_variable n)))) = ""%string.
  (** a mixin names a base type or a type there is *)
  Definition good_mixin (n : type_name) : Prop := symbol_empty (n_symbol n) = true \/ (symbol_of n <> ""%string /\ registered (symbol_of n)).
  (** mixins name known types and are written only among the members of objects and arrays and in one-ofs there, not in samples, defaults
      and enumerations ([mixins] false); a one-of has alternatives *)
  Inductive decent : bool -> melement -> Prop :=
  | d_property mixins n m : plain_key n -> simple_type (vd_type (m_value m)) ->
      (forall s x, In s (m_sections m) -> In x (sc_elements s) -> exists b, decent b x /\
        (b = true -> mixins = true /\ sc_class s = MemberTypeClass /\ ~ of_enumeration (vd_type (m_value m)))) -> decent mixins (MProperty n m)
  | d_value mixins m : simple_type (vd_type (m_value m)) ->
      (forall s x, In s (m_sections m) -> In x (sc_elements s) -> exists b, decent b x /\
        (b = true -> mixins = true /\ sc_class s = MemberTypeClass /\ ~ of_enumeration (vd_type (m_value m)))) -> decent mixins (MValue m)
  | d_mixin t : good_mixin (t_name (td_spec t)) -> decent true (MMixin t)
  | d_oneof mixins l : l <> [] -> Forall (decent mixins) l -> decent mixins (MOneOf l)
  | d_group mixins l : Forall (decent mixins) l -> decent mixins (MGroup l).
  Definition decent_structure (s : structure) : Prop :=
    simple_type (ds_type s) /\
    forall c x, In c (ds_sections s) -> In x (sc_elements c) -> exists b, decent b x /\ (b = true -> sc_class c = MemberTypeClass /\ ~ of_enumeration (ds_type s)).
End Decent.
(** ** The same, of the structures of a blueprint that declares the types [ds] *)
From Verif Require Import Blueprint Register RegisterSpec.
Definition decent_in (ds : list structure) : structure -> Prop :=
  decent_structure (fun n => In n (map fst base_types) \/ In n (map type_name_of ds)) (fun n => named_kind ds n (Some KEnum)).
(** the name source maps carry is not that of a type that is no array *)
Definition maps_apart (ds : list structure) : Prop := forall k, type_kind ds "sourceMap" k -> k = KArray.
