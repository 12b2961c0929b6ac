(** C80: attributes and MSON members are read from their Markdown nodes as the grammar of MembersSpec says *)
From Verif Require Import Base StringUtility StringSpec StringProofs ByteBuffer ByteSpec Markdown MarkdownSpec Regex Keywords KeywordsSpec Signature SignatureSpec TypeTables SourceMap Mson TypeDefs TypeDefsSpec TypeDefsProofs
  MembersTree MembersSpec MembersRead MembersLeaves MembersParts MembersSteps MembersWhole MembersEnds.
From Verif Require SectionsSpec Payloads PayloadsSpec.
Import SectionsSpec(a_header, an_item, include_item, one_of_item, object_base, value_base, primitive_base).
Import PayloadsSpec(the_text, place, opens, row, padded).
Local Open Scope string_scope.

(** ** the readers and the grammar *)
Theorem C80_member : forall source context fuel property item s x s', (slen source < 2 ^ 64)%N -> within_source source item -> depth item <= fuel ->
  (parse_member source context fuel property item s = Val (x, s') <-> exists e, member_says (bases (s_tables s)) source context property item x e /\ s' = perform e s).
Proof. intros source context fuel property item s x s' Small W D. exact (proj1 (all_read _ source context Small fuel) property item (conj D W) s x s' eq_refl). Qed.
Print Assumptions C80_member.
Theorem C80_one_of : forall source context fuel item s x s', (slen source < 2 ^ 64)%N -> within_source source item -> depth item <= fuel ->
  (parse_one_of source context fuel item s = Val (x, s') <-> exists e, one_of_says (bases (s_tables s)) source context item x e /\ s' = perform e s).
Proof. intros source context fuel item s x s' Small W D. exact (proj1 (proj2 (all_read _ source context Small fuel)) item (conj D W) s x s' eq_refl). Qed.
Print Assumptions C80_one_of.
Theorem C80_section : forall source context fuel k b item s x s', (slen source < 2 ^ 64)%N -> within_source source item -> depth item <= fuel ->
  (parse_section source context fuel (kind_section k) b item s = Val (x, s') <-> exists e, section_says (bases (s_tables s)) source context k b item x e /\ s' = perform e s).
Proof. intros source context fuel k b item s x s' Small W D. exact (proj2 (proj2 (all_read _ source context Small fuel)) k b item (conj D W) s x s' eq_refl). Qed.
Print Assumptions C80_section.
Theorem C80_attributes : forall source context fuel item s x s', (slen source < 2 ^ 64)%N -> within_source source item -> depth item <= S fuel ->
  (parse_attributes source context fuel item s = Val (x, s') <-> exists e, attributes_say (bases (s_tables s)) source context item x e /\ s' = perform e s).
Proof. intros source context fuel item s x s' Small W D. exact (attributes_read _ source context Small fuel item (conj D W) s x s' eq_refl). Qed.
Print Assumptions C80_attributes.

(** ** reading ends for every tree, however deep *)
Theorem C80_ends : forall source context item s, exists fuel, forall n, fuel <= n ->
  (forall property, parse_member source context n property item s <> Endless) /\ parse_one_of source context n item s <> Endless /\
  (forall ty b, parse_section source context n ty b item s <> Endless) /\ parse_attributes source context n item s <> Endless.
Proof.
  intros source context item s. exists (depth item). intros n D. destruct (all_end source context n) as (A & B & C). split; [intros p; now apply A|]. split; [now apply B|]. split; [intros ty b; now apply C|].
  apply attributes_end. lia.
Qed.
Print Assumptions C80_ends.

(** ** a text is one tree: what is read does not depend on the report, on the fuel or on the dependencies *)
Theorem C80_unique : forall known source context item, (slen source < 2 ^ 64)%N -> within_source source item ->
  (forall property x x' e e', member_says known source context property item x e -> member_says known source context property item x' e' -> x = x') /\
  (forall x x' e e', attributes_say known source context item x e -> attributes_say known source context item x' e' -> x = x').
Proof.
  intros known source context item Small W. split.
  - intros property x x' e e' H H'. set (s := St (T known [] []) []).
    assert (A := proj2 (C80_member source context (depth item) property item s x _ Small W (le_n _)) (ex_intro _ e (conj H eq_refl))).
    assert (B := proj2 (C80_member source context (depth item) property item s x' _ Small W (le_n _)) (ex_intro _ e' (conj H' eq_refl))). rewrite A in B. now injection B.
  - intros x x' e e' H H'. set (s := St (T known [] []) []).
    assert (A := proj2 (C80_attributes source context (depth item) item s x _ Small W (Nat.le_succ_diag_r _)) (ex_intro _ e (conj H eq_refl))).
    assert (B := proj2 (C80_attributes source context (depth item) item s x' _ Small W (Nat.le_succ_diag_r _)) (ex_intro _ e' (conj H' eq_refl))). rewrite A in B. now injection B.
Qed.
Print Assumptions C80_unique.

(** ** the report only grows, and of the tables only the dependencies may change *)
Lemma perform_grows : forall e s, exists w, s_notes (perform e s) = (s_notes s ++ w)%list /\ bases (s_tables (perform e s)) = bases (s_tables s) /\ supers (s_tables (perform e s)) = supers (s_tables s) /\
  ((forall m on_ by_ strict, ~ In (m, Depends on_ by_ strict) e) -> deps (s_tables (perform e s)) = deps (s_tables s) /\ List.length w = List.length e).
Proof.
  induction e as [|[m [c x|a b k]] e IH]; intros s; [exists []; rewrite app_nil_r; repeat split; reflexivity| |]; cbn [perform fold_left].
  - destruct (IH (note m [Warns c x] s)) as (w & A & B & C & D). exists ((m, Warns c x) :: w). unfold perform in A. split; [etransitivity; [exact A|]; cbn; now rewrite <- app_assoc|]. split; [exact B|]. split; [exact C|].
    intros N. destruct D as [D L]; [intros m' o b k I; apply (N m' o b k); now right|]. split; [exact D|]. cbn. now f_equal.
  - unfold perform1 at 2. cbn [fst snd]. destruct (add_dependency (deps (s_tables s)) a b k) as [d err] eqn:Ad. destruct (IH (note m (failed_by err) (St (set_deps (s_tables s) d) (s_notes s)))) as (w & A & B & C & D).
    exists (map (pair m) (failed_by err) ++ w)%list.
    assert (P1 : perform1 s (m, Depends a b k) = note m (failed_by err) (St (set_deps (s_tables s) d) (s_notes s))) by (unfold perform1; cbn [fst snd]; now rewrite Ad).
    rewrite P1. unfold perform in *. rewrite A, B, C. split; [cbn; now rewrite <- app_assoc|]. split; [now destruct (s_tables s)|]. split; [now destruct (s_tables s)|].
    intros N. elim (N m a b k). now left.
Qed.
Theorem C80_report : forall source context fuel item s x s', (slen source < 2 ^ 64)%N -> within_source source item -> depth item <= S fuel -> parse_attributes source context fuel item s = Val (x, s') ->
  exists w, s_notes s' = (s_notes s ++ w)%list /\ bases (s_tables s') = bases (s_tables s) /\ supers (s_tables s') = supers (s_tables s).
Proof.
  intros source context fuel item s x s' Small W D H. apply C80_attributes in H as (e & _ & ->); [|assumption..]. destruct (perform_grows e s) as (w & A & B & C & _). now exists w.
Qed.
Print Assumptions C80_report.

(** ** the base type *)
Section Laws.
Context (known : list (string * base_type)) (source context : string).
Notation member_says := (member_says known source context).
Notation one_of_says := (one_of_says known source context).
Notation section_says := (section_says known source context).
Notation node_says := (node_says known source context member_says one_of_says section_says).
(** a type once known is kept; no type is told but object and primitive *)
Lemma nodes_base : forall l a a' e, nodes_say node_says l a a' e ->
  (snd a <> UndefinedBT -> snd a' = snd a) /\ (snd a = UndefinedBT -> In (snd a') [UndefinedBT; ImplicitObjectBT; ImplicitPrimitiveBT]).
Proof.
  assert (S1 : forall t a a' e on_, node_says t a a' e on_ -> (snd a <> UndefinedBT -> snd a' = snd a) /\ (snd a = UndefinedBT -> In (snd a') [UndefinedBT; ImplicitObjectBT; ImplicitPrimitiveBT])).
  { intros t a a' e on_ H. destruct H; cbn [snd];
      repeat match goal with Y : told_by_member _ _ _ |- _ => destruct Y | Y : told_by_section _ _ _ |- _ => destruct Y end; split; intros N; try subst; try reflexivity; try congruence; cbn; auto. }
  intros l a a' e H. induction H as [a|t r a a1 a2 e1 e2 H1 H2 IH|t r a a1 e1 H1]; [split; [reflexivity|intros ->; cbn; auto]| |exact (S1 _ _ _ _ _ H1)].
  apply S1 in H1 as [A B]. destruct IH as [C D]. split.
  - intros N. rewrite C; [now apply A|]. now rewrite A.
  - intros E. specialize (B E). destruct B as [B|[B|[B|[]]]]; rewrite <- B in C, D; [now apply D|rewrite C by discriminate; cbn; auto..].
Qed.
(** no member and no attributes are without a type *)
Theorem C80_typed : (forall property item x e, member_says property item x e -> td_base (vd_type (member_of x)) <> UndefinedBT) /\
  (forall item x e, attributes_say known source context item x e -> td_base (ds_type x) <> UndefinedBT).
Proof.
  split.
  - intros property item x e H. inversion H as [p i x0 e0 B]; subst. destruct B as [t r name m e texts others l0 l b e' _ _ _ _ _]. unfold member_with. destruct property; cbn; destruct b; discriminate.
  - intros item x e H. destruct H as [t r p m td e texts others l0 l b e' _ _ _ _ _ N]. cbn. apply nodes_base in N as [A _]. cbn [snd] in A. intros ->. destruct (td_base td); cbn in A; specialize (A ltac:(discriminate)); discriminate.
Qed.
(** a type that is named is the type of the member, whatever is below it *)
Theorem C80_named : forall property item x e, member_says property item x e -> exists t r name m l b e1, opens item t r /\ opening_says known context property t name m e1 /\ x = member_with property name m l b /\
  (td_base (vd_type (m_value m)) <> UndefinedBT -> b = td_base (vd_type (m_value m))) /\ (td_base (vd_type (m_value m)) = UndefinedBT -> b = ImplicitObjectBT \/ b = ImplicitPrimitiveBT).
Proof.
  intros property item x e H. inversion H as [p i x0 e0 B]; subst. destruct B as [t r name m e1 texts others l0 l b e2 O Op R A N].
  exists t, r, name, m, l, (finished b), e1. split; [exact O|]. split; [exact Op|]. split; [reflexivity|]. apply nodes_base in N as [B C]. cbn [snd] in B, C. split.
  - intros U. rewrite (B U). unfold finished. now destruct (td_base (vd_type (m_value m))).
  - intros U. destruct (C U) as [<-|[<-|[<-|[]]]]; auto.
Qed.

(** ** members of objects and arrays: one each, in order *)
Lemma items_read : forall property b, (if property : bool then object_base b else value_base b) -> forall l, Forall other_item l -> forall k es d v m n a' e,
  nodes_say node_says l ((k ++ [Sec MemberTypeClass d v es m n])%list, b) a' e ->
  exists xs, Forall2 (fun t x => exists e, member_says property t x e) l xs /\ a' = ((k ++ [Sec MemberTypeClass d v (es ++ xs) m n])%list, b).
Proof.
  intros property b B l F. assert (U : b <> UndefinedBT) by (destruct property, B as [-> | ->]; discriminate).
  induction F as [|t l Ot F IH]; intros k es d v m n a' e H.
  - inversion H; subst. exists []. rewrite app_nil_r. split; [constructor|reflexivity].
  - assert (S1 : forall a1 e1 on_, node_says t ((k ++ [Sec MemberTypeClass d v es m n])%list, b) a1 e1 on_ -> on_ = true /\ exists x e', member_says property t x e' /\ a1 = ((k ++ [Sec MemberTypeClass d v (es ++ [x]) m n])%list, b)).
    { destruct Ot as (It & Ns & Ni & No).
      assert (Nt : forall b', told_by_member t b b' -> b' = b) by (intros b' T; inversion T; subst; [reflexivity|now elim U..]).
      assert (Tt : forall x d0 m0, [text_section d0 m0] = (k ++ [Sec MemberTypeClass d v es m n])%list -> x) by (intros x d0 m0 E; destruct k as [|k0 k]; [discriminate|destruct k; discriminate]).
      assert (In1 : forall x l', into [x] (k ++ [Sec MemberTypeClass d v es m n])%list l' -> l' = (k ++ [Sec MemberTypeClass d v (es ++ [x]) m n])%list).
      { intros x l' I. inversion I as [k0 d0 v0 es0 m0 n0 E1 E2|l0 N E1 E2].
        - apply app_inj_tail in E1 as [-> E1]. injection E1 as -> -> -> -> ->. reflexivity.
        - subst. elim (proj1 (N k _ eq_refl)). reflexivity. }
      intros a1 e1 on_ H1. inversion H1; subst; try contradiction; try (elim (item_header t It); assumption);
        try match goal with K : kind_says t ?k |- _ => elim Ns; now exists k end; try match goal with K : text_node t |- _ => destruct K; contradiction end.
      - eapply Tt. match goal with K : [_] = _ |- _ => exact K | K : _ = [_] |- _ => symmetry; exact K end.
      - assert (property = false) as -> by (destruct property; [destruct B as [-> | ->]; match goal with K : value_base _ |- _ => destruct K; discriminate end|reflexivity]).
        split; [reflexivity|]. eexists x, _. split; [eassumption|]. f_equal. now apply In1.
      - match goal with K : told_by_member t b ?c |- _ => apply Nt in K as -> end.
        assert (property = true) as -> by (destruct property; [reflexivity|destruct B as [-> | ->]; match goal with K : object_base _ |- _ => destruct K; discriminate end]).
        split; [reflexivity|]. eexists x, _. split; [eassumption|]. f_equal. now apply In1.
      - exfalso. destruct property, B as [-> | ->]; match goal with K : primitive_base _ |- _ => destruct K; discriminate end. }
    inversion H as [|t0 r0 a0 a1 a2 e1 e2 H1 H2|t0 r0 a0 a1 e1 H1]; subst.
    + apply S1 in H1 as (_ & x & e' & M & ->). apply IH in H2 as (xs & Fx & ->). exists (x :: xs). split; [constructor; [now exists e'|exact Fx]|]. now rewrite <- app_assoc.
    + apply S1 in H1 as [X _]. discriminate.
Qed.
(** the items below an object or an array, if none of them is a section, an include or a one-of, are its members, one each and in order *)
Theorem C80_items : forall property b l a e, (if property : bool then object_base b else value_base b) -> Forall other_item l -> l <> [] -> nodes_say node_says l ([], b) a e ->
  exists xs, Forall2 (fun t x => exists e, member_says property t x e) l xs /\ a = ([MembersSpec.members_section xs], b).
Proof.
  intros property b l a e B F Ne H. destruct l as [|t l]; [now elim Ne|]. inversion F as [|t0 l0 Ot F']; subst. assert (U : b <> UndefinedBT) by (destruct property, B as [-> | ->]; discriminate).
  assert (S1 : forall a1 e1 on_, node_says t ([], b) a1 e1 on_ -> on_ = true /\ exists x e', member_says property t x e' /\ a1 = ([MembersSpec.members_section [x]], b)).
  { destruct Ot as (It & Ns & Ni & No).
    assert (Nt : forall b', told_by_member t b b' -> b' = b) by (intros b' T; inversion T; subst; [reflexivity|now elim U..]).
    assert (In1 : forall x l', into [x] [] l' -> l' = [MembersSpec.members_section [x]]) by (intros x l' I; inversion I as [k0 d0 v0 es0 m0 n0 E1 E2|l0 N E1 E2]; [now destruct k0|reflexivity]).
    intros a1 e1 on_ H1. inversion H1; subst; try contradiction; try (elim (item_header t It); assumption);
      try match goal with K : kind_says t ?k |- _ => elim Ns; now exists k end; try match goal with K : text_node t |- _ => destruct K; contradiction end.
    - assert (property = false) as -> by (destruct property; [destruct B as [-> | ->]; match goal with K : value_base _ |- _ => destruct K; discriminate end|reflexivity]).
      split; [reflexivity|]. eexists x, _. split; [eassumption|]. f_equal. now apply In1.
    - match goal with K : told_by_member t b ?c |- _ => apply Nt in K as -> end.
      assert (property = true) as -> by (destruct property; [reflexivity|destruct B as [-> | ->]; match goal with K : object_base _ |- _ => destruct K; discriminate end]).
      split; [reflexivity|]. eexists x, _. split; [eassumption|]. f_equal. now apply In1.
    - exfalso. destruct property, B as [-> | ->]; match goal with K : primitive_base _ |- _ => destruct K; discriminate end. }
  inversion H as [|t0 r0 a0 a1 a2 e1 e2 H1 H2|t0 r0 a0 a1 e1 H1]; subst.
  - apply S1 in H1 as (_ & x & e' & M & ->). apply (items_read property b B l F' []) in H2 as (xs & Fx & ->). exists (x :: xs). split; [constructor; [now exists e'|exact Fx]|reflexivity].
  - apply S1 in H1 as [X _]. discriminate.
Qed.
(** a primitive type has no members: the first item is warned about, and nothing behind it is read *)
Theorem C80_primitive : forall b t l k a e, primitive_base b -> other_item t \/ text_node t -> told k = false -> nodes_say node_says (t :: l) (k, b) a e ->
  e = on t [Says 8 "sub-types of primitive types should not have nested members"] /\ snd a = b /\ into [] k (fst a).
Proof.
  intros b t l k a e B Ot Tl H. assert (U : b <> UndefinedBT) by (destruct B as [-> | ->]; discriminate).
  assert (S1 : forall a1 e1 on_, node_says t (k, b) a1 e1 on_ -> on_ = false /\ e1 = on t [Says 8 "sub-types of primitive types should not have nested members"] /\ snd a1 = b /\ into [] k (fst a1)).
  { assert (Ns : ~ section_node t /\ ~ include_item t /\ ~ one_of_item t /\ ~ a_header t).
    { destruct Ot as [(It & Ns & Ni & No)|[Nh Ni]]; [split; [exact Ns|]; split; [exact Ni|]; split; [exact No|exact (item_header t It)]|].
      split; [intros [q Q]; apply kind_place in Q; tauto|]. split; [intros Q; now apply include_an_item in Q as [Q _]|]. split; [intros Q; now apply one_of_an_item in Q as [Q _]|exact Nh]. }
    destruct Ns as (Ns & Ni & No & Nh).
    intros a1 e1 on_ H1. inversion H1; subst; try contradiction; try match goal with K : kind_says t ?k |- _ => elim Ns; now exists k end.
    - discriminate Tl.
    - exfalso. destruct B as [-> | ->]; match goal with K : value_base _ |- _ => destruct K; discriminate end.
    - exfalso. match goal with K : told_by_member t b ?c |- _ => assert (c = b) as -> by (inversion K; subst; [reflexivity|now elim U..]) end. destruct B as [-> | ->]; match goal with K : object_base _ |- _ => destruct K; discriminate end.
    - repeat split. cbn [fst]. assumption. }
  inversion H as [|t0 r0 a0 a1 a2 e1 e2 H1 H2|t0 r0 a0 a1 e1 H1]; subst; [apply S1 in H1 as [X _]; discriminate|]. now apply S1 in H1.
Qed.
(** behind a description everything up to the next section or header belongs to it, items too; nothing is said about them *)
Theorem C80_description : forall l d m b a e, Forall (fun t => ~ section_node t /\ ~ a_header t) l -> nodes_say node_says l ([text_section d m], b) a e ->
  exists d' m', a = ([text_section d' m'], b) /\ e = [] /\ adds_texts source l [text_section d m] [text_section d' m'].
Proof.
  intros l d m b a e F. revert d m e. induction F as [|t l [Ns Nh] F IH]; intros d m e H.
  - inversion H; subst. exists d, m. split; [reflexivity|]. split; [reflexivity|constructor].
  - assert (S1 : forall a1 e1 on_, node_says t ([text_section d m], b) a1 e1 on_ -> on_ = true /\ e1 = [] /\ exists d' m', adds_text source t (d, m) (d', m') /\ a1 = ([text_section d' m'], b)).
    { assert (In0 : forall x l', ~ into x [text_section d m] l') by (intros x l' I; apply into_untold in I; discriminate).
      intros a1 e1 on_ H1. inversion H1; subst; try contradiction; try match goal with K : into _ _ _ |- _ => elim (In0 _ _ K) end; try match goal with K : kind_says t ?k |- _ => elim Ns; now exists k end.
      split; [reflexivity|]. split; [reflexivity|]. eauto. }
    inversion H as [|t0 r0 a0 a1 a2 e1 e2 H1 H2|t0 r0 a0 a1 e1 H1]; subst; apply S1 in H1 as (X & -> & d1 & m1 & A & ->); [|discriminate].
    apply IH in H2 as (d2 & m2 & -> & -> & As). exists d2, m2. split; [reflexivity|]. split; [reflexivity|]. now apply (adds_more source t l d m d1 m1).
Qed.
End Laws.
Print Assumptions C80_typed.
Print Assumptions C80_named.
Print Assumptions C80_items.
Print Assumptions C80_primitive.
Print Assumptions C80_description.

(** ** examples *)
Definition line_feed : string := String "010" "".
Definition node (ty : node_type) (x : string) (a n : N) (cs : list tree) : tree := Tree ty x 0 [ByteBuffer.R a n] cs.
Definition fresh : st := St (T [("User", ObjectBT)] [] [("User", [])]) [].
Definition base (n : base_name) (b : base_type) : type_def := TD b (TS (TN n no_symbol) []) 0%N.
Definition at_place (a n : N) : places := [Range a n].
Definition user_source : string := "+ Attributes (object)" +++ line_feed +++ "    + id: 1 (number, required) - The id" +++ line_feed +++ "    + tags (array[string])" +++ line_feed +++ "        + Sample: a, b" +++ line_feed +++ "    + One Of" +++ line_feed +++ "        + first" +++ line_feed +++ "        + last" +++ line_feed +++ "    + Include User" +++ line_feed.
Definition user_item : tree :=
  node ItemNode "" 0 175 [node ParagraphNode "Attributes (object)" 2 20 []; node ItemNode "" 26 36 [node ParagraphNode "id: 1 (number, required) - The id" 28 34 []]; node ItemNode "" 66 46 [node ParagraphNode "tags (array[string])" 68 21 []; node ItemNode "" 97 15 [node ParagraphNode "Sample: a, b" 99 13 []]]; node ItemNode "" 116 40 [node ParagraphNode "One Of" 118 7 []; node ItemNode "" 133 8 [node ParagraphNode "first" 135 6 []]; node ItemNode "" 149 7 [node ParagraphNode "last" 151 5 []]]; node ItemNode "" 160 15 [node ParagraphNode "Include User" 162 13 []]].
Definition primitive_source : string := "+ age (number)" +++ line_feed +++ "    + years" +++ line_feed +++ "    + Sample: 7" +++ line_feed.
Definition primitive_item : tree :=
  node ItemNode "" 0 43 [node ParagraphNode "age (number)" 2 13 []; node ItemNode "" 19 8 [node ParagraphNode "years" 21 6 []]; node ItemNode "" 31 12 [node ParagraphNode "Sample: 7" 33 10 []]].
Definition swallowed_source : string := "+ Attributes" +++ line_feed +++ line_feed +++ "    Some words" +++ line_feed +++ line_feed +++ "    + id: 1" +++ line_feed.
Definition swallowed_item : tree :=
  node ItemNode "" 0 42 [node ParagraphNode "Attributes" 2 11 []; node ParagraphNode "Some words" 18 11 []; node ItemNode "" 34 8 [node ParagraphNode "id: 1" 36 6 []]].
Definition choice_source : string := "+ tags (array)" +++ line_feed +++ "    + a" +++ line_feed +++ "    + One Of" +++ line_feed +++ "        + b" +++ line_feed +++ "        + c" +++ line_feed +++ "    + d" +++ line_feed.
Definition choice_item : tree :=
  node ItemNode "" 0 68 [node ParagraphNode "tags (array)" 2 13 []; node ItemNode "" 19 4 [node ParagraphNode "a" 21 2 []]; node ItemNode "" 27 33 [node ParagraphNode "One Of" 29 7 []; node ItemNode "" 44 4 [node ParagraphNode "b" 46 2 []]; node ItemNode "" 56 4 [node ParagraphNode "c" 58 2 []]]; node ItemNode "" 64 4 [node ParagraphNode "d" 66 2 []]].
Definition wrong_source : string := "+ Attributes (object)" +++ line_feed +++ "    + Items" +++ line_feed +++ "        + a" +++ line_feed +++ "    + b" +++ line_feed.
Definition wrong_item : tree :=
  node ItemNode "" 0 54 [node ParagraphNode "Attributes (object)" 2 20 []; node ItemNode "" 26 20 [node ParagraphNode "Items" 28 6 []; node ItemNode "" 42 4 [node ParagraphNode "a" 44 2 []]]; node ItemNode "" 50 4 [node ParagraphNode "b" 52 2 []]].
Definition several_source : string := "+ n: 1, 2 (number)" +++ line_feed.
Definition several_item : tree :=
  node ItemNode "" 0 19 [node ParagraphNode "n: 1, 2 (number)" 2 17 []].
Definition plain_source : string := "+ point" +++ line_feed +++ "    + x" +++ line_feed +++ "    + y" +++ line_feed.
Definition plain_item : tree :=
  node ItemNode "" 0 24 [node ParagraphNode "point" 2 6 []; node ItemNode "" 12 4 [node ParagraphNode "x" 14 2 []]; node ItemNode "" 20 4 [node ParagraphNode "y" 22 2 []]].
Definition property (x : string) (a n : N) (v : value_def) (d : string) (l : list (msection melement)) : melement :=
  MProperty (PN x (VD [] (TD UndefinedBT no_spec 0%N)) (at_place a n)) (Mem d v l (at_place a n) (if String.eqb d "" then [] else at_place a n) (if value_empty v then [] else at_place a n)).
Definition untyped (b : base_type) : value_def := VD [] (TD b no_spec 0%N).
Definition of_members (l : list melement) : msection melement := Sec MemberTypeClass "" "" l [] [].
Ltac inside := unfold within_source; cbn; repeat (split || constructor || discriminate).
Example C80_hypotheses : within_source user_source user_item /\ depth user_item <= 9 /\ (slen user_source < 2 ^ 64)%N.
Proof. split; [inside|]. split; [cbn; lia|reflexivity]. Qed.
Example C80_user : parse_attributes user_source "" 9 user_item fresh = Val (Str (TN UndefinedTN no_symbol) (base ObjectTN ObjectBT)
  [of_members
     [property "id" 28 34 (VD [MV "1" false] (TD PrimitiveBT (TS (TN NumberTN no_symbol) []) 1%N)) "The id" [];
      property "tags" 68 21 (VD [] (TD ValueBT (TS (TN ArrayTN no_symbol) [TN StringTN no_symbol]) 0%N)) ""
        [Sec SampleClass "" "" (map (fun x => MValue (Mem "" (VD [MV x false] (TD UndefinedBT no_spec 0%N)) [] [] [] (at_place 99 13))) ["a"; "b"]) [] (at_place 97 15)];
      MOneOf [property "first" 135 6 (untyped ImplicitPrimitiveBT) "" []; property "last" 151 5 (untyped ImplicitPrimitiveBT) "" []];
      MMixin (TD ObjectBT (TS (TN UndefinedTN (Sym "User" false)) []) 0%N)]]
  (at_place 2 20) [] (at_place 2 20), St (T [("User", ObjectBT)] [] [("", ["User"]); ("User", [])]) []).
Proof. vm_compute. reflexivity. Qed.
(** so these items are what the grammar says *)
Example C80_user_says : exists x e, attributes_say [("User", ObjectBT)] user_source "" user_item x e.
Proof.
  destruct C80_hypotheses as (W & D & Small). destruct (proj1 (C80_attributes user_source "" 9 user_item fresh _ _ Small W ltac:(lia)) C80_user) as (e & H & _). eauto.
Qed.
(** items without a type make an object *)
Example C80_plain : parse_member plain_source "" 9 true plain_item fresh =
  Val (property "point" 2 6 (untyped ImplicitObjectBT) "" [of_members [property "x" 14 2 (untyped ImplicitPrimitiveBT) "" []; property "y" 22 2 (untyped ImplicitPrimitiveBT) "" []]], fresh).
Proof. vm_compute. reflexivity. Qed.

(** ** what does not hold *)
(** the sample behind an item of a primitive type is lost, and an empty section of members is left *)
Theorem C80_primitive_refuted : parse_member primitive_source "" 9 true primitive_item fresh =
  Val (property "age" 2 13 (VD [] (base NumberTN PrimitiveBT)) "" [of_members []], note (at_place 19 8) [Warns 8 "sub-types of primitive types should not have nested members"] fresh).
Proof. vm_compute. reflexivity. Qed.
Print Assumptions C80_primitive_refuted.
(** the properties behind a description are a part of it; no remark *)
Theorem C80_description_refuted : parse_attributes swallowed_source "" 9 swallowed_item fresh =
  Val (Str (TN UndefinedTN no_symbol) (TD ImplicitObjectBT no_spec 0%N) [Sec BlockDescriptionClass ("Some words" +++ line_feed +++ line_feed +++ "+ id: 1") "" [] [Range 18 11; Range 34 8] []] (at_place 2 11) [] [], fresh).
Proof. vm_compute. reflexivity. Qed.
Print Assumptions C80_description_refuted.
(** a one-of item in an array ends the array: "d" is lost *)
Theorem C80_one_of_refuted : parse_member choice_source "" 9 true choice_item fresh =
  Val (property "tags" 2 13 (VD [] (base ArrayTN ValueBT)) "" [of_members [MValue (Mem "" (VD [MV "a" false] (TD ImplicitPrimitiveBT no_spec 0%N)) [] (at_place 21 2) [] (at_place 21 2))]],
       note (at_place 27 33) [Warns 8 "one of may be a nested member of a object sub-types only"] fresh).
Proof. vm_compute. reflexivity. Qed.
Print Assumptions C80_one_of_refuted.
(** "Items" in an object are skipped with all that is below *)
Theorem C80_items_refuted : parse_attributes wrong_source "" 9 wrong_item fresh =
  Val (Str (TN UndefinedTN no_symbol) (base ObjectTN ObjectBT) [of_members [property "b" 52 2 (untyped ImplicitPrimitiveBT) "" []]] (at_place 2 20) [] (at_place 2 20),
       note (at_place 28 6) [Warns 8 "type section `Items` not allowed for a type sub-typed from a primitive or object type"] fresh).
Proof. vm_compute. reflexivity. Qed.
Print Assumptions C80_items_refuted.
(** several values of a primitive type are one value; the member has no source map *)
Theorem C80_several_refuted : parse_member several_source "" 9 true several_item fresh =
  Val (MProperty (PN "n" (VD [] (TD UndefinedBT no_spec 0%N)) (at_place 2 17)) (Mem "" (VD [MV "1, 2" false] (base NumberTN PrimitiveBT)) [] [] [] (at_place 2 17)), fresh).
Proof. vm_compute. reflexivity. Qed.
Print Assumptions C80_several_refuted.
(** a header that names a section is no item of one: the parser throws *)
Definition header_item : tree := node ItemNode "" 0 10 [node ParagraphNode "a" 2 1 []; node HeaderNode "Items" 5 5 []].
Theorem C80_header_refuted : parse_member (run_of 10 "a"%char) "" 9 true header_item fresh = Thrown.
Proof. vm_compute. reflexivity. Qed.
Print Assumptions C80_header_refuted.
