(** C82: named types and groups of them are read from their nodes as the grammar of MsonTypesSpec says *)
From Verif Require Import Base StringUtility StringSpec StringProofs ByteBuffer ByteSpec Markdown MarkdownSpec Regex Keywords KeywordsSpec KeywordsOrder Signature SignatureSpec TypeTables SourceMap Mson TypeDefs TypeDefsSpec TypeDefsProofs
  MembersTree MembersSpec MembersRead MembersLeaves MembersParts MembersSteps MembersWhole MembersEnds Prop_Members MsonTypes MsonTypesSpec MsonTypesRead MsonTypesWhole MsonTypesEnds.
From Verif Require SectionsSpec Payloads PayloadsSpec.
Import SectionsSpec(a_header, an_item, include_item, one_of_item, type_h, ends_resource, object_base, value_base, primitive_base).
Import PayloadsSpec(the_text, row).
Local Open Scope string_scope.

(** ** the readers and the grammar. [source]: all of the document; [fuel]: no less than the depth of every node *)
Definition fitting (source : string) (fuel : nat) (l : list tree) : Prop := (slen source < 2 ^ 64)%N /\ Forall (fun t => depth t <= fuel /\ within_source source t) l.
Theorem C82_named_type : forall source fuel l s x rest s', fitting source fuel l ->
  (parse_named_type source fuel l s = Val (x, rest, s') <-> exists e, named_type_says (bases (s_tables s)) source l x rest e /\ s' = perform e s).
Proof. intros source fuel l s x rest s' [Small D]. exact (named_reads _ source Small fuel l D s (x, rest) s' eq_refl). Qed.
Print Assumptions C82_named_type.
Theorem C82_group : forall source fuel blueprint l s x rest s', fitting source fuel l -> Forall one_line l ->
  (parse_structures source fuel blueprint l s = Val (x, rest, s') <-> exists e, structures_say (bases (s_tables s)) source (map seen blueprint) l x rest e /\ s' = perform e s).
Proof. intros source fuel blueprint l s x rest s' [Small D] O. exact (structures_read _ source Small fuel blueprint l D O s (x, rest) s' eq_refl). Qed.
Print Assumptions C82_group.

(** ** reading ends for every document *)
Theorem C82_ends : forall source l s, exists fuel, forall n, fuel <= n -> parse_named_type source n l s <> Endless /\ forall blueprint, parse_structures source n blueprint l s <> Endless.
Proof.
  intros source l s. exists (fold_right (fun t n => max (depth t) n) 0 l). intros n D.
  assert (F : Forall (fun t => depth t <= n) l) by (clear s; induction l as [|t l IH]; constructor; cbn in D; [lia|apply IH; lia]).
  split; [now apply named_ends|]. intros bp. now apply structures_end.
Qed.
Print Assumptions C82_ends.

(** ** nodes say one thing; the report only grows *)
Theorem C82_unique : forall known source document l, fitting source (fold_right (fun t n => max (depth t) n) 0 l) l -> Forall one_line l ->
  (forall x x' rest rest' e e', named_type_says known source l x rest e -> named_type_says known source l x' rest' e' -> x = x' /\ rest = rest') /\
  (forall x x' rest rest' e e', structures_say known source document l x rest e -> structures_say known source document l x' rest' e' -> x = x' /\ rest = rest').
Proof.
  intros known source document l F O. set (s := St (T known [] []) []). set (n := fold_right _ 0 l) in F. split.
  - intros x x' rest rest' e e' H H'. assert (A := proj2 (C82_named_type source n l s x rest _ F) (ex_intro _ e (conj H eq_refl))). assert (B := proj2 (C82_named_type source n l s x' rest' _ F) (ex_intro _ e' (conj H' eq_refl))).
    rewrite A in B. now injection B.
  - assert (Bp : forall d, exists bp, map seen bp = d).
    { fix IH 1. intros [|y d]; [now exists []|]. destruct (IH d) as [bp <-].
      assert (Y : exists b, seen b = y).
      { revert y. fix Y 1. intros [m|m|g|]; [now exists (BResource m)|now exists (BStructure m)| |now exists BOther].
        assert (G : exists bs, map seen bs = g) by (induction g as [|u g [bs <-]]; [now exists []|]; destruct (Y u) as [b <-]; now exists (b :: bs)). destruct G as [bs <-]. now exists (BCategory bs). }
      destruct Y as [b <-]. now exists (b :: bp). }
    destruct (Bp document) as [bp <-]. intros x x' rest rest' e e' H H'.
    assert (A := proj2 (C82_group source n bp l s x rest _ F O) (ex_intro _ e (conj H eq_refl))). assert (B := proj2 (C82_group source n bp l s x' rest' _ F O) (ex_intro _ e' (conj H' eq_refl))).
    rewrite A in B. now injection B.
Qed.
Print Assumptions C82_unique.
Theorem C82_report : forall source fuel blueprint l s x rest s', fitting source fuel l -> Forall one_line l -> parse_structures source fuel blueprint l s = Val (x, rest, s') ->
  exists w, s_notes s' = (s_notes s ++ w)%list /\ bases (s_tables s') = bases (s_tables s) /\ supers (s_tables s') = supers (s_tables s).
Proof. intros source fuel blueprint l s x rest s' F O H. apply C82_group in H as (e & _ & ->); [|assumption..]. destruct (perform_grows e s) as (w & A & B & C & _). now exists w. Qed.
Print Assumptions C82_report.

Section Laws.
Context (known : list (string * base_type)) (source : string).
Notation named_says := (named_type_says known source).

(** ** a named type: its header, what belongs to it, and what is left *)
Theorem C82_rest : forall l x rest e, named_says l x rest e -> exists t d, l = (t :: d ++ rest)%list /\ a_header t.
Proof. exact (named_rest known source). Qed.
(** its name is what the header says before the type, its type what is in the brackets, and an object if that names no type with a base *)
Theorem C82_typed : forall t r x rest e, named_says (t :: r) x rest e -> exists p m n v td ed, signed names_shape (the_text t) "" (Some (p, m)) /\ value_says (p_id p) (MV n v) /\
  definition_says known "" (p_attributes p) td ed /\ ds_name x = TN UndefinedTN (Sym n v) /\ td_spec (ds_type x) = td_spec td /\ td_attrs (ds_type x) = td_attrs td /\
  (td_base td <> UndefinedBT -> td_base (ds_type x) = td_base td) /\ (td_base td = UndefinedBT -> td_base (ds_type x) = ImplicitObjectBT).
Proof.
  intros t r x rest e H. inversion H as [t0 r0 p m n v td texts others l0 l rest0 ed w e' Hh S1 V D N R A B]; subst. exists p, m, n, v, td, ed. cbn [ds_name ds_type td_spec td_attrs td_base].
  do 6 (split; [first [reflexivity|assumption]|]). split; intros U; [|now rewrite U]. destruct (td_base td); try reflexivity. now elim U.
Qed.

(** ** the items behind the header, if none of them is a section, an include or a one-of, are the members, one each and in order; what is behind them up to the next header stays unread *)
Notation member := (member_says known source).
Lemma one_node : forall name l a a1 e on_ t, node_says known source name (member name) (one_of_says known source name) (section_says known source name) t a a1 e on_ -> l = [t] \/ (on_ = false /\ l = [t; t]) ->
  exists e', nodes_say (node_says known source name (member name) (one_of_says known source name) (section_says known source name)) l a a1 e'.
Proof.
  intros name l a a1 e on_ t H [-> | [-> ->]].
  - destruct on_; [exists (e ++ [])%list; eapply nodes_next; [exact H|constructor]|exists e; now apply nodes_last].
  - exists e. now apply nodes_last.
Qed.
Definition ends_items (after : list tree) : Prop := match after with [] => True | t :: _ => a_header t /\ ~ section_node t end.
Lemma below_ends : forall name b after a a' rest e, ends_items after -> below_says known source name b after a a' rest e -> a' = a /\ rest = after.
Proof.
  intros name b after a a' rest e E H. inversion H as [l|t r l l' l'' rest0 e1 e2 N S1 H1|t r l l' e1 N S1|t r k s s' r' l l' rest0 e1 e2 e3 Hh K Hd R H1|t r k s l e1 Hh K Hd]; subst.
  - auto.
  - destruct E as [Eh _]. exfalso. inversion S1; subst; try contradiction; try match goal with O : other_item t |- _ => destruct O as (It & _); now elim (item_header t It) end;
      try match goal with O : include_item t |- _ => apply include_an_item in O as [O _]; now elim (item_header t O) end; try match goal with O : one_of_item t |- _ => apply one_of_an_item in O as [O _]; now elim (item_header t O) end;
      try match goal with O : text_node t |- _ => destruct O; contradiction end; apply N; eexists; eassumption.
  - destruct E as [Eh _]. inversion S1; subst; try contradiction; auto; exfalso;
      try match goal with O : one_of_item t |- _ => apply one_of_an_item in O as [O _]; now elim (item_header t O) end;
      try match goal with O : other_item t \/ text_node t |- _ => destruct O as [(It & _)|[Nh _]]; [now elim (item_header t It)|contradiction] end.
  - destruct E as [_ E]. exfalso. apply E. now exists k.
  - auto.
Qed.
Lemma items_below : forall name property b, (if property : bool then object_base b else value_base b) -> forall items, Forall other_item items -> forall after l l' rest e,
  (exists es, l = [MembersSpec.members_section es]) \/ l = [] -> ends_items after -> below_says known source name b (items ++ after) l l' rest e ->
  rest = after /\ exists xs, Forall2 (fun t x => exists e, member name property t x e) items xs /\
    l' = match items, l with [], _ => l | _, Sec c d v es m n :: _ => [Sec c d v (es ++ xs)%list m n] | _, [] => [MembersSpec.members_section xs] end.
Proof.
  intros name property b B items F. induction F as [|t items Ot F IH]; intros after l l' rest e L E H.
  - cbn in H. apply below_ends in H as [-> ->]; [|exact E]. split; [reflexivity|]. exists []. split; [constructor|reflexivity].
  - assert (Ns : ~ section_node t) by (destruct Ot as (_ & Ns & _); exact Ns). assert (Nh : ~ a_header t) by (destruct Ot as (It & _); exact (item_header t It)).
    assert (S1 : forall l1 e1 on_, node_says known source name (member name) (one_of_says known source name) (section_says known source name) t (l, b) (l1, b) e1 on_ ->
      on_ = true /\ exists x, (exists e, member name property t x e) /\ exists es, l1 = [MembersSpec.members_section (es ++ [x])] /\ (l = [MembersSpec.members_section es] \/ (l = [] /\ es = []))).
    { intros l1 e1 on_ H1.
      assert (W : forall ts e', nodes_say (node_says known source name (member name) (one_of_says known source name) (section_says known source name)) ts (l, b) (l1, b) e' -> Forall other_item ts -> ts <> [] ->
        exists xs es, Forall2 (fun t x => exists e, member name property t x e) ts xs /\ l1 = [MembersSpec.members_section (es ++ xs)] /\ (l = [MembersSpec.members_section es] \/ (l = [] /\ es = []))).
      { intros ts e' Hn Ft Ne. destruct L as [[es ->]| ->].
        - apply (items_read known source name property b B ts Ft []) in Hn as (xs & Fx & Ex). injection Ex as ->. exists xs, es. split; [exact Fx|]. split; [reflexivity|now left].
        - apply (C80_items known source name property b ts _ e' B Ft Ne) in Hn as (xs & Fx & Ex). injection Ex as ->. exists xs, []. split; [exact Fx|]. split; [reflexivity|now right]. }
      destruct (one_node name [t] _ _ _ _ _ H1 (or_introl eq_refl)) as [e' Hn]. destruct (W [t] e' Hn (Forall_cons t Ot (Forall_nil _)) ltac:(discriminate)) as (xs & es & Fx & El & C). inversion Fx as [|t0 x ? ? Mx Fn]; subst. inversion Fn; subst.
      split; [|exists x; split; [exact Mx|]; exists es; auto]. destruct on_; [reflexivity|]. exfalso.
      destruct (one_node name [t; t] _ _ _ _ _ H1 (or_intror (conj eq_refl eq_refl))) as [e2 Hn2]. destruct (W [t; t] e2 Hn2 (Forall_cons t Ot (Forall_cons t Ot (Forall_nil _))) ltac:(discriminate)) as (xs & es2 & Fx2 & El & C2).
      assert (es2 = es) as -> by (destruct C as [-> | [-> ->]], C2 as [C2|[C2 ->]]; try congruence; now injection C2). injection El as El. apply app_inv_head in El. subst xs. inversion Fx2 as [|? ? ? ? _ Fn2]; subst. inversion Fn2. }
    cbn [app] in H. inversion H as [l0|t0 r l0 l1 l2 rest0 e1 e2 N H1 H2|t0 r l0 l1 e1 N H1|t0 r k s s' r' l0 l1 rest0 e1 e2 e3 Hh K Hd R H1|t0 r k s l0 e1 Hh K Hd]; subst; try contradiction.
    + apply S1 in H1 as (_ & x & Mx & es & -> & C). apply IH in H2 as (-> & xs & Fx & ->); [|left; eauto|exact E]. split; [reflexivity|]. exists (x :: xs). split; [now constructor|].
      assert (Q : forall y, match items, [MembersSpec.members_section (es ++ [x])] with [], _ => [MembersSpec.members_section (es ++ [x])] | _, Sec c d v es m n :: _ => [Sec c d v (es ++ y)%list m n] | _, [] => [MembersSpec.members_section y] end
        = [MembersSpec.members_section (es ++ [x] ++ match items with [] => [] | _ => y end)]) by (intros y; destruct items; [now rewrite app_nil_r|cbn; now rewrite <- app_assoc]).
      unfold MembersSpec.members_section in Q |- *. rewrite Q. assert (Z : match items with [] => [] | _ => xs end = xs) by (destruct items; [now inversion Fx|reflexivity]). rewrite Z. destruct C as [-> | [-> ->]]; reflexivity.
    + apply S1 in H1 as [X _]. discriminate.
Qed.
Theorem C82_items : forall t items after x rest e property, named_says (t :: items ++ after) x rest e -> (if property : bool then object_base (td_base (ds_type x)) else value_base (td_base (ds_type x))) ->
  Forall other_item items -> items <> [] -> ends_items after ->
  rest = after /\ exists xs, Forall2 (fun t x' => exists e, member (name_of x) property t x' e) items xs /\ ds_sections x = [MembersSpec.members_section xs].
Proof.
  intros t items after x rest e property H B F Ne E. inversion H as [t0 r0 p m n v td texts others l0 l rest0 ed w e' Hh S1 V D N R A W]; subst. cbn [ds_type td_base ds_sections] in *.
  unfold name_of. cbn [ds_name n_symbol s_literal]. destruct items as [|i items]; [now elim Ne|]. inversion F as [|i0 items0 Oi F']; subst.
  assert (texts = [] /\ others = ((i :: items) ++ after)%list) as [-> ->].
  { destruct R as (Er & Ft & _). destruct texts as [|u texts]; [split; [reflexivity|now symmetry]|]. exfalso. cbn in Er. injection Er as <- _. inversion Ft as [|? ? [_ Ni] _]; subst. destruct Oi as (It & _). contradiction. }
  inversion A; subst. apply (items_below _ property _ B (i :: items) F) in W as (-> & xs & Fx & ->); [|now right|exact E]. split; [reflexivity|]. exists xs. split; [exact Fx|reflexivity].
Qed.
(** a primitive type takes no items: it is warned about the first, and all of them are left *)
Theorem C82_primitive : forall t i r x rest e, named_says (t :: i :: r) x rest e -> primitive_base (td_base (ds_type x)) -> other_item i ->
  rest = i :: r /\ Forall (fun s => sc_elements s = []) (ds_sections x) /\ In (lies i, Says 8 "sub-types of primitive types should not have nested members") e.
Proof.
  intros t i r x rest e H B Oi. inversion H as [t0 r0 p m n v td texts others l0 l rest0 ed w e' Hh S1 V D N R A W]; subst. cbn [ds_type td_base ds_sections] in *.
  assert (texts = [] /\ others = i :: r) as [-> ->].
  { destruct R as (Er & Ft & _). destruct texts as [|u texts]; [split; [reflexivity|now symmetry]|]. exfalso. cbn in Er. injection Er as <- _. inversion Ft as [|? ? [_ Ni] _]; subst. destruct Oi as (It & _). contradiction. }
  inversion A; subst. assert (Ns : ~ section_node i) by (destruct Oi as (_ & Ns & _); exact Ns). assert (Nh : ~ a_header i) by (destruct Oi as (It & _); exact (item_header i It)).
  assert (P1 : forall l1 e1 on_, node_says known source n (member n) (one_of_says known source n) (section_says known source n) i ([], type_base (td_base td)) (l1, type_base (td_base td)) e1 on_ ->
    on_ = false /\ e1 = on i [Says 8 "sub-types of primitive types should not have nested members"] /\ into [] [] l1).
  { intros l1 e1 on_ H1. destruct (one_node n [i] _ _ _ _ _ H1 (or_introl eq_refl)) as [e2 Hn]. destruct (C80_primitive known source n _ i [] [] _ _ B (or_introl Oi) eq_refl Hn) as (-> & _ & I).
    destruct on_; [|split; [reflexivity|]].
    - exfalso. assert (U : exists e3, nodes_say (node_says known source n (member n) (one_of_says known source n) (section_says known source n)) [i] ([], type_base (td_base td)) (l1, type_base (td_base td)) e3 /\ e3 = (e1 ++ [])%list)
        by (eexists; split; [eapply nodes_next; [exact H1|constructor]|reflexivity]).
      inversion H1; subst; try contradiction; try match goal with K : told_by_member _ _ ?c |- _ => idtac end;
        destruct Oi as (It & _ & Ni & No); try contradiction;
        try match goal with K : value_base _ |- _ => destruct B as [B|B]; rewrite B in K; destruct K; discriminate end;
        try match goal with K : object_base _ |- _ => destruct B as [B|B]; rewrite B in K; destruct K; discriminate end;
        try match goal with K : text_node _ |- _ => destruct K; contradiction end; try (apply Ns; eexists; eassumption).
    - split; [|exact I]. inversion H1; subst; try reflexivity; try contradiction; destruct Oi as (It & _ & Ni & No); contradiction. }
  inversion W as [l1|t1 r1 l1 l2 l3 rest1 e1 e2 N1 H1 H2|t1 r1 l1 l2 e1 N1 H1|t1 r1 k s s' r' l1 l2 rest1 e1 e2 e3 Hh1 K Hd R1 H1|t1 r1 k s l1 e1 Hh1 K Hd]; subst; try contradiction.
  - apply P1 in H1 as [X _]. discriminate.
  - apply P1 in H1 as (_ & -> & I). split; [reflexivity|]. split.
    + inversion I as [k0 d0 v0 es0 m0 n0 E1 E2|l2 Nl E1 E2]; [now destruct k0|subst]. repeat constructor.
    + apply in_or_app. right. now left.
Qed.

(** ** groups: every structure has its own place in the list, none has a name that was taken, and the group goes on to the next header that ends it *)
Theorem C82_names : forall document l x rest e, structures_say known source document l x rest e -> Forall (fun s => ~ taken_name document (name_of s)) x.
Proof. intros document l x rest0 e0 H. destruct H as [t r y rest1 e1 Hh B]. induction B; try assumption; constructor; assumption. Qed.
Theorem C82_group_rest : forall document l x rest e, structures_say known source document l x rest e -> exists d, l = (d ++ rest)%list /\ d <> [] /\ match rest with [] => True | t :: _ => ends_resource t end.
Proof.
  intros document l x rest0 e0 H. destruct H as [t r y rest1 e1 Hh B].
  enough (X : exists d, r = (d ++ rest1)%list /\ match rest1 with [] => True | t :: _ => ends_resource t end) by (destruct X as (d & -> & X); exists (t :: d); split; [reflexivity|]; split; [discriminate|exact X]).
  clear Hh t. induction B as [|t r y0 r' l0 rest e e' T N Nt B (d & -> & X)|t r y0 r' l0 rest e e' T N Tk B (d & -> & X)|t r l0 rest e Nt Ne B (d & -> & X)|t r En].
  - now exists [].
  - apply C82_rest in N as (t1 & d1 & E1 & _). exists (t1 :: d1 ++ d)%list. split; [|exact X]. rewrite E1. cbn. now rewrite app_assoc.
  - apply C82_rest in N as (t1 & d1 & E1 & _). exists (t1 :: d1 ++ d)%list. split; [|exact X]. rewrite E1. cbn. now rewrite app_assoc.
  - now exists (t :: d).
  - now exists [].
Qed.
(** a group of type headers only, with names that are new: a structure each, without sections *)
Theorem C82_headers : forall document t l x rest e, structures_say known source document (t :: l) x rest e -> Forall (fun u => type_h u /\ ~ section_node u) l ->
  (forall u r x rest e, In u l -> named_says (u :: r) x rest e -> ~ taken_name document (name_of x)) ->
  rest = [] /\ Forall2 (fun u s => exists e, named_says [u] s [] e) l x.
Proof.
  intros document t l x rest e H F New. inversion H as [t0 r0 y rest' e' Hh B]; subst. clear H Hh. revert x rest e B.
  induction F as [|u l [Tu Nu] F IH]; intros x rest e B; [inversion B; subst; now split|].
  assert (After : ends_items l) by (destruct l as [|v l]; [exact I|]; inversion F as [|? ? [Tv Nv] _]; subst; split; [exact (proj1 Tv)|exact Nv]).
  assert (Only : forall s r e1, named_says (u :: l) s r e1 -> r = l /\ exists e2, named_says [u] s [] e2).
  { intros s r e1 N. inversion N as [t0 r0 p m n v td texts others l0 k rest0 ed w e2 Hh S1 V D Nr R A W]; subst.
    assert (texts = [] /\ others = l) as [-> ->].
    { destruct R as (Er & Ft & _). destruct texts as [|q texts]; [split; [reflexivity|now symmetry]|]. exfalso. destruct l as [|q0 l]; [discriminate|]. cbn in Er. injection Er as <- _. inversion Ft as [|? ? [Nq _] _]; subst. now destruct After. }
    inversion A; subst. apply below_ends in W as [-> ->]; [|exact After]. split; [reflexivity|]. eexists. eapply named_type_by; [exact Hh|exact S1|exact V|exact D|exact Nr| |exact A|constructor].
    split; [reflexivity|]. split; [exact (Forall_nil _)|]; let Z := fresh in intros Z; first [contradiction | inversion Z]. }
  inversion B as [|t1 r1 s r' k rest1 e1 e2 T1 N1 Nt B1|t1 r1 s r' k rest1 e1 e2 T1 N1 Tk B1|t1 r1 k rest1 e1 Nt Ne B1|t1 r1 En]; subst.
  - destruct (Only _ _ _ N1) as [-> N2]. destruct (IH (fun u r x rest e J => New u r x rest e (or_intror J)) _ _ _ B1) as [-> Fx]. split; [reflexivity|]. now constructor.
  - exfalso. exact (New u l s r' e1 (or_introl eq_refl) N1 Tk).
  - contradiction.
  - exfalso. exact (type_not_end u Tu En).
Qed.
End Laws.
Print Assumptions C82_items.
Print Assumptions C82_primitive.
Print Assumptions C82_rest.
Print Assumptions C82_typed.
Print Assumptions C82_names.
Print Assumptions C82_group_rest.
Print Assumptions C82_headers.

(** ** examples *)
Definition group_source : string := "# Data Structures" +++ line_feed +++ line_feed +++ "## User (object)" +++ line_feed +++ line_feed +++ "+ id: 1 (number)" +++ line_feed +++ "+ name" +++ line_feed +++ line_feed +++ "### Sample" +++ line_feed +++ line_feed +++ "+ id: 2" +++ line_feed +++ line_feed +++ "## Tags_list (array)" +++ line_feed +++ line_feed +++ "Some words" +++ line_feed +++ line_feed +++ "## User" +++ line_feed +++ line_feed +++ "# Group Rest" +++ line_feed +++ line_feed.
Definition group_nodes : list tree :=
  [node HeaderNode "Data Structures" 0 18 [];
   node HeaderNode "User (object)" 19 17 [];
   node ItemNode "" 37 17 [node ParagraphNode "id: 1 (number)" 39 15 []];
   node ItemNode "" 54 7 [node ParagraphNode "name" 56 5 []];
   node HeaderNode "Sample" 62 11 [];
   node ItemNode "" 74 8 [node ParagraphNode "id: 2" 76 6 []];
   node HeaderNode "Tags_list (array)" 83 21 [];
   node ParagraphNode "Some words" 105 11 [];
   node HeaderNode "User" 117 8 [];
   node HeaderNode "Group Rest" 126 13 []].

Definition text_source : string := "## User" +++ line_feed +++ line_feed +++ "### Properties" +++ line_feed +++ line_feed +++ "Some words" +++ line_feed +++ line_feed +++ "+ id" +++ line_feed.
Definition text_nodes : list tree :=
  [node HeaderNode "User" 0 8 [];
   node HeaderNode "Properties" 9 15 [];
   node ParagraphNode "Some words" 25 11 [];
   node ItemNode "" 37 5 [node ParagraphNode "id" 39 3 []]].

Definition item_source : string := "## User" +++ line_feed +++ line_feed +++ "+ Sample" +++ line_feed.
Definition item_nodes : list tree :=
  [node HeaderNode "User" 0 8 [];
   node ItemNode "" 9 9 [node ParagraphNode "Sample" 11 7 []]].

Definition age_source : string := "# Data Structures" +++ line_feed +++ line_feed +++ "## Age (number)" +++ line_feed +++ line_feed +++ "+ years" +++ line_feed +++ "+ Sample: 7" +++ line_feed +++ line_feed +++ "## Rest" +++ line_feed +++ line_feed.
Definition age_nodes : list tree :=
  [node HeaderNode "Data Structures" 0 18 [];
   node HeaderNode "Age (number)" 19 16 [];
   node ItemNode "" 36 8 [node ParagraphNode "years" 38 6 []];
   node ItemNode "" 44 12 [node ParagraphNode "Sample: 7" 46 10 []];
   node HeaderNode "Rest" 57 8 []].

Definition twice_source : string := "# Data Structures" +++ line_feed +++ line_feed +++ "## User" +++ line_feed +++ line_feed +++ "+ a" +++ line_feed +++ line_feed +++ "## User" +++ line_feed +++ line_feed +++ "+ b" +++ line_feed.
Definition twice_nodes : list tree :=
  [node HeaderNode "Data Structures" 0 18 [];
   node HeaderNode "User" 19 8 [];
   node ItemNode "" 28 4 [node ParagraphNode "a" 30 2 []];
   node HeaderNode "User" 33 8 [];
   node ItemNode "" 42 4 [node ParagraphNode "b" 44 2 []]].

Definition nameless_source : string := "# Data Structures" +++ line_feed +++ line_feed +++ "## (array)" +++ line_feed +++ line_feed +++ "+ a" +++ line_feed.
Definition nameless_nodes : list tree :=
  [node HeaderNode "Data Structures" 0 18 [];
   node HeaderNode "(array)" 19 11 [];
   node ItemNode "" 31 4 [node ParagraphNode "a" 33 2 []]].

Definition symbol_of (x : string) : type_name := TN UndefinedTN (Sym x false).
(** "Tags_list" is kept with a remark; the second "User" of the group is kept without one *)
Example C82_group_example : parse_structures group_source 9 [] group_nodes fresh =
  Val ([Str (symbol_of "User") (base ObjectTN ObjectBT)
          [of_members [property "id" 39 15 (VD [MV "1" false] (base NumberTN PrimitiveBT)) "" []; property "name" 56 5 (untyped ImplicitPrimitiveBT) "" []];
           Sec SampleClass "" "" [property "id" 76 6 (VD [MV "2" false] (TD ImplicitPrimitiveBT no_spec 0%N)) "" []] [] (at_place 62 11)] [] (at_place 19 17) (at_place 19 17);
        Str (symbol_of "Tags_list") (base ArrayTN ValueBT) [Sec BlockDescriptionClass "Some words" "" [] (at_place 105 11) []] [] (at_place 83 21) (at_place 83 21);
        Str (symbol_of "User") (TD ImplicitObjectBT no_spec 0%N) [] [] (at_place 117 8) []],
       [node HeaderNode "Group Rest" 126 13 []],
       note (at_place 83 21) [Warns 3 "please escape the name of the data structure using backticks since it contains MSON reserved characters"] fresh).
Proof. vm_compute. reflexivity. Qed.
(** the hypotheses of C82_group hold for it *)
Example C82_hypotheses : fitting group_source 9 group_nodes /\ Forall one_line group_nodes.
Proof.
  split.
  - split; [reflexivity|]. repeat apply Forall_cons; try apply Forall_nil; (split; [cbn; lia|inside]).
  - repeat apply Forall_cons; try apply Forall_nil; cbn; try exact I; intros H; repeat (destruct H as [H|H]; [discriminate H|]); exact H.
Qed.
Example C82_group_says : exists x e, structures_say [("User", ObjectBT)] group_source [] group_nodes x (skipn 9 group_nodes) e /\ map name_of x = ["User"; "Tags_list"; "User"].
Proof.
  destruct C82_hypotheses as [F O]. destruct (proj1 (C82_group group_source 9 [] group_nodes fresh _ _ _ F O) C82_group_example) as (e & H & _). eexists. exists e. split; [exact H|reflexivity].
Qed.
Example C82_named_says : exists x rest e, named_type_says [("User", ObjectBT)] group_source (tl group_nodes) x rest e /\ rest = skipn 6 group_nodes.
Proof.
  assert (F : fitting group_source 9 (tl group_nodes)) by (destruct C82_hypotheses as [[S D] _]; split; [exact S|]; now inversion D).
  assert (H : exists x s, parse_named_type group_source 9 (tl group_nodes) fresh = Val (x, skipn 6 group_nodes, s)) by (eexists; eexists; vm_compute; reflexivity).
  destruct H as (x & s & H). apply (C82_named_type group_source 9 _ fresh _ _ _ F) in H as (e & H & _). exists x, (skipn 6 group_nodes), e. split; [exact H|reflexivity].
Qed.
(** a name that is taken by a resource: the structure is left out *)
Example C82_taken : parse_structures twice_source 9 [BCategory [BResource "User"]] twice_nodes fresh =
  Val ([], [], note (at_place 33 8) [Warns 2 (taken_text "User")] (note (at_place 19 8) [Warns 2 (taken_text "User")] fresh)).
Proof. vm_compute. reflexivity. Qed.

(** ** what does not hold *)
(** names of structures are not unique: those of the same group are not looked at *)
Theorem C82_twice_refuted : exists xs s, parse_structures twice_source 9 [] twice_nodes fresh = Val (xs, [], s) /\ map name_of xs = ["User"; "User"] /\ s = fresh.
Proof. eexists. eexists. vm_compute. repeat split. Qed.
Print Assumptions C82_twice_refuted.
(** a type without a name has the name of the attributes of any resource that has none *)
Theorem C82_nameless_refuted : parse_structures nameless_source 9 [BCategory [BResource ""]] nameless_nodes fresh =
  Val ([], [], note (at_place 19 11) [Warns 2 (taken_text "")] (note (at_place 19 11) [Warns 6 "no identifier specified"] fresh)).
Proof. vm_compute. reflexivity. Qed.
Print Assumptions C82_nameless_refuted.
(** words below the header of a section: the parser throws *)
Theorem C82_text_refuted : parse_named_type text_source 9 text_nodes fresh = Thrown.
Proof. vm_compute. reflexivity. Qed.
Print Assumptions C82_text_refuted.
(** a section that is a list item: the parser throws *)
Theorem C82_item_refuted : parse_named_type item_source 9 item_nodes fresh = Thrown.
Proof. vm_compute. reflexivity. Qed.
Print Assumptions C82_item_refuted.
(** the samples of a primitive type are lost *)
Theorem C82_primitive_refuted : parse_structures age_source 9 [] age_nodes fresh =
  Val ([Str (symbol_of "Age") (base NumberTN PrimitiveBT) [of_members []] [] (at_place 19 16) (at_place 19 16); Str (symbol_of "Rest") (TD ImplicitObjectBT no_spec 0%N) [] [] (at_place 57 8) []], [],
    note (at_place 44 12) [Warns 5 "ignoring unrecognized block"]
      (note (at_place 36 8) [Warns 8 "sub-types of primitive types should not have nested members"; Warns 5 "ignoring unrecognized block"] fresh)).
Proof. vm_compute. reflexivity. Qed.
Print Assumptions C82_primitive_refuted.
