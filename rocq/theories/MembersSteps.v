(** Lemmas for C80: the nodes of members, sections and one-of items *)
From Verif Require Import Base StringUtility StringSpec StringProofs ByteBuffer ByteSpec Markdown MarkdownSpec Regex RegexSpec RegexProofs RegexCaps Keywords KeywordsSpec KeywordsProofs Prop_Keywords
  Signature SignatureSpec SignatureProofs SignatureWhole TypeTables SourceMap Mson Prop_Bytes Prop_Strings TypeDefs TypeDefsSpec TypeDefsProofs MembersTree MembersSpec MembersRead MembersLeaves MembersMixin MembersParts.
From Verif Require SectionsSpec SectionsItems SectionsKinds SectionsDoc SectionsLoop Payloads PayloadsSpec PayloadsText PayloadsNodes.
Import SectionsSpec(a_header, an_item, include_item, one_of_item, object_base, value_base, primitive_base).
Import PayloadsSpec(the_text, place, opens, row, padded).
Local Open Scope string_scope.

(** ** sections *)
Lemma snoc_or : forall {A} (l : list A), l = [] \/ exists k s, l = (k ++ [s])%list.
Proof. intros A l. destruct l as [|x l] using rev_ind; [now left|right; eauto]. Qed.
Lemma last_snoc : forall k s, last_class (k ++ [s])%list = sc_class s.
Proof. intros k s. unfold last_class. now rewrite rev_app_distr. Qed.
Lemma push_snoc : forall x k s, push x (k ++ [s])%list = (k ++ [add_element x s])%list.
Proof. intros x k s. unfold push. rewrite rev_app_distr. cbn. now rewrite rev_involutive. Qed.
Definition put (o : option melement) (l : sections) : sections := match o with Some x => push x (grown l) | None => grown l end.
Definition few (o : option melement) : list melement := match o with Some x => [x] | None => [] end.
Lemma told_not : forall l, told l = false <-> last_class l <> BlockDescriptionClass.
Proof. intros l. unfold told. destruct (last_class l); intuition discriminate. Qed.
Lemma into_untold : forall x l l', into x l l' -> told l = false.
Proof.
  intros x l l' [k d v es m n|l0 N]; apply told_not; [rewrite last_snoc; discriminate|]. destruct (snoc_or l0) as [->|(k & s & ->)]; [discriminate|]. rewrite last_snoc. exact (proj2 (N k s eq_refl)).
Qed.
Lemma into_iff : forall o l l', told l = false -> (l' = put o l <-> into (few o) l l').
Proof.
  intros o l l' T. apply told_not in T. destruct (snoc_or l) as [->|(k & s & ->)].
  - assert (E : put o [] = [members_section (few o)]) by now destruct o. rewrite E. split.
    + intros ->. apply (into_new _ []). intros k s H. now destruct k.
    + intros H. inversion H as [k d v es m n E1 E2|l0 N E1 E2]; [now destruct k|reflexivity].
  - rewrite last_snoc in T. destruct s as [c d v es m n]. cbn [sc_class] in T.
    assert (D : c = MemberTypeClass \/ c <> MemberTypeClass) by (destruct c; [right; discriminate|right; discriminate|now left|right; discriminate|right; discriminate]). destruct D as [->|D].
    + assert (E : put o (k ++ [Sec MemberTypeClass d v es m n])%list = (k ++ [Sec MemberTypeClass d v (es ++ few o) m n])%list).
      { unfold put, grown. rewrite last_snoc. cbn [sc_class]. destruct o; [now rewrite push_snoc|]. cbn [few]. now rewrite app_nil_r. }
      rewrite E. split; [intros ->; constructor|]. intros H. inversion H as [k0 d0 v0 es0 m0 n0 E1 E2|l0 N E1 E2].
      * apply app_inj_tail in E1 as [-> E1]. injection E1 as -> -> -> -> ->. reflexivity.
      * subst. elim (proj1 (N k _ eq_refl)). reflexivity.
    + assert (E : put o (k ++ [Sec c d v es m n])%list = ((k ++ [Sec c d v es m n]) ++ [members_section (few o)])%list).
      { unfold put, grown. rewrite last_snoc. cbn [sc_class]. destruct c, o; try (now elim D); try reflexivity; now rewrite push_snoc. }
      rewrite E. split.
      * intros ->. apply into_new. intros k0 s0 H. apply app_inj_tail in H as [-> <-]. cbn. now split.
      * intros H. inversion H as [k0 d0 v0 es0 m0 n0 E1 E2|l0 N E1 E2]; [|reflexivity]. apply app_inj_tail in E1 as [-> E1]. injection E1 as <- _ _ _ _ _. now elim D.
Qed.
Definition single_text (l : sections) : Prop := told l = true -> exists d m, l = [text_section d m].

Section Steps.
Context (known : list (string * base_type)) (source context : string) (Small : (slen source < 2 ^ 64)%N).
Notation reads := (reads known).
Context (member : bool -> tree -> st -> outcome (melement * st)) (one_of : tree -> st -> outcome (list melement * st))
  (section : section_type -> base_type -> tree -> st -> outcome (msection melement * st)).
Context (Member : bool -> tree -> melement -> located -> Prop) (OneOf : tree -> list melement -> located -> Prop)
  (Section_ : kind -> base_type -> tree -> msection melement -> located -> Prop) (P : tree -> Prop).
Hypothesis (P_fits : forall t, P t -> fits source t)
  (HM : forall property t, P t -> reads (member property t) (Member property t))
  (HO : forall t, P t -> reads (one_of t) (OneOf t))
  (HS : forall k b t, P t -> reads (section (kind_section k) b t) (Section_ k b t)).

Notation node_says := (node_says known source context Member OneOf Section_).
Notation step_result := ((sections * base_type) * bool)%type.

(** a reader whose result is followed by a remark or not *)
Lemma reads_then : forall {A B} (f : st -> outcome (A * st)) R (h : A -> B) (w : A -> located), reads f R ->
  reads (fun s => andthen (f s) (fun '(x, s) => Val (h x, perform (w x) s))) (fun y e => exists x e1, R x e1 /\ y = h x /\ e = (e1 ++ w x)%list).
Proof.
  intros A B f R h w F. refine (reads_ext _ _ (reads_bind (fun x y e => y = h x /\ e = w x) F _) _).
  - intros x e _. apply reads_ret.
  - intros y e. split; [intros (x & e1 & e2 & H & [-> ->] & ->); eauto|intros (x & e1 & H & -> & ->); eauto 8].
Qed.
Definition odd (text : string) (t : tree) (x : melement) : located := if has_value_of_object x then on t [Says 8 text] else [].
Lemma odd_iff : forall text t x w, odd_object text x w -> odd text t x = on t w.
Proof.
  intros text t x w H. unfold odd, has_value_of_object, member_of. destruct H as [H|H]; destruct x as [|n m|m|td|l|l]; cbn in H |- *; try contradiction; try reflexivity;
    destruct (base_cases (td_base (vd_type (m_value m)))) as [(O & -> & _)|[(_ & -> & _ & _ & O & _)|[(_ & -> & _ & _ & _ & O & _)|(_ & -> & _ & _ & _ & O & _)]]]; try tauto; destruct (vd_values (m_value m)) eqn:V; cbn; try reflexivity; intuition congruence.
Qed.
Lemma odd_total : forall text x, exists w, odd_object text x w.
Proof.
  intros text x. destruct (has_value_of_object x) eqn:E.
  - exists [Says 8 text]. constructor. unfold has_value_of_object, member_of in E. apply andb_prop in E as [E V]. destruct x as [|n m|m|td|l|l]; cbn in *; try discriminate;
      (split; [destruct (td_base (vd_type (m_value m))); cbn in E; try discriminate; [now left|now right] || (destruct (base_cases (td_base (vd_type (m_value m)))) as [(O & _)|[(_ & B & _)|[(_ & B & _)|(_ & B & _)]]]; [exact O|congruence..])|destruct (vd_values (m_value m)); [discriminate|discriminate]]).
  - exists []. constructor. intros H. unfold has_value_of_object, member_of in E. destruct x as [|n m|m|td|l|l]; cbn in *; try contradiction; destruct H as [O V];
      destruct (base_cases (td_base (vd_type (m_value m)))) as [(_ & B & _)|[(_ & _ & _ & _ & N & _)|[(_ & _ & _ & _ & _ & N & _)|(_ & _ & _ & _ & _ & N & _)]]]; try contradiction; rewrite B in E; destruct (vd_values (m_value m)); try discriminate; now elim V.
Qed.
Lemma odd_note : forall text t x s, (if has_value_of_object x then note (spot t) (logical text) s else s) = perform (odd text t x) s.
Proof. intros text t x s. unfold odd. destruct (has_value_of_object x); reflexivity. Qed.

Lemma kind_place : forall t k, kind_says t k -> an_item t \/ a_header t.
Proof. intros [ty x z m cs] k H. destruct H as [t [[H|H]|[H|H]]|t [H|H]|t [H|H]]; destruct t as [[] ? ? ? ?]; cbn in H |- *; tauto. Qed.
Lemma item_header : forall t, an_item t -> ~ a_header t.
Proof. intros [[] x z m cs] H H'; assumption. Qed.
Ltac clash :=
  exfalso;
  repeat match goal with
  | H : other_item _ \/ text_node _ |- _ => destruct H as [H|H]
  | H : other_item _ |- _ => destruct H as (? & ? & ? & ?)
  | H : text_node _ |- _ => destruct H as [? ?]
  | H : an_item ?t, N : a_header ?t |- _ => elim (item_header t H N)
  | H : kind_says ?t ?k, N : ~ an_item ?t |- _ => apply kind_place in H; tauto
  | H : ?l = [text_section _ _], T : told ?l = false |- _ => rewrite H in T; discriminate T
  | T : told [text_section _ _] = false |- _ => discriminate T
  | H : into _ ?l _, T : told ?l = true |- _ => apply into_untold in H; congruence
  | H : kind_says ?t ?k, N : ~ section_node ?t |- _ => elim N; now exists k
  | H : include_item ?t, N : ~ an_item ?t |- _ => apply include_an_item in H
  | H : one_of_item ?t, N : ~ an_item ?t |- _ => apply one_of_an_item in H
  | H : include_item ?t, N : a_header ?t |- _ => elim (proj2 (include_an_item _ H)); exact N
  | H : one_of_item ?t, N : a_header ?t |- _ => elim (proj2 (one_of_an_item _ H)); exact N
  end; tauto || (intuition (congruence || discriminate)).

Lemma one_not_include : forall t, one_of_item t -> ~ include_item t.
Proof. intros t H. exact (proj2 H). Qed.
Lemma told_unique : forall t b c d, told_by_member t b c -> told_by_member t b d -> c = d.
Proof. intros t b c d H K. apply (resolve_iff t MSONSection) in H, K; cbn; auto. congruence. Qed.
Lemma resolved : forall t ty b, In ty [MSONSection; MSONOneOfSection; MSONMixinSection] -> told_by_member t b (resolve t ty b).
Proof. intros t ty b I. now apply (resolve_iff t ty). Qed.

(** a type section below a member *)
Lemma step_section : forall t k l b, P t -> kind_says t k -> type_section_type t = kind_section k ->
  reads (member_step source context member one_of section t (l, b)) (fun x e => node_says t (l, b) (fst x) e (snd x)).
Proof.
  intros t k l b Pt Kt E.
  assert (Q : forall s, member_step source context member one_of section t (l, b) s =
    andthen (section (kind_section k) (resolve t (kind_section k) b) t s) (fun '(x, s) => Val ((keep_section t x l, resolve t (kind_section k) b), true, perform [] s))).
  { intros s. unfold member_step, member_nested_type. rewrite E. destruct k; reflexivity. }
  refine (reads_fun _ _ (reads_ext _ _ (reads_then _ _ (fun x => (keep_section t x l, resolve t (kind_section k) b, true)) (fun _ => []) (HS k (resolve t (kind_section k) b) t Pt)) _) Q).
  intros [a on_] e. cbn [fst snd]. split.
  - intros ([c d v es m n] & e1 & R & H & ->). injection H as -> ->. rewrite app_nil_r.
    assert (T : told_by_section k b (resolve t (kind_section k) b)) by now apply (resolve_section_iff t).
    pose proof (MembersSpec.node_section known source context Member OneOf Section_ t k l b _ c d v es m n e1 Kt T R) as G.
    destruct c, n; exact G.
  - intros H. inversion H; subst; try clash. match goal with K : kind_says t ?k', T : told_by_section ?k' b ?b', S1 : Section_ ?k' ?b' t ?x ?e |- _ =>
      assert (k' = k) as -> by exact (kind_unique _ _ _ K Kt); apply (resolve_section_iff t) in T; subst b'; exists x, e; split; [exact S1|]; split; [|now rewrite app_nil_r] end.
    match goal with |- ((if match ?c with _ => _ end then _ else _ ++ [Sec _ _ _ _ _ (match ?n with _ => _ end)])%list, _, _) = _ => destruct c, n end; reflexivity.
Qed.
(** other nodes *)
Lemma step_other : forall t l b, P t -> single_text l -> ~ section_node t -> type_section_type t = UndefinedSection ->
  reads (member_step source context member one_of section t (l, b)) (fun x e => node_says t (l, b) (fst x) e (snd x)).
Proof.
  intros t l b Pt Sg Ns E.
  assert (Q : forall s, member_step source context member one_of section t (l, b) s = mson_section source context member one_of (type_section_nested_type t) t (l, b) s).
  { intros s. unfold member_step, member_nested_type, type_section_nested_type. rewrite E. cbn [or_else]. pose proof (SectionsItems.member_kind t) as M. unfold type_section_nested_type in M.
    destruct M as [(_ & _ & ->)|[(_ & _ & ->)|(_ & _ & ->)]]; reflexivity. }
  refine (reads_fun _ _ _ Q). clear Q E. unfold mson_section.
  destruct (is_header t) eqn:Hd; [apply header_iff in Hd|assert (Nh : ~ a_header t) by (rewrite <- header_iff, Hd; discriminate); clear Hd].
  { refine (reads_ext _ _ (reads_val known ((l, b), false)) _). intros [a on_] e. cbn [fst snd]. split.
    - intros [H ->]. injection H as -> ->. now apply node_header.
    - intros H. inversion H; subst; try clash. now split. }
  destruct (told l) eqn:T.
  { destruct (Sg T) as (d & m & ->). refine (reads_ext _ _ (reads_pure _ (fun o y e => e = [] /\ match o with Some l => y = ((l, b), true) | None => y = (([text_section d m], b), false) end) (fun o => block_some source Small t d m o (P_fits t Pt)) _) _).
    - intros o (d' & m' & A & ->). refine (reads_ext _ _ (reads_val known (([text_section d' m'], b), true)) _). intros x e. tauto.
    - intros [a on_] e. cbn [fst snd]. split.
      + intros (o & (d' & m' & A & ->) & -> & H). injection H as -> ->. now apply node_text.
      + intros H. inversion H; subst; try clash. eexists. split; [eauto|]. now split. }
  clear Sg. assert (It : forall o l', l' = put o l <-> into (few o) l l') by (intros o l'; now apply into_iff).
  destruct (SectionsItems.member_kind t) as [(In_ & No & ->)|[(On & Ni & ->)|(Ni & No & ->)]].
  - (* include *)
    assert (Tl := resolved t MSONMixinSection b ltac:(cbn; auto)). set (b' := resolve t MSONMixinSection b) in *. cbv zeta.
    refine (reads_ext _ _ (reads_bind (fun td y e => if same_base b' (td_base td) then y = ((push (MMixin td) (grown l), b'), true) /\ e = []
       else y = ((grown l, b'), true) /\ e = on t [Says 8 "mixin base type should be the same as parent base type. objects should contain object mixins. arrays should contain array mixins"]) (mixin_reads known context t) _) _).
    + intros td e1 _. cbv beta. destruct (same_base b' (td_base td)); [exact (reads_val known _)|exact (reads_ret known _ (on t [Says 8 "mixin base type should be the same as parent base type. objects should contain object mixins. arrays should contain array mixins"]))].
    + intros [a on_] e. cbn [fst snd]. split.
      * intros (td & e1 & e2 & M & H & ->). destruct (same_base b' (td_base td)) eqn:S1.
        -- destruct H as [H ->]. injection H as -> ->. rewrite app_nil_r. apply (MembersSpec.node_include known source context Member OneOf Section_ t l b b' td e1); try assumption; [now apply same_iff|now apply (It (Some (MMixin td)))].
        -- destruct H as [H ->]. injection H as -> ->. apply (MembersSpec.node_other_include known source context Member OneOf Section_ t l b b' td e1); try assumption; [rewrite <- same_iff, S1; discriminate|now apply (It None)].
      * intros H. inversion H; subst; try clash.
        -- match goal with K : told_by_member t b ?c |- _ => assert (c = b') as -> by exact (told_unique _ _ _ _ K Tl) end. eexists td, e, []. split; [assumption|]. rewrite app_nil_r. split; [|reflexivity].
           match goal with K : same_kind _ _ |- _ => apply same_iff in K; rewrite K end. split; [|reflexivity]. match goal with K : into _ _ _ |- _ => apply (It (Some (MMixin td))) in K; now rewrite K end.
        -- match goal with K : told_by_member t b ?c |- _ => assert (c = b') as -> by exact (told_unique _ _ _ _ K Tl) end. eexists td, _, _. split; [eassumption|]. split; [|reflexivity].
           destruct (same_base b' (td_base td)) eqn:S1; [apply same_iff in S1; contradiction|]. split; [|reflexivity]. match goal with K : into _ _ _ |- _ => apply (It None) in K; now rewrite K end.
  - (* one of *)
    assert (Tl := resolved t MSONOneOfSection b ltac:(cbn; auto)). set (b' := resolve t MSONOneOfSection b) in *. cbv zeta.
    destruct (is_object b') eqn:Ob.
    + assert (Ob' : object_base b') by (destruct (base_cases b') as [(O & _)|[(_ & X & _)|[(_ & X & _)|(_ & X & _)]]]; [exact O|congruence..]).
      refine (reads_ext _ _ (reads_then _ _ (fun x => ((push (MOneOf x) (grown l), b'), true)) (fun _ => []) (HO t Pt)) _). intros [a on_] e. cbn [fst snd]. split.
      * intros (x & e1 & R & H & ->). injection H as -> ->. rewrite app_nil_r. apply (MembersSpec.node_one_of known source context Member OneOf Section_ t l b b' x e1); try assumption. now apply (It (Some (MOneOf x))).
      * intros H. inversion H; subst; try clash; match goal with K : told_by_member t b ?c |- _ => assert (c = b') as -> by exact (told_unique _ _ _ _ K Tl) end; [|contradiction].
        eexists x, e. split; [assumption|]. rewrite app_nil_r. split; [|reflexivity]. match goal with K : into _ _ _ |- _ => apply (It (Some (MOneOf x))) in K; now rewrite K end.
    + assert (Ob' : ~ object_base b') by (destruct (base_cases b') as [(O & X & _)|[(_ & _ & _ & _ & O & _)|[(_ & _ & _ & _ & _ & O & _)|(_ & _ & _ & _ & _ & O & _)]]]; [congruence|exact O..]).
      refine (reads_ext _ _ (reads_ret known ((grown l, b'), false) (on t [Says 8 "one of may be a nested member of a object sub-types only"])) _). intros [a on_] e. cbn [fst snd]. split.
      * intros [H ->]. injection H as -> ->. apply (MembersSpec.node_no_one_of known source context Member OneOf Section_ t l b b'); try assumption. now apply (It None).
      * intros H. inversion H; subst; try clash; match goal with K : told_by_member t b ?c |- _ => assert (c = b') as -> by exact (told_unique _ _ _ _ K Tl) end; [contradiction|].
        split; [|reflexivity]. match goal with K : into _ _ _ |- _ => apply (It None) in K; now rewrite K end.
  - (* others *)
    assert (Tl := resolved t MSONSection b ltac:(cbn; auto)). set (b' := resolve t MSONSection b) in *. cbv zeta.
    assert (Tv : b <> UndefinedBT -> b' = b) by (intros N; apply (told_unique t b); [exact Tl|now apply told_known]).
    destruct (is_item t) eqn:Ii; [apply item_iff in Ii|assert (Nn : ~ an_item t) by (rewrite <- item_iff, Ii; discriminate); clear Ii]; rewrite ?andb_true_r, ?andb_false_r.
    + assert (Oi : other_item t) by (repeat split; assumption).
      destruct (base_cases b') as [(B & Bo & Bv & Bp & N1 & N2 & Nu)|[(B & Bo & Bv & Bp & N1 & N2 & Nu)|[(B & Bo & Bv & Bp & N1 & N2 & Nu)|(B & Bo & Bv & Bp & N1 & N2 & Nu)]]]; rewrite ?Bo, ?Bv, ?Bp.
      * (* property *)
        refine (reads_fun _ _ (reads_ext _ _ (reads_then _ _ (fun x => ((push x (grown l), b'), true)) (odd "'object' with value definition. You should use type definition without value eg. '- key (object)'" t) (HM true t Pt)) _) _).
        -- intros [a on_] e. cbn [fst snd]. split.
           ++ intros (x & e1 & R & H & ->). injection H as -> ->. destruct (odd_total "'object' with value definition. You should use type definition without value eg. '- key (object)'" x) as [w W]. rewrite (odd_iff _ t _ _ W).
              apply (MembersSpec.node_property known source context Member OneOf Section_ t l b b' x e1 w); try assumption. now apply (It (Some x)).
           ++ intros H. inversion H; subst; try clash.
              ** assert (Xb : b <> UndefinedBT) by (match goal with K : value_base b |- _ => destruct K as [-> | ->]; discriminate end). rewrite (Tv Xb) in N1. contradiction.
              ** match goal with K : told_by_member t b ?c |- _ => assert (c = b') as -> by exact (told_unique _ _ _ _ K Tl) end. match goal with W : odd_object _ x ?w |- _ => rewrite <- (odd_iff _ t _ _ W) end.
                 eexists x, _. split; [eassumption|]. split; [|reflexivity]. match goal with K : into _ _ _ |- _ => apply (It (Some x)) in K; now rewrite K end.
              ** assert (Xb : b <> UndefinedBT) by (match goal with K : primitive_base b |- _ => destruct K as [-> | ->]; discriminate end). rewrite (Tv Xb) in N2. contradiction.
        -- intros s. destruct (member true t s) as [[x s1]| | |]; try reflexivity. cbn [andthen]. now rewrite odd_note.
      * (* value *)
        assert (Xb : b = b') by (symmetry; apply Tv; intros ->; destruct B as [B|B]; apply (resolve_iff t MSONSection UndefinedBT) in Tl; cbn; auto; unfold resolve in Tl; rewrite (proj2 (item_iff t) Ii) in Tl; congruence). clearbody b'. subst b'.
        refine (reads_fun _ _ (reads_ext _ _ (reads_then _ _ (fun x => ((push x (grown l), b), true)) (odd "array member definition of type 'object' contains value. You should use type definition without value eg. '- (object)'" t) (HM false t Pt)) _) _).
        -- intros [a on_] e. cbn [fst snd]. split.
           ++ intros (x & e1 & R & H & ->). injection H as -> ->. destruct (odd_total "array member definition of type 'object' contains value. You should use type definition without value eg. '- (object)'" x) as [w W]. rewrite (odd_iff _ t _ _ W).
              apply (MembersSpec.node_value known source context Member OneOf Section_ t l b x e1 w); try assumption. now apply (It (Some x)).
           ++ intros H. inversion H; subst; try clash.
              ** match goal with W : odd_object _ x ?w |- _ => rewrite <- (odd_iff _ t _ _ W) end.
                 eexists x, _. split; [eassumption|]. split; [|reflexivity]. match goal with K : into _ _ _ |- _ => apply (It (Some x)) in K; now rewrite K end.
              ** match goal with K : told_by_member t b ?c |- _ => assert (c = b) as -> by exact (told_unique _ _ _ _ K Tl) end. contradiction.
        -- intros s. destruct (member false t s) as [[x s1]| | |]; try reflexivity. cbn [andthen]. now rewrite odd_note.
      * (* primitive *)
        assert (Xb : b = b') by (symmetry; apply Tv; intros ->; destruct B as [B|B]; apply (resolve_iff t MSONSection UndefinedBT) in Tl; cbn; auto; unfold resolve in Tl; rewrite (proj2 (item_iff t) Ii) in Tl; congruence). clearbody b'. subst b'.
        refine (reads_ext _ _ (reads_ret known ((grown l, b), false) (on t [Says 8 "sub-types of primitive types should not have nested members"])) _). intros [a on_] e. cbn [fst snd]. split.
        -- intros [H ->]. injection H as -> ->. apply MembersSpec.node_primitive; [now left|exact B|now apply (It None)].
        -- intros H. inversion H; subst; try clash.
           ++ match goal with K : told_by_member t b ?c |- _ => assert (c = b) as -> by exact (told_unique _ _ _ _ K Tl) end. contradiction.
           ++ split; [|reflexivity]. match goal with K : into _ _ _ |- _ => apply (It None) in K; now rewrite K end.
      * (* an item tells a type *)
        exfalso. destruct Tl as [b0 N|_|N]; [contradiction|discriminate|contradiction].
    + assert (Tn : text_node t) by now split.
      assert (Xb : b = b') by (destruct Tl as [b0 N|N|N]; [reflexivity|contradiction|reflexivity]). rewrite <- Xb. clearbody b'. subst b'.
      destruct (is_primitive b) eqn:Bp.
      * assert (B : primitive_base b) by (destruct (base_cases b) as [(_ & _ & _ & X & _)|[(_ & _ & _ & X & _)|[(O & _)|(_ & _ & _ & X & _)]]]; [congruence|congruence|exact O|congruence]).
        refine (reads_ext _ _ (reads_ret known ((grown l, b), false) (on t [Says 8 "sub-types of primitive types should not have nested members"])) _). intros [a on_] e. cbn [fst snd]. split.
        -- intros [H ->]. injection H as -> ->. apply MembersSpec.node_primitive; [now right|exact B|now apply (It None)].
        -- intros H. inversion H; subst; try clash. split; [|reflexivity]. match goal with K : into _ _ _ |- _ => apply (It None) in K; now rewrite K end.
      * assert (B : ~ primitive_base b) by (destruct (base_cases b) as [(_ & _ & _ & _ & _ & X & _)|[(_ & _ & _ & _ & _ & X & _)|[(_ & _ & _ & X & _)|(_ & _ & _ & _ & _ & _ & X)]]]; [exact X|exact X|congruence|exact X]).
        refine (reads_ext _ _ (reads_ret known ((grown l, b), true) (on t [Says 5 "ignoring unrecognized block"])) _). intros [a on_] e. cbn [fst snd]. split.
        -- intros [H ->]. injection H as -> ->. apply MembersSpec.node_ignored; [exact Tn|exact B|now apply (It None)].
        -- intros H. inversion H; subst; try clash. split; [|reflexivity]. match goal with K : into _ _ _ |- _ => apply (It None) in K; now rewrite K end.
Qed.
Lemma step_reads : forall t a, P t -> single_text (fst a) -> reads (member_step source context member one_of section t a) (fun x e => node_says t a (fst x) e (snd x)).
Proof.
  intros t [l b] Pt Sg. destruct (kind_cases t) as [(k & K & E)|[N E]]; [now apply (step_section t k)|now apply step_other].
Qed.
End Steps.
