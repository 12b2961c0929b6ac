(** Lemmas for C80: the first node of a type section, its other nodes, and the nodes of a one-of item *)
From Verif Require Import Base StringUtility StringSpec StringProofs ByteBuffer ByteSpec Markdown MarkdownSpec Regex RegexSpec RegexProofs RegexCaps Keywords KeywordsSpec KeywordsProofs Prop_Keywords
  Signature SignatureSpec SignatureProofs SignatureWhole TypeTables SourceMap Mson Prop_Bytes Prop_Strings TypeDefs TypeDefsSpec TypeDefsProofs MembersTree MembersSpec MembersRead MembersLeaves MembersMixin MembersParts MembersSteps.
From Verif Require SectionsSpec SectionsItems SectionsKinds SectionsDoc SectionsLoop Payloads PayloadsSpec PayloadsText PayloadsNodes.
Import SectionsSpec(a_header, an_item, include_item, one_of_item, object_base, value_base, primitive_base).
Import PayloadsSpec(the_text, place, opens, row, padded).
Local Open Scope string_scope.

Lemma reads_det : forall known {A} (f : st -> outcome (A * st)) (R : A -> located -> Prop),
  (forall x e, R x e -> forall s, f s = Val (x, perform e s)) -> (exists x e, R x e) -> reads known f R.
Proof.
  intros known A f R D (x0 & e0 & R0) s x s' K. split.
  - rewrite (D x0 e0 R0 s). intros H. injection H as <- <-. now exists e0.
  - intros (e & Rx & ->). now apply D.
Qed.

(** ** the words *)
Lemma iequal_share : forall a b c, iequal a b = true -> iequal a c = true -> iequal b c = true.
Proof.
  induction a as [|x a IH]; intros [|y b] [|z c] H K; try discriminate; [reflexivity|]. cbn [iequal] in *. apply andb_prop in H as [H H'], K as [K K'].
  apply Ascii.eqb_eq in H, K. apply andb_true_intro. split; [apply Ascii.eqb_eq; congruence|now apply (IH b c)].
Qed.
Definition other_words (id : string) : Prop := (forall c, ~ value_word id c) /\ (forall Q text, ~ members_word id Q text).
Lemma apart_words : forall id a b, same_but_case id a -> iequal a b = false -> iequal id b = false.
Proof. intros id a b H N. destruct (iequal id b) eqn:E; [|reflexivity]. apply C41_compare in H. rewrite (iequal_share id a b H E) in N. discriminate. Qed.

Section Head.
Context (known : list (string * base_type)).
Notation reads := (reads known).
Lemma gives_iff : forall p, match Signature.values (sig_of p) with [] => negb (String.eqb (Signature.value (sig_of p)) "") | _ => true end = true <-> gives_value p.
Proof.
  intros p. unfold gives_value. cbn [sig_of Signature.values Signature.value]. destruct (p_values p).
  - destruct (String.eqb_spec (p_value p) "") as [E|E]; cbn; intuition congruence.
  - split; [intros _; left; discriminate|reflexivity].
Qed.
Lemma own_ok : forall c b t p v es n w, own_value b t p v es n w -> forall s, values_section c b t (sig_of p) s = Val (Sec c "" v es [] n, true, perform (on t w) s).
Proof.
  intros c b t p v es n w H s. unfold values_section, section_value. pose proof (gives_iff p) as G.
  destruct (match Signature.values (sig_of p) with [] => negb (String.eqb (Signature.value (sig_of p)) "") | _ => true end) eqn:E;
    [assert (Gv : gives_value p) by now apply G|assert (Gv : ~ gives_value p) by (intros X; apply G in X; discriminate)]; clear G E;
    destruct (base_cases b) as [(B & Bo & Bv & Bp & N1 & N2 & Nu)|[(B & Bo & Bv & Bp & N1 & N2 & Nu)|[(B & Bo & Bv & Bp & N1 & N2 & Nu)|(B & Bo & Bv & Bp & N1 & N2 & Nu)]]]; rewrite ?Bo, ?Bv, ?Bp;
    destruct H as [P1 V|P1 V|vs P1 F|P1 V|[[P1 V]|P1]]; try contradiction; try congruence; rewrite ?andb_false_r, ?andb_true_r; cbn [andthen sig_of Signature.values Signature.value Signature.remaining];
    rewrite ?andb_false_r, ?andb_true_r; try reflexivity;
    try (apply each_iff in F; rewrite F; reflexivity);
    try (destruct (String.eqb_spec (p_rest p) "") as [->|R1]; cbn [negb]; rewrite ?append_nil_r; reflexivity);
    try (subst b; cbn in Nu; tauto).
  all: try (exfalso; apply Gv; assumption).
  - destruct (p_values p) as [|y l] eqn:E; [inversion F; reflexivity|]. elim Gv. left. rewrite E. discriminate.
  - destruct (String.eqb (p_rest p) "") eqn:E; [apply String.eqb_eq in E; rewrite E; reflexivity|]. cbn [negb lies_unless]. unfold lies_unless. change (lies t) with (spot t). now destruct (spot t).
Qed.
Lemma own_total : forall b t p, exists v es n w, own_value b t p v es n w.
Proof.
  intros b t p. pose proof (gives_iff p) as G. destruct (match Signature.values (sig_of p) with [] => negb (String.eqb (Signature.value (sig_of p)) "") | _ => true end) eqn:E;
    [assert (Gv : gives_value p) by now apply G|assert (Gv : ~ gives_value p) by (intros X; apply G in X; discriminate)]; clear G E;
    destruct (base_cases b) as [(B & _)|[(B & _)|[(B & _)|(B & _)]]].
  - do 4 eexists. now apply own_object.
  - assert (V : exists vs, Forall2 value_says (p_values p) vs) by (induction (p_values p) as [|x l [vs IH]]; [exists []; constructor|destruct (value_total x) as [v V]; exists (v :: vs); now constructor]).
    destruct V as [vs V]. do 4 eexists. now apply (own_items b t p vs).
  - do 4 eexists. now apply own_text.
  - do 4 eexists. apply own_none. now right.
  - do 4 eexists. apply own_none. left. now split.
  - assert (V : exists vs, Forall2 value_says (p_values p) vs) by (induction (p_values p) as [|x l [vs IH]]; [exists []; constructor|destruct (value_total x) as [v V]; exists (v :: vs); now constructor]).
    destruct V as [vs V]. do 4 eexists. now apply (own_items b t p vs).
  - do 4 eexists. now apply own_rest.
  - do 4 eexists. apply own_none. now right.
Qed.
Lemma is_values_iff : forall b, is_values b = true <-> value_base b.
Proof. intros []; unfold value_base; cbn; intuition discriminate. Qed.
Lemma is_object_iff : forall b, is_object b = true <-> object_base b.
Proof. intros []; unfold object_base; cbn; intuition discriminate. Qed.
Definition head_by (b : base_type) (t : tree) (p : parts) (y : msection melement * bool) (e : located) : Prop :=
  (exists c v es n w, value_word (p_id p) c /\ own_value b t p v es n w /\ y = (Sec c "" v es [] n, true) /\ e = on t w) \/
  (exists Q text, members_word (p_id p) Q text /\ Q b /\ y = (MembersSpec.members_section [], true) /\ e = []) \/
  (exists (Q : base_type -> Prop) text, members_word (p_id p) Q text /\ ~ Q b /\ y = (no_section, false) /\ e = on t [Says 8 ("type section `" +++ p_id p +++ text)]) \/
  (other_words (p_id p) /\ y = (no_section, true) /\ e = []).
Lemma word_by : forall b t p, reads (fun s =>
  if iequal (p_id p) "Default" then values_section DefaultClass b t (sig_of p) s
  else if iequal (p_id p) "Sample" then values_section SampleClass b t (sig_of p) s
  else if (iequal (p_id p) "Items" || iequal (p_id p) "Members")%bool then
    MembersTree.members_section (is_values b) "` not allowed for a type sub-typed from a primitive or object type" t (sig_of p) s
  else if iequal (p_id p) "Properties" then MembersTree.members_section (is_object b) "` is only allowed for a type sub-typed from an object type" t (sig_of p) s
  else Val (no_class, true, s)) (head_by b t p).
Proof.
  intros b t p. apply reads_det.
  - intros x e [(c & v & es & n & w & W & O & -> & ->)|[(Q & text & W & Qb & -> & ->)|[(Q & text & W & Qb & -> & ->)|((O1 & O2) & -> & ->)]]] s.
    + destruct W as [W|W].
      * rewrite (proj2 (C41_compare _ _) W). now apply own_ok.
      * rewrite (apart_words _ _ "Default" W eq_refl), (proj2 (C41_compare _ _) W). now apply own_ok.
    + destruct W as [[W|W]|W]; rewrite (apart_words _ _ "Default" W eq_refl), (apart_words _ _ "Sample" W eq_refl).
      * rewrite (proj2 (C41_compare _ _) W). cbn [orb]. unfold MembersTree.members_section. now rewrite (proj2 (is_values_iff b) Qb).
      * rewrite (proj2 (C41_compare _ _) W), orb_true_r. unfold MembersTree.members_section. now rewrite (proj2 (is_values_iff b) Qb).
      * rewrite (apart_words _ _ "Items" W eq_refl), (apart_words _ _ "Members" W eq_refl), (proj2 (C41_compare _ _) W). cbn [orb]. unfold MembersTree.members_section. now rewrite (proj2 (is_object_iff b) Qb).
    + assert (Nv : Q = value_base -> is_values b = false) by (intros ->; destruct (is_values b) eqn:E; [apply is_values_iff in E; contradiction|reflexivity]).
      assert (No : Q = object_base -> is_object b = false) by (intros ->; destruct (is_object b) eqn:E; [apply is_object_iff in E; contradiction|reflexivity]).
      destruct W as [[W|W]|W]; rewrite (apart_words _ _ "Default" W eq_refl), (apart_words _ _ "Sample" W eq_refl).
      * rewrite (proj2 (C41_compare _ _) W). cbn [orb]. unfold MembersTree.members_section. now rewrite (Nv eq_refl).
      * rewrite (proj2 (C41_compare _ _) W), orb_true_r. unfold MembersTree.members_section. now rewrite (Nv eq_refl).
      * rewrite (apart_words _ _ "Items" W eq_refl), (apart_words _ _ "Members" W eq_refl), (proj2 (C41_compare _ _) W). cbn [orb]. unfold MembersTree.members_section. now rewrite (No eq_refl).
    + destruct (iequal (p_id p) "Default") eqn:E1; [apply C41_compare in E1; elim (O1 DefaultClass); now constructor|].
      destruct (iequal (p_id p) "Sample") eqn:E2; [apply C41_compare in E2; elim (O1 SampleClass); now constructor|].
      destruct (iequal (p_id p) "Items") eqn:E3; [apply C41_compare in E3; eelim O2; apply word_items; now left|].
      destruct (iequal (p_id p) "Members") eqn:E4; [apply C41_compare in E4; eelim O2; apply word_items; now right|].
      destruct (iequal (p_id p) "Properties") eqn:E5; [apply C41_compare in E5; eelim O2; now apply word_properties|]. reflexivity.
  - unfold head_by. destruct (own_total b t p) as (v & es & n & w & O).
    destruct (iequal (p_id p) "Default") eqn:E1; [apply C41_compare in E1; eexists _, _; left; exists DefaultClass, v, es, n, w; repeat split; [now constructor|exact O]|].
    destruct (iequal (p_id p) "Sample") eqn:E2; [apply C41_compare in E2; eexists _, _; left; exists SampleClass, v, es, n, w; repeat split; [now constructor|exact O]|].
    assert (Mw : forall Q text, members_word (p_id p) Q text -> Q b \/ ~ Q b).
    { intros Q text []; [destruct (base_cases b) as [(_ & _ & _ & _ & N & _)|[(N & _)|[(_ & _ & _ & _ & N & _)|(_ & _ & _ & _ & N & _)]]]|
        destruct (base_cases b) as [(N & _)|[(_ & _ & _ & _ & N & _)|[(_ & _ & _ & _ & _ & N & _)|(_ & _ & _ & _ & _ & N & _)]]]]; auto. }
    assert (Go : forall Q text, members_word (p_id p) Q text -> exists x e, head_by b t p x e).
    { intros Q text W. unfold head_by. destruct (Mw Q text W) as [Y|Y]; eexists _, _; right; [left|right; left]; eauto 8. }
    unfold head_by in Go.
    destruct (iequal (p_id p) "Items") eqn:E3; [apply C41_compare in E3; eapply Go; apply word_items; now left|].
    destruct (iequal (p_id p) "Members") eqn:E4; [apply C41_compare in E4; eapply Go; apply word_items; now right|].
    destruct (iequal (p_id p) "Properties") eqn:E5; [apply C41_compare in E5; eapply Go; now apply word_properties|].
    eexists _, _. right. right. right. repeat split.
    + intros c [W|W]; apply C41_compare in W; congruence.
    + intros Q text [[W|W]|W]; apply C41_compare in W; congruence.
Qed.
Lemma head_reads : forall b t, reads (section_head b t) (fun x e => head_says b t (fst x) e (snd x)).
Proof.
  intros b t. unfold section_head.
  refine (reads_ext _ _ (reads_bind (fun sg y e => exists p, sg = sig_of p /\ head_by b t p y e) (signature_reads known section_traits "" t) _) _).
  - intros sg e0 (p & m & S1 & -> & ->). refine (reads_ext _ _ (word_by b t p) _). intros y e. split; [intros H; now exists p|]. intros (q & E & H). unfold sig_of in E. destruct p, q. cbn in E. injection E as -> -> -> -> -> ->. exact H.
  - intros [x on_] e. cbn [fst snd]. split.
    + intros (sg & e1 & e2 & (p & m & S1 & -> & ->) & (q & E & H) & ->).
      assert (p = q) as <- by (unfold sig_of in E; destruct p, q; cbn in E; now injection E as -> -> -> -> -> ->). clear E.
      destruct H as [(c & v & es & n & w & W & O & H & ->)|[(Q & text & W & Qb & H & ->)|[(Q & text & W & Qb & H & ->)|((O1 & O2) & H & ->)]]]; injection H as -> ->; rewrite <- ?on_app, ?app_nil_r.
      * now apply (head_values b t p m c v es n w).
      * now apply (head_members b t p m Q text).
      * now apply (head_refused b t p m Q text).
      * now apply (head_other b t p m).
    + intros H. unfold head_by. inversion H as [p m c v es n w S1 W O|p m Q text S1 W Qb|p m Q text S1 W Qb|p m S1 O1 O2]; subst; eexists (sig_of p), (on t (map (Says 6) m)), _;
        (split; [now exists p, m|]); (split; [exists p; split; [reflexivity|]|]).
      * left. exists c, v, es, n, w. eauto.
      * now rewrite on_app.
      * right. left. exists Q, text. repeat split; assumption.
      * now rewrite app_nil_r.
      * right. right. left. exists Q, text. repeat split; assumption.
      * now rewrite on_app.
      * right. right. right. now repeat split.
      * now rewrite app_nil_r.
Qed.
End Head.
