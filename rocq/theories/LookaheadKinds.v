From Coq Require Import Permutation.
From Verif Require Import Base StringUtility StringSpec StringProofs Regex RegexSpec RegexProofs ByteBuffer Markdown MarkdownSpec Keywords KeywordsSpec KeywordsProofs KeywordsOrder Prop_Keywords RegexCaps SectionsKeys
  SignatureSpec SignatureProofs SignatureWhole TypeTables SourceMap Mson Signature TypeDefs TypeDefsSpec MembersTree MembersSpec Lookahead LookaheadSpec LookaheadText.
From Verif Require Sections SectionsSpec SectionsKinds PayloadsSpec.
Import SectionsSpec(a_header, resource_h, structures_h, action_h, values_h, members_h, properties_h, group_h, complete_h, type_section_h, type_h).
Import SectionsKinds(kw_header, values_iff, members_iff, properties_iff, upper_apart, group_apart, member_apart, type_section_range, resource_range, action_range, group_range, structures_range, named_iff, if_range, not_header_h).
Import PayloadsSpec(the_text).
Local Open Scope string_scope.

(** ** headers *)
Lemma type_section_iff : forall t, is_header t = true -> (type_section_type t <> UndefinedSection <-> type_section_h t).
Proof.
  intros t Hd. unfold type_section_h. rewrite <- (values_iff t Hd), <- (members_iff t Hd), <- (properties_iff t Hd).
  destruct (type_section_range t) as [<-|[<-|[<-|[<-|[]]]]]; split; try congruence; try tauto; intros [X|[X|X]]; discriminate.
Qed.
Lemma complete_type : forall t, complete_h t <-> action_type_of t = CompleteAction.
Proof. intros t. rewrite <- complete_iff. unfold Sections.complete. destruct (action_type_of t); intuition discriminate. Qed.
Lemma action_iff : forall t, action_section_type t = ActionSection <-> action_h t.
Proof. intros t. exact (proj1 (proj2 (C75_headers t))). Qed.
Lemma begins_iff : forall t, one_line t -> is_header t = true -> (kind_ahead t = ResourceSection <-> begins_resource t).
Proof.
  intros t O Hd. unfold kind_ahead, begins_resource. rewrite (kw_header t Hd), complete_type. unfold resource_h. rewrite <- (proj1 (C75_headers t)), <- (values_iff t Hd).
  pose proof (member_apart t (resource_type t) O Hd) as M.
  destruct (type_section_range t) as [E|[E|[E|[E|[]]]]]; rewrite <- E in *; cbn [or_else].
  - destruct (resource_range t) as [R|R]; rewrite R; cbn [or_else].
    + destruct (action_type_of t); intuition discriminate.
    + destruct (action_range t) as [A|A]; rewrite A; cbn [or_else]; [intuition discriminate|]. destruct (group_range t) as [G|G]; rewrite G; cbn [or_else]; [intuition discriminate|].
      destruct (structures_range t) as [S1|S1]; rewrite S1; intuition discriminate.
  - split; [discriminate|]. tauto.
  - split; [discriminate|]. intros [R _]. rewrite M in R; [discriminate|discriminate|discriminate|cbn; auto].
  - split; [discriminate|]. intros [R _]. rewrite M in R; [discriminate|discriminate|discriminate|cbn; auto].
Qed.
Lemma structures_ahead : forall t, one_line t -> is_header t = true -> (kind_ahead t = DataStructureGroupSection <-> structures_h t).
Proof.
  intros t O Hd. unfold kind_ahead, structures_h. rewrite (kw_header t Hd). rewrite <- (proj2 (proj2 (proj2 (C75_headers t)))).
  pose proof (fun x I N => upper_apart t x O Hd I N) as U. pose proof (group_apart t O) as G0.
  destruct (type_section_range t) as [E|[E|[E|[E|[]]]]]; rewrite <- E in *; cbn [or_else]; try (split; [discriminate|]; intros D; rewrite (proj2 (U _ (or_introl eq_refl) ltac:(discriminate))) in D; discriminate).
  destruct (resource_range t) as [R|R]; rewrite R in *; cbn [or_else].
  { split; [destruct (action_type_of t); discriminate|]. intros D. rewrite (proj2 (U ResourceSection ltac:(cbn; auto) ltac:(discriminate))) in D. discriminate. }
  destruct (action_range t) as [A|A]; rewrite A in *; cbn [or_else].
  { split; [discriminate|]. intros D. rewrite (proj2 (U ActionSection ltac:(cbn; auto) ltac:(discriminate))) in D. discriminate. }
  destruct (group_range t) as [G|G]; rewrite G in *; cbn [or_else].
  { split; [discriminate|]. intros D. rewrite (G0 ltac:(discriminate)) in D. discriminate. }
  destruct (structures_range t) as [S1|S1]; rewrite S1; intuition discriminate.
Qed.
Lemma kind_undefined : forall t, kind_ahead t = UndefinedSection <-> section_keyword t = UndefinedSection.
Proof. intros t. unfold kind_ahead. destruct (section_keyword t); try (split; congruence). destruct (action_type_of t); split; discriminate. Qed.
Lemma type_ahead : forall t, is_header t = true -> (kind_ahead t = UndefinedSection <-> type_h t).
Proof. intros t Hd. rewrite kind_undefined, <- named_iff. unfold named_type_type. rewrite Hd. destruct (section_keyword t); cbn; split; congruence. Qed.
Lemma section_ahead : forall t, is_header t = true -> (In (kind_ahead t) [MSONSampleDefaultSection; MSONPropertyMembersSection; MSONValueMembersSection] <-> type_section_h t).
Proof.
  intros t Hd. rewrite <- (type_section_iff t Hd). unfold kind_ahead. rewrite (kw_header t Hd).
  destruct (type_section_range t) as [E|[E|[E|[E|[]]]]]; rewrite <- E; cbn [or_else]; try (cbn; intuition congruence).
  split; [|congruence]. intros I. exfalso. destruct (resource_range t) as [R|R]; rewrite R in *; cbn [or_else] in I; [destruct (action_type_of t); cbn in I; intuition discriminate|].
  destruct (action_range t) as [A|A]; rewrite A in *; cbn [or_else] in I; [cbn in I; intuition discriminate|]. destruct (group_range t) as [G|G]; rewrite G in *; cbn [or_else] in I; [cbn in I; intuition discriminate|].
  destruct (structures_range t) as [S1|S1]; rewrite S1 in I; cbn in I; intuition discriminate.
Qed.
Lemma stays_iff : forall t, one_line t -> is_header t = true -> (stays (kind_ahead t) = true <-> type_h t \/ type_section_h t \/ structures_h t).
Proof.
  intros t O Hd. rewrite <- (type_ahead t Hd), <- (section_ahead t Hd), <- (structures_ahead t O Hd). destruct (kind_ahead t); cbn; intuition discriminate.
Qed.
Lemma header_is : forall t, is_header t = true <-> a_header t.
Proof. intros [[] x z m cs]; cbn; intuition discriminate. Qed.
Lemma begins_header : forall t, begins_resource t -> a_header t.
Proof. intros t (R & _). apply header_is. destruct (is_header t) eqn:E; [reflexivity|]. now apply not_header_h in E. Qed.
Lemma structures_header : forall t, structures_h t -> a_header t.
Proof. intros t R. apply header_is. destruct (is_header t) eqn:E; [reflexivity|]. now apply not_header_h in E. Qed.

(** ** the section at hand *)
Lemma in_resource_snoc : forall b t h, in_resource (b ++ [t]) h <-> (begins_resource t /\ h = t) \/ (under_resource t /\ in_resource b h).
Proof.
  intros b t h. unfold in_resource. split.
  - intros (p & q & E & B & F). destruct (exists_last (l := h :: q) ltac:(discriminate)) as (q0 & z & Eq). rewrite Eq, app_assoc in E. apply app_inj_tail in E as [Eb Et]. subst z.
    destruct q0 as [|y q0]; cbn in Eq; injection Eq as Eh Eq'.
    + left. now subst.
    + right. subst y q. apply Forall_app in F as [F G]. inversion G; subst. split; [assumption|]. now exists p, q0.
  - intros [[B ->]|[U (p & q & -> & B & F)]].
    + exists b, []. split; [reflexivity|]. split; [assumption|constructor].
    + exists p, (q ++ [t])%list. split; [now rewrite <- app_assoc|]. split; [exact B|]. apply Forall_app. split; [exact F|]. now constructor.
Qed.
Lemma in_structures_snoc : forall b t, in_structures (b ++ [t]) <-> structures_h t \/ (under_structures t /\ in_structures b).
Proof.
  intros b t. unfold in_structures. split.
  - intros (p & g & q & E & B & F). destruct (exists_last (l := g :: q) ltac:(discriminate)) as (q0 & z & Eq). rewrite Eq, app_assoc in E. apply app_inj_tail in E as [Eb Et]. subst z.
    destruct q0 as [|y q0]; cbn in Eq; injection Eq as Eh Eq'.
    + left. now subst.
    + right. subst y q. apply Forall_app in F as [F G]. inversion G; subst. split; [assumption|]. now exists p, g, q0.
  - intros [B|[U (p & g & q & -> & B & F)]].
    + exists b, t, []. split; [reflexivity|]. split; [assumption|constructor].
    + exists p, g, (q ++ [t])%list. split; [now rewrite <- app_assoc|]. split; [exact B|]. apply Forall_app. split; [exact F|]. now constructor.
Qed.
Definition stands (b : list tree) (c : place_in) : Prop :=
  match c with
  | Nowhere => ~ in_structures b /\ forall h, ~ in_resource b h
  | InResource h => ~ in_structures b /\ forall h', in_resource b h' <-> h' = h
  | InStructures => in_structures b /\ forall h, ~ in_resource b h
  end.
Lemma stands_start : stands [] Nowhere.
Proof. split; [intros (p & g & q & E & _)|intros h (p & q & E & _)]; destruct p; discriminate. Qed.
Lemma stands_other : forall b c t, stands b c -> is_header t = false -> stands (b ++ [t]) c.
Proof.
  intros b c t S1 Hd. assert (Nh : ~ a_header t) by (rewrite <- header_is; congruence). assert (Nb : ~ begins_resource t) by (intros B; now apply Nh, begins_header).
  assert (Ns : ~ structures_h t) by (intros B; now apply Nh, structures_header). assert (U1 : under_resource t) by (intros H; contradiction). assert (U2 : under_structures t) by (intros H; contradiction).
  destruct c as [|h|]; cbn in *; destruct S1 as [A B]; (split; [rewrite in_structures_snoc; tauto|]); intros h'; rewrite in_resource_snoc; specialize (B h'); tauto.
Qed.
Lemma stands_header : forall b c t, stands b c -> one_line t -> is_header t = true -> stands (b ++ [t]) (behind t c) /\ (entered t c = InStructures /\ type_h t <-> names_a_type b t).
Proof.
  intros b c t S1 O Hd. pose proof (begins_iff t O Hd) as Kr. pose proof (structures_ahead t O Hd) as Ks. pose proof (type_ahead t Hd) as Kt. pose proof (stays_iff t O Hd) as Ki.
  pose proof (action_iff t) as Ka. assert (Ah : a_header t) by now apply header_is.
  assert (Ur : under_resource t <-> ~ begins_resource t /\ ~ structures_h t /\ ~ action_h t) by (unfold under_resource; tauto).
  assert (Us : under_structures t <-> type_h t \/ type_section_h t \/ structures_h t) by (unfold under_structures; tauto).
  unfold behind, names_a_type.
  destruct (Sections.section_eqb (kind_ahead t) ResourceSection) eqn:E1.
  { assert (E : kind_ahead t = ResourceSection) by (destruct (kind_ahead t); try discriminate; reflexivity). clear E1. unfold entered. rewrite E in *.
    assert (B : begins_resource t) by now apply Kr. assert (Ns : ~ structures_h t) by (rewrite <- Ks; discriminate). assert (Nt : ~ type_h t) by (rewrite <- Kt; discriminate).
    assert (Nu : ~ under_structures t) by (rewrite Us, <- Ki; discriminate). split; [|intuition discriminate]. cbn. split; [rewrite in_structures_snoc; tauto|]. intros h'. rewrite in_resource_snoc. tauto. }
  destruct (Sections.section_eqb (kind_ahead t) DataStructureGroupSection) eqn:E2.
  { assert (E : kind_ahead t = DataStructureGroupSection) by (destruct (kind_ahead t); try discriminate; reflexivity). clear E1 E2. unfold entered. rewrite E in *. cbn [stays].
    assert (B : structures_h t) by now apply Ks. assert (Nr : ~ begins_resource t) by (rewrite <- Kr; discriminate). assert (Nt : ~ type_h t) by (rewrite <- Kt; discriminate).
    split; [|intuition discriminate]. cbn. split; [rewrite in_structures_snoc; tauto|]. intros h'. rewrite in_resource_snoc. tauto. }
  assert (Nr : ~ begins_resource t) by (rewrite <- Kr; intros E; rewrite E in E1; discriminate). assert (Ns : ~ structures_h t) by (rewrite <- Ks; intros E; rewrite E in E2; discriminate).
  assert (Ee : entered t c = match c with InStructures => InStructures | c => match action_section_type t with ActionSection => Nowhere | _ => c end end).
  { unfold entered. destruct (kind_ahead t); try reflexivity; discriminate. }
  rewrite Ee. destruct c as [|h|]; cbn [stands] in S1; destruct S1 as [A B].
  - split; [|split; [intros [X _]; destruct (action_section_type t); discriminate|tauto]]. destruct (action_section_type t); cbn; (split; [rewrite in_structures_snoc; tauto|]; intros h'; rewrite in_resource_snoc; specialize (B h'); tauto).
  - split; [|split; [intros [X _]; destruct (action_section_type t); discriminate|tauto]].
    destruct (Sections.section_eqb (action_section_type t) ActionSection) eqn:E3.
    + assert (E : action_section_type t = ActionSection) by (destruct (action_section_type t); try discriminate; reflexivity). rewrite E in *. cbn. split; [rewrite in_structures_snoc; tauto|].
      intros h'. rewrite in_resource_snoc. tauto.
    + assert (Na : ~ action_h t) by (rewrite <- Ka; intros E; rewrite E in E3; discriminate).
      assert (Es : match action_section_type t with ActionSection => Nowhere | _ => InResource h end = InResource h) by (destruct (action_section_type t); try reflexivity; discriminate). rewrite Es.
      cbn. split; [rewrite in_structures_snoc; tauto|]. intros h'. rewrite in_resource_snoc. specialize (B h'). tauto.
  - split; [|tauto]. destruct (stays (kind_ahead t)); cbn.
    + split; [rewrite in_structures_snoc; tauto|]. intros h'. rewrite in_resource_snoc. specialize (B h'). tauto.
    + split; [rewrite in_structures_snoc; intros [X|[X _]]; [contradiction|]; rewrite Us, <- Ki in X; discriminate|]. intros h'. rewrite in_resource_snoc. specialize (B h'). tauto.
Qed.

(** ** list items *)
Lemma kind_attributes : forall t, is_header t = false -> one_line t -> (kind_ahead t = AttributesSection <-> item_says reads_attributes t).
Proof.
  intros t Hd O. rewrite <- (proj1 (proj2 (C75_items t))). split.
  - intros K. assert (E : section_keyword t = AttributesSection) by (unfold kind_ahead in K; destruct (section_keyword t); try discriminate; try exact K; destruct (action_type_of t); discriminate). clear K.
    unfold section_keyword in E. rewrite first_check_firsts in E.
    assert (I : In (firsts (map (fun f => f t) keyword_checks)) (map (fun f => f t) keyword_checks)) by (apply firsts_in; rewrite E; discriminate). rewrite E in I. clear E. unfold keyword_checks in I. cbn [map In] in I.
    assert (P : payload_type t <> AttributesSection).
    { unfold payload_type. cbv zeta. destruct (regex_match (item_line t) RequestRegex); [destruct (fold_right _ _ _); discriminate|].
      destruct (regex_match (item_line t) ResponseRegex); [destruct (fold_right _ _ _); discriminate|]. destruct (regex_match (item_line t) ModelRegex); [destruct (fold_right _ _ _); discriminate|discriminate]. }
    assert (Q : forall b x, x <> AttributesSection -> if_ b x = AttributesSection -> False) by (intros b x N H; destruct (if_range b x) as [X|X]; rewrite X in H; [contradiction|discriminate]).
    destruct I as [I|[I|[I|[I|[I|[I|[I|[I|[I|[I|[I|[I|[I|[I|[]]]]]]]]]]]]]]]; try exact I; try contradiction; exfalso.
    + destruct (type_section_range t) as [X|[X|[X|[X|[]]]]]; congruence.
    + revert I. apply Q. discriminate.
    + revert I. apply Q. discriminate.
    + revert I. apply Q. discriminate.
    + unfold asset_type in I. destruct (regex_match (item_line t) BodyRegex); [discriminate|]. revert I. apply Q. discriminate.
    + revert I. apply Q. discriminate.
    + revert I. apply Q. discriminate.
    + revert I. apply Q. discriminate.
    + revert I. apply Q. discriminate.
    + revert I. apply Q. discriminate.
    + revert I. apply Q. discriminate.
    + revert I. apply Q. discriminate.
  - intros A. assert (Na : ~ ambiguous t).
    { assert (D : forall s, regex_match s AttributesRegex = true -> regex_match s ModelRegex = true -> False) by (apply (apart_match 200); vm_compute; reflexivity).
      intros [[M _]|H].
      - apply (check_item ModelRegex _ ltac:(discriminate) model_text) in M. unfold attributes_type in A. apply (D (item_line t)); [|exact M]. destruct (regex_match (item_line t) AttributesRegex); [reflexivity|discriminate].
      - destruct t as [ty x z m cs]. destruct ty; try discriminate; cbn in H; tauto. }
    set (rest := [type_section_type; mixin_type; one_of_type; headers_type; asset_type; payload_type; values_type; parameters_type; relation_type; resource_type; action_section_type; resource_group_type; data_structures_type]).
    assert (P : Permutation (attributes_type :: rest) keyword_checks).
    { exact (@Permutation_middle _ [type_section_type; mixin_type; one_of_type; headers_type; asset_type] (skipn 5 rest) attributes_type). }
    assert (E : section_keyword t = AttributesSection) by (rewrite <- (C75_order _ t P O Na); unfold first_check; cbn [fold_right]; rewrite A; reflexivity).
    unfold kind_ahead. now rewrite E.
Qed.
(** the texts of attributes are never in emphasis *)
Definition begins (c : ascii) (s : string) : Prop := exists a r, s = a +++ String c r /\ all white a /\ ~ white c.
Lemma white_in : forall a c r, all white (a +++ String c r) -> white c.
Proof. induction a as [|d a IH]; intros c r H; cbn in H; inversion H as [|x l W F]; subst; [exact W|exact (IH _ _ F)]. Qed.
Lemma begins_trims : forall c s t, begins c s -> trims s t -> exists r, t = String c r.
Proof.
  intros c s t (a & r & -> & A & N) (x & y & E & X & Y & H1 & H2). revert x E X. induction a as [|d a IH]; intros x E X.
  - destruct x as [|d x]; [|cbn in E; injection E as <- _; inversion X; contradiction].
    destruct t as [|d t]; cbn in E; [|injection E as -> _; now exists t]. exfalso. apply N. apply (white_in "" c r). cbn. now rewrite E.
  - inversion A as [|d0 l0 D A' Ed]; subst. destruct x as [|d' x].
    + destruct t as [|d' t]; cbn in E; [|injection E as <- _; exfalso; exact (H1 _ _ eq_refl D)]. exfalso. apply N. apply (white_in (String d a) c r). cbn. now rewrite E.
    + cbn in E. injection E as <- E. inversion X as [|? ? _ X1 X2]; subst. exact (IH A' x E X1).
Qed.
Definition letter_a (c : ascii) : Prop := c = "A"%char \/ c = "a"%char.
Lemma attributes_begin : forall t, item_says reads_attributes t -> exists c, letter_a c /\ begins c (first_text t).
Proof.
  intros [ty x0 z m cs] H. destruct ty; try contradiction. destruct cs as [|[ty x z1 m1 cs1] cs]; [contradiction|]. cbn [item_says first_text the_text] in *.
  destruct H as (l & a & s & b & u & L & (E & A & B & H1 & H2) & Ns & U & (k & w & v & Eu & K & W & _)).
  assert (Ex : exists q, x = a +++ s +++ q).
  { destruct L as [[_ ->]|(q & -> & _)]; [exists b; exact E|]. exists (b +++ String "010" q). rewrite E. now rewrite !append_assoc. }
  assert (Es : exists q, s = u +++ q) by (destruct U as [[_ ->]|(q & -> & _)]; [exists ""; now rewrite append_nil_r|eexists; reflexivity]).
  destruct Ex as [q ->]. destruct Es as [q' ->]. subst u.
  assert (Ew : exists c w', letter_a c /\ w = String c w') by (destruct W as [<-|[<-|[<-|[<-|[]]]]]; do 2 eexists; (split; [|reflexivity]); (now left) || (now right)).
  destruct Ew as (c & w' & Lc & ->). exists c. split; [exact Lc|]. exists (a +++ k), (w' +++ v +++ q' +++ q).
  split; [rewrite !append_assoc; reflexivity|]. split; [apply all_app; split; [exact A|now apply blanks_white]|]. destruct Lc as [-> | ->]; unfold white; cbn; intuition discriminate.
Qed.
Lemma begins_some : forall c s, begins c s -> s <> "".
Proof. intros c s (a & r & -> & _). now destruct a. Qed.
Lemma attributes_plain : forall t p spec, item_says reads_attributes t -> subject_says t (first_text t) p spec -> ~ emphasised (p_id p).
Proof.
  intros t p spec A (m & e & S1 & _). destruct (attributes_begin t A) as (c & Lc & Bc). pose proof (begins_some _ _ Bc) as Nt.
  inversion S1 as [s rest id s1 w1 v vs s2 w2 l s3 c0 Su I V Ch Co|]; subst. clear V Ch Co. cbn [p_id].
  assert (Es : s = first_text t) by (inversion Su; congruence). subst s. clear Su S1.
  inversion I as [s0 [D|D]|s0 s4 p0 r id0 s5 W Ns T1 T2 T3 T4]; subst; [discriminate|contradiction|].
  destruct (begins_trims _ _ _ Bc T1) as [q ->]. clear T4 I.
  assert (P : exists p', p0 = String c p').
  { inversion T2 as [|c1 s6 N St|c1 s6 p1 r1 p2 r2 Pi N T5]; subst.
    - exfalso. destruct Lc as [-> | ->]; destruct St as [[_ [z E]]|[[_ [z E]]|[H [z E]]]]; try discriminate.
    - assert (Ni : ~ In c ["*"; "_"; "`"]%char) by (destruct Lc as [-> | ->]; cbn; intuition discriminate).
      destruct (piece_cases _ _ _ _ _ Pi) as [(_ & -> & _)|[(I1 & _)|(I1 & _)]]; [eexists; reflexivity|contradiction..]. }
  destruct P as [p' ->].
  assert (Bp : begins c (String c p')) by (exists "", p'; split; [reflexivity|]; split; [constructor|]; destruct Lc as [-> | ->]; unfold white; cbn; intuition discriminate).
  destruct (begins_trims _ _ _ Bp T3) as [q' ->]. intros (d & r' & Ed & Eq & _). injection Eq as <- _. destruct Lc as [-> | ->]; destruct Ed as [Ed|Ed]; discriminate.
Qed.
