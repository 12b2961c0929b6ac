(** what is declared is what is parsed *)
From Verif Require Import Base StringUtility StringSpec StringProofs ByteBuffer Markdown MarkdownSpec Keywords KeywordsSpec KeywordsProofs SectionsKeys
  SignatureSpec SignatureProofs SignatureWhole TypeTables SourceMap Mson Signature TypeDefs TypeDefsSpec TypeDefsProofs MembersTree MembersSpec MembersLeaves MsonTypesSpec Lookahead LookaheadSpec LookaheadText LookaheadFill LookaheadKinds LookaheadWhole.
From Verif Require SectionsSpec PayloadsSpec Prop_MsonTypes.
Import SectionsSpec(a_header, structures_h, type_section_h, type_h, ends_resource).
Import PayloadsSpec(the_text).
Local Open Scope string_scope.

(** a text of one line says the same as given and as the first line *)
Lemma trims_self : forall s t, trims s t -> trims t t.
Proof. intros s t (a & b & E & A & B & H1 & H2). exists "", "". unfold trimmed. cbn. rewrite append_nil_r. split; [reflexivity|]. split; [constructor|]. split; [constructor|]. now split. Qed.
Lemma taken_nothing : forall esc stop, taken esc stop "" "" "".
Proof. intros. constructor. Qed.
Lemma signed_given : forall text p m, ~ StringSpec.has "010" text -> signed names_shape text "" (Some (p, m)) -> exists m', signed names_shape text text (Some (p, m')).
Proof.
  intros text p m O S1. destruct text as [|c text]; [now exists m|]. set (x := String c text) in *.
  inversion S1 as [s rest id s1 w1 v vs s2 w2 l s3 c0 Su I V Ch Co|]; subst.
  assert (Tr : trims x s /\ rest = "").
  { inversion Su as [|l1 s0 r E|s0 N T]; subst; [exfalso; apply O; rewrite E; apply has_app; right; now left|now split]. }
  destruct Tr as [Tr ->]. assert (Nx : x <> "") by discriminate.
  assert (I' : exists w, identified names_shape x id s1 w).
  { inversion I as [s0 [D|D]|s0 s4 p0 r id0 s5 W Ns T1 T2 T3 T4]; subst; [discriminate| |].
    - eexists. apply identified_by with (s1 := "") (p := "") (r := ""); [reflexivity|exact Nx|exact Tr|apply taken_nothing|exact (trims_self _ _ Tr)|exact (trims_self _ _ Tr)].
    - assert (s4 = s) as -> by (rewrite trims_iff in T1; pose proof (trims_self _ _ Tr) as Z; rewrite trims_iff in Z; congruence).
      eexists. eapply identified_by; eassumption. }
  destruct I' as [w I']. eexists. eapply signed_by; [apply (subject_given x c text)|eassumption..].
Qed.
Lemma parsed_is_declared : forall known source b c t r id spec x rest e, stands b c -> one_line t -> names_a_type b t -> declares b t (Decl id spec) -> named_type_says known source (t :: r) x rest e ->
  td_spec (ds_type x) = spec /\ (s_variable (n_symbol (ds_name x)) = false -> name_of x = id).
Proof.
  intros known source b c t r id spec x rest e S1 O N D H.
  assert (D' : exists p, subject_says t (the_text t) p spec /\ bare (p_id p) id).
  { inversion D as [p id0 sp N1 S2 B|name p sp (I & _) _]; subst; [now exists p|]. exfalso. destruct N as [N _]. apply type_header in N. destruct t as [[] x0 z m cs]; try discriminate; contradiction. }
  destruct D' as (p & Su & B). apply Prop_MsonTypes.C82_typed in H as (p' & m & n & v & td & ed & Sg & V & Df & En & Es & _).
  assert (Nl : ~ StringSpec.has "010" (the_text t)) by (destruct N as [N _]; apply type_header in N; destruct t as [[] x0 z m0 cs]; try discriminate; exact O).
  destruct (signed_given _ _ _ Nl Sg) as [m' Sg']. destruct Su as (m0 & e0 & S2 & T).
  assert (E : p_id p = p_id p' /\ p_attributes p = p_attributes p').
  { pose proof (signed_ok names_traits _ _ _ Sg' _ (enough_two _ _)) as E1. pose proof (signed_ok names_traits _ _ _ S2 _ (enough_two _ _)) as E2. rewrite E1 in E2. unfold sig_of in E2. injection E2 as Ei _ _ Ea _ _ _. now split. }
  destruct E as [Ei Ea]. rewrite Ei in B. rewrite Ea in T. split.
  - rewrite Es. inversion Df as [ts0 bits b0 e1 e2 e3 A1 T0 A2 A3 A4]; subst. cbn. exact (type_unique _ _ _ _ _ T0 T).
  - unfold name_of. rewrite En. cbn. intros ->. inversion V as [|s0 w b1 Dn Nw]; subst. inversion Dn; subst. exact (bare_unique _ _ _ H0 B).
Qed.

(** a group: what is parsed of it has been declared *)
Lemma declared_app : forall p b q ds, declared b (p ++ q) ds -> exists d1 d2, ds = (d1 ++ d2)%list /\ declared b p d1 /\ declared (b ++ p) q d2.
Proof.
  induction p as [|t p IH]; intros b q ds D; cbn in D.
  - exists [], ds. rewrite app_nil_r. repeat split; [constructor|exact D].
  - inversion D as [|t0 r d l D1 D2|t0 r l N A D2]; subst; apply IH in D2 as (d1 & d2 & -> & E1 & E2); rewrite <- app_assoc in E2.
    + exists (d :: d1), d2. repeat split; [now apply declared_one|exact E2].
    + exists d1, d2. repeat split; [now apply declared_not|exact E2].
Qed.
Lemma in_structures_more : forall q b, in_structures b -> Forall under_structures q -> in_structures (b ++ q).
Proof. intros q b (p & g & q0 & -> & G & F) F'. exists p, g, (q0 ++ q)%list. split; [now rewrite <- app_assoc|]. split; [exact G|]. apply Forall_app. now split. Qed.
Definition stands_some : forall l b c, stands b c -> Forall one_line l -> exists c', stands (b ++ l) c'.
Proof.
  induction l as [|t l IH]; intros b c S1 O; [rewrite app_nil_r; now exists c|]. inversion O as [|t0 l0 Ot Ol]; subst. destruct (IH _ _ (proj1 (look_cases b c t S1 Ot)) Ol) as [c' H]. exists c'. now rewrite <- app_assoc in H.
Qed.
Lemma below_leaves : forall known source document g r x rest e, a_header g -> structures_below known source document r x rest e -> exists d, r = (d ++ rest)%list.
Proof.
  intros known source document g r x rest e G B. destruct (Prop_MsonTypes.C82_group_rest known source document (g :: r) x rest e (structures_by _ _ _ _ _ _ _ _ G B)) as (d & E & N & _).
  destruct d as [|y d]; [now elim N|]. injection E as _ ->. now exists d.
Qed.
Lemma group_declared : forall known source document r x rest e, structures_below known source document r x rest e -> forall b c q ds, r = (q ++ rest)%list -> stands b c -> Forall one_line q -> Forall under_structures q ->
  in_structures b -> declared b q ds -> Forall (fun s => s_variable (n_symbol (ds_name s)) = false -> In (Decl (name_of s) (td_spec (ds_type s))) ds) x.
Proof.
  intros known source document r x rest e B. induction B as [|t r y r' l rest e e' T N Nt B IH|t r y r' l rest e e' T N Tk B IH|t r l rest e Nt Ne B IH|t r En]; intros b c q ds Eq S1 O U I D; [constructor|..|constructor].
  - destruct (Prop_MsonTypes.C82_rest _ _ _ _ _ _ N) as (t1 & d & El & _). destruct (below_leaves _ _ _ t _ _ _ _ (proj1 T) B) as [q' ->].
    rewrite El in Eq. injection El as <- El. assert (q = (t :: d) ++ q')%list as -> by (apply (app_inv_tail rest); rewrite <- Eq; cbn; now rewrite <- app_assoc).
    assert (Dh : exists dh dr, ds = dh :: dr /\ declares b t dh).
    { inversion D as [|t0 r0 dh l0 D1 D2|t0 r0 l0 N1 _ _]; subst; [now exists dh, l0|]. exfalso. apply N1. now split. }
    destruct Dh as (dh & dr & Ed & D1). apply Forall_app in O as [O1 O2]. apply Forall_app in U as [U1 U2].
    apply declared_app in D as (d1 & d2 & E1 & _ & D3). destruct (stands_some _ _ _ S1 O1) as [c' S2].
    constructor.
    + destruct dh as [id spec]. intros V. assert (Ot : one_line t) by now inversion O1. destruct (parsed_is_declared _ _ _ _ _ _ _ _ _ _ _ S1 Ot (conj T I) D1 N) as [Es En]. rewrite Es, (En V), Ed. now left.
    + eapply Forall_impl; [|exact (IH _ _ q' _ eq_refl S2 O2 U2 (in_structures_more _ _ I U1) D3)]. cbn. intros s H V. rewrite E1. apply in_or_app. right. now apply H.
  - destruct (Prop_MsonTypes.C82_rest _ _ _ _ _ _ N) as (t1 & d & El & _). destruct (below_leaves _ _ _ t _ _ _ _ (proj1 T) B) as [q' ->].
    rewrite El in Eq. injection El as <- El. assert (q = (t :: d) ++ q')%list as -> by (apply (app_inv_tail rest); rewrite <- Eq; cbn; now rewrite <- app_assoc).
    apply Forall_app in O as [O1 O2]. apply Forall_app in U as [U1 U2]. apply declared_app in D as (d1 & d2 & E1 & _ & D3). destruct (stands_some _ _ _ S1 O1) as [c' S2].
    eapply Forall_impl; [|exact (IH _ _ q' _ eq_refl S2 O2 U2 (in_structures_more _ _ I U1) D3)]. cbn. intros s H V. rewrite E1. apply in_or_app. right. now apply H.
  - destruct q as [|t' q]; cbn in Eq.
    { exfalso. subst rest. assert (Hb : forall r0 x0 e0, structures_below known source document r0 x0 (t :: r) e0 -> List.length (t :: r) <= List.length r0).
      { intros r0 x0 e0 B0. assert (A : a_header (Tree HeaderNode "" 0 [] [])) by exact Logic.I. destruct (below_leaves _ _ _ _ _ _ _ _ A B0) as [d ->]. rewrite app_length. lia. }
      apply Hb in B. cbn in B. lia. }
    injection Eq as <- Eq. inversion O as [|t0 l0 Ot Ol]; subst. inversion U as [|t0 l0 Ut Ul]; subst. destruct (declared_app [t] b q ds D) as (d1 & d2 & -> & _ & D3).
    eapply Forall_impl; [|exact (IH _ _ q _ eq_refl (proj1 (look_cases b c t S1 Ot)) Ol Ul (in_structures_more [t] _ I (Forall_cons _ Ut (Forall_nil _))) D3)]. cbn. intros s H V. apply in_or_app. right. now apply H.
Qed.

(** ** cases by computation *)
Definition quiet (t : tree) (c : place_in) : bool :=
  if is_header t then match entered t c, kind_ahead t with InStructures, UndefinedSection => false | _, _ => true end
  else match c, kind_ahead t with InResource h, AttributesSection => String.eqb (attributes_name h) "" | _, _ => true end.
Lemma quiet_not : forall b c t, stands b c -> one_line t -> quiet t c = true -> declares_not b t.
Proof.
  intros b c t S1 O Q. unfold quiet in Q. destruct (is_header t) eqn:Hd.
  - split; [|intros name; now apply header_no_attributes]. intros N. apply (proj2 (stands_header b c t S1 O Hd)) in N as [E Ty]. apply (type_ahead t Hd) in Ty. rewrite E, Ty in Q. discriminate.
  - split; [intros [H _]; apply type_header in H; congruence|]. intros name (I & h & H & R & N). apply (kind_attributes t Hd O) in I. rewrite I in Q. destruct c as [|h'|]; destruct S1 as [A B]; try exact (B h H).
    apply B in H as ->. apply String.eqb_eq in Q. apply attributes_name_iff in R; [congruence|exact N].
Qed.
Definition declared_type (t : tree) : outcome declaration :=
  andthen (parse_signature (enough_for [the_text t; the_text t]) names_traits (the_text t) (the_text t)) (fun '(sg, _) =>
  andthen (parse_type_definition (enough_for (attributes sg)) "" (attributes sg) (T [] [] [])) (fun '(td, _, _) =>
  andthen (strip_backticks (identifier sg)) (fun '(id, _) => Val (Decl id (td_spec td))))).
Definition declared_named (t : tree) (name : string) : outcome declaration :=
  andthen (parse_signature (enough_for [the_text t; first_text t]) names_traits (the_text t) (first_text t)) (fun '(sg, _) =>
  andthen (parse_type_definition (enough_for (attributes sg)) "" (attributes sg) (T [] [] [])) (fun '(td, _, _) => Val (Decl name (td_spec td)))).
Lemma type_computed : forall b c t d, stands b c -> one_line t -> is_header t = true -> entered t c = InStructures -> kind_ahead t = UndefinedSection -> declared_type t = Val d -> declares b t d.
Proof.
  intros b c t d S1 O Hd E K V. assert (N : names_a_type b t) by (apply (proj2 (stands_header b c t S1 O Hd)); split; [exact E|now apply type_ahead]). unfold declared_type in V.
  destruct (signed_total names_traits (the_text t) (the_text t)) as [[[p m]|] S2]; rewrite (signed_ok names_traits _ _ _ S2 _ (enough_two _ _)) in V; [|discriminate]. cbn [andthen] in V.
  destruct (type_total (p_attributes p)) as (ts & e & Ty). destruct (definition_tables (T [] [] []) _ _ _ Ty) as (td & w & D & Es). change (attributes (sig_of p)) with (p_attributes p) in V. rewrite D in V. cbn [andthen] in V.
  destruct (bare_total (p_id p)) as [id B]. destruct (strip_bare _ _ B) as [left Sb]. change (identifier (sig_of p)) with (p_id p) in V. rewrite Sb in V. cbn [andthen] in V. injection V as <-. rewrite Es.
  apply (declares_type b t p); [exact N|exists m, e; now split|exact B].
Qed.
Lemma named_computed : forall b h t d, stands b (InResource h) -> one_line t -> is_header t = false -> kind_ahead t = AttributesSection -> attributes_name h <> "" -> declared_named t (attributes_name h) = Val d -> declares b t d.
Proof.
  intros b h t d S1 O Hd K N V. destruct S1 as [A B]. unfold declared_named in V.
  destruct (signed_total names_traits (the_text t) (first_text t)) as [[[p m]|] S2]; rewrite (signed_ok names_traits _ _ _ S2 _ (enough_two _ _)) in V; [|discriminate]. cbn [andthen] in V.
  destruct (type_total (p_attributes p)) as (ts & e & Ty). destruct (definition_tables (T [] [] []) _ _ _ Ty) as (td & w & D & Es). change (attributes (sig_of p)) with (p_attributes p) in V. rewrite D in V. cbn [andthen] in V.
  injection V as <-. rewrite Es. apply (declares_attributes b t _ p); [|exists m, e; now split]. split; [now apply (kind_attributes t Hd O)|]. exists h. split; [now apply B|]. split; [now apply attributes_name_iff|exact N].
Qed.
Lemma stands_next : forall b c c' t, stands b c -> one_line t -> next t c = c' -> stands (b ++ [t]) c'.
Proof. intros b c c' t S1 O <-. exact (proj1 (look_cases b c t S1 O)). Qed.
Lemma skip_computed : forall b c t l ds, stands b c -> one_line t -> quiet t c = true -> declared (b ++ [t]) l ds -> declared b (t :: l) ds.
Proof. intros b c t l ds S1 O Q D. destruct (quiet_not b c t S1 O Q). now apply declared_not. Qed.
