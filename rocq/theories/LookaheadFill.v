From Verif Require Import Base StringUtility StringSpec StringProofs Regex RegexSpec ByteBuffer Markdown MarkdownSpec Keywords KeywordsSpec KeywordsProofs KeywordsOrder Prop_Keywords RegexCaps SectionsKeys
  SignatureSpec SignatureProofs SignatureWhole TypeTables SourceMap Mson Signature TypeDefs TypeDefsSpec TypeDefsProofs MembersTree MembersSpec MembersLeaves Lookahead LookaheadSpec LookaheadText.
From Verif Require SectionsSpec PayloadsSpec.
Import PayloadsSpec(the_text).
Local Open Scope string_scope.

(** ** a declaration *)
Lemma declare_fill : forall t id spec, declare (parse_definition t spec) id spec = fill t (Decl id spec).
Proof. reflexivity. Qed.
Lemma type_unique : forall l ts ts' e e', type_says l ts e -> type_says l ts' e' -> ts = ts'.
Proof.
  intros l ts ts' e e' [l0 O|l0 a m ts0 O S] H'; inversion H' as [l1 O1|l1 a1 m1 ts1 O1 S1]; subst; try congruence. rewrite O in O1. injection O1 as <- <-. exact (spec_unique _ _ _ S S1).
Qed.
Lemma definition_tables : forall tb l ts e, type_says l ts e -> exists td w, parse_type_definition (enough_for l) "" l tb = Val (td, parse_definition tb ts, w) /\ td_spec td = ts.
Proof.
  intros tb l ts e T. destruct (definition_total (bases tb) "" l) as (td & e0 & D). assert (Es : td_spec td = ts).
  { destruct D as [ts0 bits b e1 e2 e3 _ T0 _ _ _]. exact (type_unique _ _ _ _ _ T0 T). }
  pose proof (definition_ok _ _ _ _ _ D _ (enough_each l)) as O. destruct (performed (deps tb) e0) as [d w] eqn:P. exists td, w. split; [|exact Es]. rewrite O. f_equal. f_equal. f_equal.
  revert O. unfold parse_type_definition. destruct (definition_loop _ _ _ _ _ _) as [[[bits ts'] w']| | |]; [|discriminate..]. cbn [andthen]. unfold parse_definition.
  set (b := match parse_base (n_base (t_name ts')) with UndefinedBT => _ | _ => _ end). intros O.
  assert (Eb : td = TD b ts' bits) by (destruct (match b with UndefinedBT => _ | _ => _ end) as [d0 e1]; now injection O as <- _ _).
  assert (ts' = ts) as -> by (rewrite Eb in Es; exact Es). fold b. clearbody b.
  destruct b; cbn in O; try (injection O as _ <- _; now destruct tb). destruct (names_type (n_symbol (t_name ts))) eqn:Nt.
  - destruct (add_dependency (deps tb) (s_literal (n_symbol (t_name ts))) "" false) as [d0 e1]. injection O as _ <- _. reflexivity.
  - injection O as _ <- _. now destruct tb.
Qed.
Lemma fill_type : forall t subject p id spec tb, subject_says t subject p spec -> bare (p_id p) id -> fill_named t subject "" tb = Val (fill tb (Decl id spec)).
Proof.
  intros t subject p id spec tb (m & e & S1 & T) B. unfold fill_named. assert (Et : t_text t = the_text t) by now destruct t. rewrite Et.
  rewrite (signed_ok names_traits _ _ _ S1 _ (enough_two _ _)). cbn [andthen]. destruct (definition_tables tb _ _ _ T) as (td & w & D & Es). change (attributes (sig_of p)) with (p_attributes p). rewrite D. cbn [andthen].
  change (String.eqb "" "") with true. cbv iota. destruct (strip_bare _ _ B) as [left Sb]. change (identifier (sig_of p)) with (p_id p). rewrite Sb. cbn [andthen]. now rewrite Es, declare_fill.
Qed.
Lemma fill_attributes : forall t subject name p spec tb, name <> "" -> subject_says t subject p spec -> ~ emphasised (p_id p) -> fill_named t subject name tb = Val (fill tb (Decl name spec)).
Proof.
  intros t subject name p spec tb Nn (m & e & S1 & T) Ne. unfold fill_named. assert (Et : t_text t = the_text t) by now destruct t. rewrite Et.
  rewrite (signed_ok names_traits _ _ _ S1 _ (enough_two _ _)). cbn [andthen]. destruct (definition_tables tb _ _ _ T) as (td & w & D & Es). change (attributes (sig_of p)) with (p_attributes p). rewrite D. cbn [andthen].
  destruct (String.eqb_spec name "") as [X|_]; [contradiction|]. change (identifier (sig_of p)) with (p_id p). rewrite (check_false _ Ne). cbn [andthen]. now rewrite Es, declare_fill.
Qed.
Lemma type_total : forall l, exists ts e, type_says l ts e.
Proof. intros l. destruct (other_words l) as [|a more] eqn:E; [do 2 eexists; now apply type_none|]. destruct (spec_total a) as [ts S1]. do 2 eexists. exact (type_first l a more ts E S1). Qed.
Lemma fill_some : forall t subject name tb r, fill_named t subject name tb = Val r -> exists p spec, subject_says t subject p spec.
Proof.
  intros t subject name tb r H. destruct (signed_total names_traits (the_text t) subject) as [[[p m]|] S1].
  - destruct (type_total (p_attributes p)) as (ts & e & T). exists p, ts, m, e. now split.
  - exfalso. unfold fill_named in H. assert (Et : t_text t = the_text t) by now destruct t. rewrite Et, (signed_ok names_traits _ _ _ S1 _ (enough_two _ _)) in H. discriminate.
Qed.
(** nothing else can go wrong *)
Lemma fill_cases : forall t subject name tb, (exists r, fill_named t subject name tb = Val r) \/ fill_named t subject name tb = ByteBuffer.Wild.
Proof.
  intros t subject name tb. destruct (signed_total names_traits (the_text t) subject) as [[[p m]|] S1].
  - left. destruct (type_total (p_attributes p)) as (ts & e & T). assert (Su : subject_says t subject p ts) by (exists m, e; now split). destruct (String.eqb_spec name "") as [->|Nn].
    + destruct (bare_total (p_id p)) as [id B]. eexists. exact (fill_type _ _ _ _ _ _ Su B).
    + unfold fill_named. assert (Et : t_text t = the_text t) by now destruct t. rewrite Et, (signed_ok names_traits _ _ _ S1 _ (enough_two _ _)). cbn [andthen].
      destruct (definition_tables tb _ _ _ T) as (td & w & D & Es). change (attributes (sig_of p)) with (p_attributes p). rewrite D. cbn [andthen]. destruct (String.eqb_spec name "") as [X|_]; [contradiction|].
      assert (V : exists v, check_variable (p_id p) = Val v) by (destruct (emphasised_dec (p_id p)) as [V|V]; [exists true; now apply check_true|exists false; now apply check_false]). destruct V as [v V]. change (identifier (sig_of p)) with (p_id p). rewrite V. cbn [andthen]. destruct v; eexists; reflexivity.
  - right. unfold fill_named. assert (Et : t_text t = the_text t) by now destruct t. rewrite Et, (signed_ok names_traits _ _ _ S1 _ (enough_two _ _)). reflexivity.
Qed.
