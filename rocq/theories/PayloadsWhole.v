(** Lemmas for C77: a payload as a whole *)
From Verif Require Import Base StringUtility StringSpec StringProofs SignatureProofs Regex RegexSpec RegexProofs ByteBuffer ByteSpec ByteProofs Prop_Bytes Markdown MarkdownSpec MarkdownTree Keywords KeywordsSpec KeywordsProofs KeywordsOrder Prop_Keywords Prop_Strings RegexCaps TypeTables SectionsSpec SectionsKeys.
From Verif Require Import Source Headers HeadersSpec HeadersProofs Prop_Headers Payloads PayloadsSpec PayloadsText PayloadsLine PayloadsNodes PayloadsParts PayloadsLoop PayloadsShort.
Local Open Scope string_scope.

Section Whole.
Context (source : string) (index : list N) (models : string -> option payload).
Context (nested : section_type -> list tree -> tree -> outcome (list annotation)) (found_none : section_type -> list tree -> bool).
Hypothesis Small : (slen source < 2 ^ 63)%N.
Hypothesis Indexed : List.length index = String.length source.
Notation fine := (fine source).
Notation within := (within source).
Notation parse := (parse_payload source index models nested found_none).

Lemma inside_parts : forall item, inside_source source item -> fine item /\ within item /\ match item with Tree _ _ _ _ cs => Forall within cs end.
Proof.
  intros [ty y z m cs] H. unfold inside_source in H. cbn [every_node] in H. destruct H as [H G]. split; [exact H|]. assert (X : Forall (fun c => fine c /\ within c) cs).
  { clear H. induction cs as [|c cs IH]; [constructor|]. destruct G as [G1 G2]. constructor; [|now apply IH]. destruct c as [ty' y' z' m' ds]. cbn [every_node] in G1. destruct G1 as [G1 G3]. split; [exact G1|]. cbn.
    clear -G3. induction ds as [|d ds IH]; [constructor|]. destruct G3 as [A B]. constructor; [|now apply IH]. destruct d; now destruct A. }
  split; cbn; (eapply Forall_impl; [|exact X]); now intros c [A B].
Qed.
Lemma full_ok : forall ty k item p cs w, form ty k false -> inside_source source item -> long_enough source item -> full source index nested found_none k item p cs ->
  parse ty item w = Val (p, w ++ map (shown index) cs)%list.
Proof.
  intros ty k item p cs w Fo In_ Long (t & r & d & x & gs & first & rest & text & name0 & name & hs & w1 & w2 & w3 & w4 & O & R & G & L & Nm & St & D & T & Ch & ->).
  destruct (inside_parts item In_) as (Fi & Wi & Wc). destruct (opens_fine source item t r O Wi) as [Ft Fr]. pose proof (row_ends _ _ _ R) as En. destruct R as (-> & Ad & Nx). apply Forall_app in Fr as [Fd Fx].
  unfold parse_payload. rewrite (opens_of _ _ _ O). cbn [andthen]. rewrite (signature_ok source index models Small Indexed ty k false t first rest name0 name hs w1 w2 w Fo Ft L Nm St).
  assert (B : forall v, behind index models ty t rest (Load name "" [] hs [] "" "" no_reference) v = Val (Load name rest [] hs [] "" "" no_reference, v)).
  { intros v. unfold behind. rewrite (form_abbreviated _ _ _ Fo). cbn [negb]. destruct (String.eqb_spec rest "") as [->|N]; reflexivity. }
  rewrite B. clear B.
  cbn [andthen]. apply opens_in in O as Oi. destruct item as [ity iy iz im ics]. destruct Oi as (a & Ei). cbn [long_enough] in Long.
  assert (Lt : rest <> String LF ""). { intros ->. apply (proj2 (Long t ltac:(rewrite Ei; apply in_app_iff; right; now left)) first L). }
  rewrite (description_ok source index models Small Indexed ty k rest d text Fo D Lt Fd Ad x (Load name rest [] hs [] "" "" no_reference) _ Nx eq_refl). cbn [andthen].
  rewrite (contents_stop _ (payload_is_content ty) _ (fun _ => False)); [|intros u; unfold payload_is_content; rewrite (form_abbreviated _ _ _ Fo); cbn; split; [discriminate|tauto]|destruct x; tauto]. cbn [andthen].
  destruct G as [Ex Gs]. rewrite Ex at 1. change (set_description text (Load name rest [] hs [] "" "" no_reference)) with (Load name text [] hs [] "" "" no_reference).
  rewrite (tells_ok source index nested Small Indexed ty k _ gs p w3 Fo T); [|..|exact Gs].
  - cbn [andthen]. destruct (status_tidy source models _ _ _ _ _ St (named_tidy _ _ _ _ _ _ Nm)) as [Td Ne]. pose proof (tells_name _ _ _ _ _ _ _ _ T) as Qn. cbn [q_name] in Qn. rewrite <- Qn in Td, Ne.
    rewrite (checked_ok source index found_none Small Indexed ty k false _ p w4 _ Fo Fi Td Ne Ch). cbn [andthen]. rewrite !map_app, !app_assoc. reflexivity.
  - assert (Sub : forall u, In u (flat_map (fun g => fst g :: snd g) gs) -> In u ics). { intros u I. rewrite <- Ex in I. rewrite Ei. apply in_app_iff. right. right. apply in_app_iff. now right. }
    rewrite Forall_forall. intros g I. assert (S1 : forall u, In u (fst g :: snd g) -> In u ics). { intros u J. apply Sub. apply in_flat_map. now exists g. }
    cbn in Wi. rewrite Forall_forall in Wi, Wc. split; [apply Wi, S1; now left|]. split; [apply Wc, S1; now left|]. split; rewrite Forall_forall; intros u J; [apply Wi, S1; now right|]. exact (proj1 (Long u (S1 u (or_intror J)))).
Qed.
Lemma short_form_ok : forall ty k item p cs w, form ty k true -> ~ holds_section item -> inside_source source item -> no_blank_reference item -> short source models found_none k item p cs ->
  parse ty item w = Val (p, w ++ map (shown index) cs)%list.
Proof.
  intros ty k item p cs w Fo Hs In_ Nb (t & r & d & x & first & rest & name0 & name & hs & w1 & w2 & w3 & w4 & w5 & O & (-> & Pd & Nx) & L & Nm & St & Sh & Ig & Ch & ->).
  destruct (inside_parts item In_) as (Fi & Wi & Wc). destruct (opens_fine source item t _ O Wi) as [Ft Fr]. apply Forall_app in Fr as [Fd Fx]. apply opens_in in O as Oi.
  assert (Sub : match item with Tree _ _ _ _ ics => In t ics /\ (forall u, In u (d ++ x)%list -> In u ics) end).
  { destruct item as [ity iy iz im ics]. destruct Oi as (a & ->). split; [apply in_app_iff; right; now left|]. intros u I. apply in_app_iff. right. now right. }
  unfold parse_payload. rewrite (opens_of _ _ _ O). cbn [andthen]. rewrite (signature_ok source index models Small Indexed ty k true t first rest name0 name hs w1 w2 w Fo Ft L Nm St).
  assert (Nr : ~ refers rest "" /\ forall q, In q d -> ~ refers (the_text q) "").
  { destruct item as [ity iy iz im ics]. cbn [no_blank_reference] in Nb. destruct Sub as [S1 S2]. split; [exact (proj2 (Nb t first rest S1 L))|]. intros q I. destruct (first_line (the_text q) "") as [a b] eqn:E. apply lines_iff in E.
    exact (proj1 (Nb q a b (S2 q ltac:(apply in_app_iff; now left)) E)). }
  destruct (short_ok source index models Small Indexed ty k t first rest d _ p w3 x (w ++ map (shown index) (w1 ++ w2))%list Fo Sh L Ft Fd Pd Nx eq_refl eq_refl (proj1 Nr) (proj2 Nr)) as (p1 & w' & E1 & E2).
  rewrite E1. cbn [andthen]. rewrite (contents_stop _ (payload_is_description ty) _ (fun _ => False)); [|intros u; unfold payload_is_description; rewrite (form_abbreviated _ _ _ Fo); cbn; split; [discriminate|tauto]|destruct (d ++ x)%list; tauto].
  cbn [andthen]. rewrite E2. cbn [andthen]. rewrite <- (app_nil_r x). rewrite (loop_ignored source index nested Small Indexed ty x w4 Ig UndefinedSection [] p _ ltac:(discriminate) Fx).
  - cbn [Payloads.payload_loop andthen]. destruct (status_tidy source models _ _ _ _ _ St (named_tidy _ _ _ _ _ _ Nm)) as [Td Ne]. pose proof (short_name _ _ _ _ _ _ _ _ _ Sh) as Qn. cbn [q_name] in Qn. rewrite <- Qn in Td, Ne.
    rewrite (checked_ok source index found_none Small Indexed ty k true _ p w5 _ Fo Fi Td Ne Ch). cbn [andthen]. rewrite !map_app, !app_assoc. reflexivity.
  - rewrite Forall_forall. intros u I A. apply Hs. destruct item as [ity iy iz im ics]. destruct Sub as [_ S2]. exists u. split; [apply S2, in_app_iff; now right|exact A].
  - now left.
Qed.
Lemma full_total : forall P k item, item_says P item -> ~ StringSpec.has NUL source -> (forall ty l t, exists a, nested ty l t = Val a) -> inside_source source item -> shown_lines source item -> long_enough source item ->
  exists p cs, full source index nested found_none k item p cs.
Proof.
  intros P k item It Nul Nest In_ Shn Long. destruct (inside_parts item In_) as (Fi & Wi & Wc). destruct (opens_total source P item It Wi) as (t & r & O).
  destruct (opens_fine source item t r O Wi) as [Ft Fr]. destruct (row_total (fun t => ~ a_section t) r) as (d & x & R). { intros u. destruct (section_dec u); [right; tauto|now left]. }
  pose proof (row_ends _ _ _ R) as En. destruct (grouped_total x En) as (gs & G). destruct (first_line (the_text t) "") as [first rest] eqn:L. apply lines_iff in L.
  destruct (named_total k t first) as (name0 & hs & w1 & Nm). destruct (status_total source models k t name0) as (name & w2 & St). apply opens_in in O as Oi. destruct item as [ity iy iz im ics]. destruct Oi as (a & Ei). cbn [long_enough] in Long.
  assert (Lt : rest <> String LF ""). { intros ->. apply (proj2 (Long t ltac:(rewrite Ei; apply in_app_iff; right; now left)) first L). }
  destruct (description_total source index models Small Indexed d rest Lt) as (text & D).
  assert (Sub : forall u, In u (flat_map (fun g => fst g :: snd g) gs) -> In u ics). { intros u I. destruct G as [Ex _]. rewrite <- Ex in I. destruct R as [-> _]. rewrite Ei. apply in_app_iff. right. right. apply in_app_iff. now right. }
  assert (S1 : forall g, In g gs -> forall u, In u (fst g :: snd g) -> In u ics). { intros g I u J. apply Sub. apply in_flat_map. now exists g. }
  cbn in Wi. rewrite Forall_forall in Wi, Wc.
  destruct (tells_total source index models nested Small Indexed Nul Nest k gs (Load name text [] hs [] "" "" no_reference)) as (p & w3 & T).
  - rewrite Forall_forall. intros g I. pose proof (S1 g I) as S2. split; [apply Wi, S2; now left|]. split; [apply Wc, S2; now left|]. split; rewrite Forall_forall; intros u J; [apply Wi, S2; now right|]. exact (proj1 (Long u (S2 u (or_intror J)))).
  - apply G.
  - rewrite Forall_forall. intros g I H. exact (Shn (fst g) (S1 g I (fst g) (or_introl eq_refl)) H).
  - destruct (status_tidy source models _ _ _ _ _ St (named_tidy _ _ _ _ _ _ Nm)) as [Td Ne]. pose proof (tells_name _ _ _ _ _ _ _ _ T) as Qn. cbn [q_name] in Qn. rewrite <- Qn in Td.
    destruct (checked_total source index found_none Small Indexed k (Tree ity iy iz im ics) p Td) as (w4 & Ch). exists p, (w1 ++ w2 ++ w3 ++ w4)%list. exists t, r, d, x, gs, first, rest, text, name0, name, hs, w1, w2, w3, w4.
    repeat (split; [assumption|]). reflexivity.
Qed.
Lemma short_form_total : forall P k item, item_says P item -> inside_source source item -> exists p cs, short source models found_none k item p cs.
Proof.
  intros P k item It In_. destruct (inside_parts item In_) as (Fi & Wi & Wc). destruct (opens_total source P item It Wi) as (t & r & O). destruct (row_total plain_node r plain_dec) as (d & x & R).
  destruct (first_line (the_text t) "") as [first rest] eqn:L. apply lines_iff in L. destruct (named_total k t first) as (name0 & hs & w1 & Nm). destruct (status_total source models k t name0) as (name & w2 & St).
  destruct (short_total source models k t first rest d (Load name "" [] hs [] "" "" no_reference) L) as (p & w3 & Sh). destruct (all_ignored_total x) as (w4 & Ig).
  destruct (status_tidy source models _ _ _ _ _ St (named_tidy _ _ _ _ _ _ Nm)) as [Td Ne]. pose proof (short_name _ _ _ _ _ _ _ _ _ Sh) as Qn. cbn [q_name] in Qn. rewrite <- Qn in Td.
  destruct (checked_total source index found_none Small Indexed k item p Td) as (w5 & Ch). exists p, (w1 ++ w2 ++ w3 ++ w4 ++ w5)%list. exists t, r, d, x, first, rest, name0, name, hs, w1, w2, w3, w4, w5.
  repeat (split; [assumption|]). reflexivity.
Qed.
End Whole.
