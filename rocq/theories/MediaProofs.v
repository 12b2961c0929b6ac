From Verif Require Import Base Peg MediaType MediaSpec.

(** ** rules *)
Definition shrinks {S} (p : rule S) : Prop := forall i s r s', p i s = Matched r s' -> (String.length r < String.length i)%nat.
Definition keeps {S} (p : rule S) : Prop := forall i s r s', p i s = Matched r s' -> (String.length r <= String.length i)%nat.
Definition total {S} (p : rule S) : Prop := forall i s, p i s <> Runaway.
Section Rules.
  Context {S : Type}.
  Implicit Types p q : rule S.
  Lemma shrinks_keeps p : shrinks p -> keeps p.
  Proof. intros H i s r s' E. apply H in E. lia. Qed.
  Lemma one_shrinks f : shrinks (@p_one S f).
  Proof. intros [|a i] s r s' E; cbn in E; [discriminate|]. destruct (f a); [|discriminate]. injection E as -> _. cbn. lia. Qed.
  Lemma one_total f : total (@p_one S f).
  Proof. intros [|a i] s; cbn; [discriminate|]. destruct (f a); discriminate. Qed.
  Lemma seq_shrinks p q : shrinks p -> keeps q -> shrinks (p_seq p q).
  Proof. intros A B i s r s' E. unfold p_seq in E. destruct (p i s) as [r1 s1| | |] eqn:P; try discriminate. apply A in P. apply B in E. lia. Qed.
  Lemma seq_shrinks2 p q : keeps p -> shrinks q -> shrinks (p_seq p q).
  Proof. intros A B i s r s' E. unfold p_seq in E. destruct (p i s) as [r1 s1| | |] eqn:P; try discriminate. apply A in P. apply B in E. lia. Qed.
  Lemma seq_keeps p q : keeps p -> keeps q -> keeps (p_seq p q).
  Proof. intros A B i s r s' E. unfold p_seq in E. destruct (p i s) as [r1 s1| | |] eqn:P; try discriminate. apply A in P. apply B in E. lia. Qed.
  Lemma seq_total p q : total p -> total q -> total (p_seq p q).
  Proof. intros A B i s. unfold p_seq. pose proof (A i s). destruct (p i s); try discriminate; [apply B|congruence]. Qed.
  Lemma sor_shrinks p q : shrinks p -> shrinks q -> shrinks (p_sor p q).
  Proof. intros A B i s r s' E. unfold p_sor in E. destruct (p i s) as [r1 s1| | |] eqn:P; try discriminate; [injection E as -> ->; now apply A in P|now apply B in E]. Qed.
  Lemma sor_total p q : total p -> total q -> total (p_sor p q).
  Proof. intros A B i s. unfold p_sor. pose proof (A i s). destruct (p i s); try discriminate; [apply B|congruence]. Qed.
  Lemma opt_keeps p : keeps p -> keeps (p_opt p).
  Proof. intros A i s r s' E. unfold p_opt in E. destruct (p i s) as [r1 s1| | |] eqn:P; try discriminate; injection E as -> ->; [now apply A in P|lia]. Qed.
  Lemma opt_total p : total p -> total (p_opt p).
  Proof. intros A i s. unfold p_opt. pose proof (A i s). destruct (p i s); try discriminate; congruence. Qed.
  Lemma must_shrinks p : shrinks p -> shrinks (p_must p).
  Proof. intros A i s r s' E. unfold p_must in E. destruct (p i s) as [r1 s1| | |] eqn:P; try discriminate. injection E as -> ->. now apply A in P. Qed.
  Lemma must_total p : total p -> total (p_must p).
  Proof. intros A i s. unfold p_must. pose proof (A i s). destruct (p i s); try discriminate; congruence. Qed.
  Lemma act_shrinks f p : shrinks p -> shrinks (p_act f p).
  Proof. intros A i s r s' E. unfold p_act in E. destruct (p i s) as [r1 s1| | |] eqn:P; try discriminate. injection E as -> _. now apply A in P. Qed.
  Lemma act_total f p : total p -> total (p_act f p).
  Proof. intros A i s. unfold p_act. pose proof (A i s). destruct (p i s); try discriminate; congruence. Qed.
  Lemma rep_opt_keeps n p : keeps p -> keeps (p_rep_opt n p).
  Proof.
    intros A. induction n as [|n IH]; intros i s r s' E; cbn in E; [injection E as -> ->; lia|].
    destruct (p i s) as [r1 s1| | |] eqn:P; try discriminate; [apply A in P; apply IH in E; lia|injection E as -> ->; lia].
  Qed.
  Lemma rep_opt_total n p : total p -> total (p_rep_opt n p).
  Proof. intros A. induction n as [|n IH]; intros i s; cbn; [discriminate|]. pose proof (A i s). destruct (p i s); try discriminate; [apply IH|congruence]. Qed.
  Lemma not_at_keeps p : keeps (p_not_at p).
  Proof. intros i s r s' E. unfold p_not_at in E. destruct (p i s); try discriminate. injection E as -> _. lia. Qed.
  Lemma not_at_total p : total p -> total (p_not_at p).
  Proof. intros A i s. unfold p_not_at. pose proof (A i s). destruct (p i s); try discriminate; congruence. Qed.
  Lemma star_from_fuel p : shrinks p -> forall n m i s, (String.length i < n)%nat -> (String.length i < m)%nat -> p_star_from n p i s = p_star_from m p i s.
  Proof.
    intros A. induction n as [|n IH]; intros [|m] i s N M; try lia. cbn. destruct (p i s) as [r1 s1| | |] eqn:P; try reflexivity.
    apply A in P. apply IH; lia.
  Qed.
  Lemma star_step p i s r s' : shrinks p -> p i s = Matched r s' -> p_star p i s = p_star p r s'.
  Proof. intros A E. unfold p_star at 1. cbn [p_star_from]. rewrite E. pose proof (A _ _ _ _ E). unfold p_star. apply star_from_fuel; [exact A|lia|lia]. Qed.
  Lemma star_stop p i s s' : p i s = Failed s' -> p_star p i s = Matched i s'.
  Proof. intros E. unfold p_star. cbn. rewrite E. reflexivity. Qed.
  Lemma star_raise p i s s' : p i s = Raised s' -> p_star p i s = Raised s'.
  Proof. intros E. unfold p_star. cbn. rewrite E. reflexivity. Qed.
  Lemma star_from_total p n : shrinks p -> total p -> forall i s, (String.length i < n)%nat -> p_star_from n p i s <> Runaway.
  Proof.
    intros A T. induction n as [|n IH]; intros i s L; [lia|]. cbn. pose proof (T i s). destruct (p i s) as [r1 s1| | |] eqn:P; try discriminate; [|congruence].
    apply A in P. apply IH. lia.
  Qed.
  Lemma star_total p : shrinks p -> total p -> total (p_star p).
  Proof. intros A T i s. apply star_from_total; [exact A|exact T|lia]. Qed.
  Lemma star_from_keeps p n : keeps p -> keeps (p_star_from n p).
  Proof.
    intros A. induction n as [|n IH]; intros i s r s' E; cbn in E; [discriminate|].
    destruct (p i s) as [r1 s1| | |] eqn:P; try discriminate; [apply A in P; apply IH in E; lia|injection E as -> ->; lia].
  Qed.
  Lemma star_keeps p : keeps p -> keeps (p_star p).
  Proof. intros A i s r s' E. exact (star_from_keeps p _ A i s r s' E). Qed.
  (** rules without actions *)
  Definition inert p : Prop := forall i s, match p i s with Matched _ s' | Failed s' | Raised s' => s' = s | Runaway => True end.
  Lemma one_inert f : inert (p_one f).
  Proof. intros [|a i] s; cbn; [reflexivity|]. destruct (f a); reflexivity. Qed.
  Lemma seq_inert p q : inert p -> inert q -> inert (p_seq p q).
  Proof. intros A B i s. unfold p_seq. specialize (A i s). destruct (p i s); subst; auto. apply B. Qed.
  Lemma sor_inert p q : inert p -> inert q -> inert (p_sor p q).
  Proof. intros A B i s. unfold p_sor. specialize (A i s). destruct (p i s); subst; auto. apply B. Qed.
  Lemma must_inert p : inert p -> inert (p_must p).
  Proof. intros A i s. unfold p_must. specialize (A i s). destruct (p i s); subst; auto. Qed.
  Lemma star_from_inert n p : inert p -> inert (p_star_from n p).
  Proof. intros A. induction n as [|n IH]; intros i s; cbn; [exact I|]. specialize (A i s). destruct (p i s); subst; auto. apply IH. Qed.
  Lemma star_inert p : inert p -> inert (p_star p).
  Proof. intros A i s. exact (star_from_inert _ p A i s). Qed.
End Rules.
#[global] Hint Resolve one_inert seq_inert sor_inert must_inert star_inert : peg.
#[global] Hint Resolve shrinks_keeps one_shrinks one_total seq_shrinks seq_keeps seq_total sor_shrinks sor_total opt_keeps opt_total must_shrinks must_total
  act_shrinks act_total rep_opt_keeps rep_opt_total not_at_keeps not_at_total star_total star_keeps : peg.

Lemma consumed_app : forall n r, consumed (n +++ r) r = n.
Proof.
  intros n r. unfold consumed. rewrite length_append. replace (String.length n + String.length r - String.length r)%nat with (String.length n) by lia.
  induction n as [|a n IH]; cbn; [destruct r; reflexivity|]. rewrite IH. reflexivity.
Qed.

(** ** characters *)
Lemma c_range_spec : forall lo hi a, c_range lo hi a = true <-> (lo <= byte a <= hi)%N.
Proof. intros. unfold c_range. rewrite andb_true_iff, !N.leb_le. tauto. Qed.
Lemma c_alnum_spec : forall a, c_alnum a = true <-> letter a \/ digit a.
Proof. intros a. unfold c_alnum, c_alpha, c_digit. rewrite !orb_true_iff, !c_range_spec. unfold letter, digit. tauto. Qed.
Lemma c_in_spec : forall s a, c_in s a = true <-> In a (list_ascii_of_string s).
Proof.
  intros s a. unfold c_in. rewrite existsb_exists. split; [intros (x & I & E); apply Ascii.eqb_eq in E as ->; exact I|]. intros I. exists a. split; [exact I|apply Ascii.eqb_refl].
Qed.
Lemma name_char_spec : forall a, name_char a = true <-> letter a \/ digit a \/ mark a.
Proof. intros a. unfold name_char. rewrite orb_true_iff, c_alnum_spec. unfold restricted. rewrite c_in_spec. unfold mark. tauto. Qed.
Definition good_name (n : string) : Prop := exists a r, n = String a r /\ c_alnum a = true /\ Forall (fun c => name_char c = true) (list_ascii_of_string r) /\ (String.length r <= 126)%nat.
Lemma is_name_good : forall n, is_name n <-> good_name n.
Proof.
  intros n. split; intros (a & r & E & A & B & C); exists a, r; (split; [exact E|]); (split; [now apply c_alnum_spec|]); (split; [|exact C]).
  - eapply Forall_impl; [|exact B]. intros c. cbn. apply name_char_spec.
  - eapply Forall_impl; [|exact B]. intros c. cbn. apply name_char_spec.
Qed.
Definition stops (r : string) : Prop := match r with EmptyString => True | String a _ => name_char a = false end.

Section Names.
  Context {S : Type}.
  Lemma rep_opt_run : forall r n rest (s : S), Forall (fun c => name_char c = true) (list_ascii_of_string r) -> (String.length r <= n)%nat -> stops rest ->
    p_rep_opt n (p_one name_char) (r +++ rest)%string s = Matched rest s.
  Proof.
    induction r as [|a r IH]; intros n rest s F L St; cbn in F, L.
    - destruct n; cbn; [reflexivity|]. destruct rest as [|b rest]; cbn; [reflexivity|]. cbn in St. rewrite St. reflexivity.
    - destruct n as [|n]; [lia|]. inversion F; subst. cbn. rewrite H1. apply IH; [assumption|lia|assumption].
  Qed.
  Lemma name_ok : forall n rest (s : S), is_name n -> stops rest -> g_name (n +++ rest)%string s = Matched rest s.
  Proof.
    intros n rest s N St. apply is_name_good in N as (a & r & -> & A & F & L). unfold g_name, p_seq. cbn [append p_one]. rewrite A.
    unfold p_rep_max, p_seq. rewrite rep_opt_run by assumption. unfold p_not_at. destruct rest as [|b rest]; cbn; [reflexivity|]. cbn in St. rewrite St. reflexivity.
  Qed.
  Lemma rep_opt_inv : forall n i (s : S) o, p_rep_opt n (p_one name_char) i s = o -> exists r rest, o = Matched rest s /\ i = (r +++ rest)%string /\
    Forall (fun c => name_char c = true) (list_ascii_of_string r) /\ (String.length r <= n)%nat.
  Proof.
    induction n as [|n IH]; intros i s o E; cbn in E.
    - exists "", i. split; [now symmetry|]. split; [reflexivity|]. split; [constructor|cbn; lia].
    - destruct i as [|a i]; cbn in E.
      + exists "", "". split; [now symmetry|]. split; [reflexivity|]. split; [constructor|cbn; lia].
      + destruct (name_char a) eqn:A.
        * destruct (IH _ _ _ E) as (r & rest & -> & -> & F & L). exists (String a r), rest. split; [reflexivity|]. split; [reflexivity|]. split; [constructor; assumption|cbn; lia].
        * exists "", (String a i). split; [now symmetry|]. split; [reflexivity|]. split; [constructor|cbn; lia].
  Qed.
  Lemma name_inv : forall i (s : S), (exists n rest, g_name i s = Matched rest s /\ i = (n +++ rest)%string /\ is_name n /\ stops rest) \/ g_name i s = Failed s.
  Proof.
    intros [|a i] s; [right; reflexivity|]. unfold g_name, p_seq. cbn [p_one]. destruct (c_alnum a) eqn:A; [|right; reflexivity].
    unfold p_rep_max, p_seq. destruct (rep_opt_inv 126 i s _ eq_refl) as (r & rest & -> & -> & F & L).
    unfold p_not_at. destruct rest as [|b rest]; cbn.
    - left. exists (String a r), "". split; [reflexivity|]. split; [reflexivity|]. split; [|exact I]. apply is_name_good. exists a, r. auto.
    - destruct (name_char b) eqn:B; [right; reflexivity|]. left. exists (String a r), (String b rest). split; [reflexivity|]. split; [reflexivity|]. split; [|exact B]. apply is_name_good. exists a, r. auto.
  Qed.
  Lemma name_shrinks : shrinks (@g_name S).
  Proof. unfold g_name, p_rep_max. auto with peg. Qed.
  Lemma name_total : total (@g_name S).
  Proof. unfold g_name, p_rep_max. auto 10 with peg. Qed.

  (** ** blanks *)
  Definition no_blank (r : string) : Prop := match r with EmptyString => True | String a _ => c_wsp a = false end.
  Lemma wsp_spec : forall a, c_wsp a = true <-> a = chr 32 \/ a = chr 9.
  Proof. intros a. unfold c_wsp. rewrite c_in_spec. cbn. intuition congruence. Qed.
  Lemma ows_ok : forall b rest (s : S), blanks b -> no_blank rest -> g_ows (b +++ rest)%string s = Matched rest s.
  Proof.
    induction b as [|a b IH]; intros rest s B N; unfold g_ows in *.
    - cbn [append]. apply star_stop. destruct rest as [|c rest]; [reflexivity|]. cbn [p_one no_blank] in *. rewrite N. reflexivity.
    - inversion B; subst. cbn [append]. rewrite (star_step _ _ _ (b +++ rest)%string s); [apply IH; assumption|apply one_shrinks|].
      cbn [p_one]. rewrite (proj2 (wsp_spec a)) by assumption. reflexivity.
  Qed.
  Lemma ows_some : forall i (s : S), exists b rest, g_ows i s = Matched rest s /\ i = (b +++ rest)%string.
  Proof.
    induction i as [|a i IH]; intros s; unfold g_ows in *.
    - exists "", "". split; reflexivity.
    - destruct (c_wsp a) eqn:A.
      + destruct (IH s) as (b & rest & E & ->). exists (String a b), rest. split; [|reflexivity]. rewrite (star_step _ _ _ (b +++ rest)%string s); [exact E|apply one_shrinks|]. cbn [p_one]. rewrite A. reflexivity.
      + exists "", (String a i). split; [|reflexivity]. apply star_stop. cbn [p_one]. rewrite A. reflexivity.
  Qed.
  Lemma rws_ok : forall b rest (s : S), blanks b -> b <> ""%string -> no_blank rest -> g_rws (b +++ rest)%string s = Matched rest s.
  Proof.
    intros [|a b] rest s B N0 N; [congruence|]. inversion B; subst. unfold g_rws, p_plus, p_seq. cbn [append p_one]. rewrite (proj2 (wsp_spec a)) by assumption. apply (ows_ok b rest s); assumption.
  Qed.
  Lemma rws_state : forall i (s : S), (exists r, g_rws i s = Matched r s) \/ g_rws i s = Failed s.
  Proof.
    intros [|a i] s; [right; reflexivity|]. unfold g_rws, p_plus, p_seq. cbn [p_one]. destruct (c_wsp a); [|right; reflexivity].
    destruct (ows_some i s) as (b & r & E & _). unfold g_ows in E. rewrite E. left. eauto.
  Qed.
  Lemma rws_shrinks : shrinks (@g_rws S).
  Proof. unfold g_rws, p_plus. auto with peg. Qed.

  (** ** quoted texts *)
  Lemma quoted_inner : forall v rest (s : S), quotable v ->
    p_star (p_sor g_quoted_pair (p_one (fun a => negb (Ascii.eqb quote a)))) (v +++ String quote rest)%string s = Matched (String quote rest) s.
  Proof.
    intros v rest s Q.
    assert (SH : shrinks (p_sor g_quoted_pair (@p_one S (fun a => negb (Ascii.eqb quote a))))).
    { unfold g_quoted_pair, p_if_must. auto 10 with peg. }
    induction Q as [|a r N1 N2 Q IH|a r H Q IH]; cbn [append].
    - apply star_stop. reflexivity.
    - rewrite (star_step _ _ _ (r +++ String quote rest)%string s SH); [exact IH|].
      unfold p_sor, g_quoted_pair, p_if_must, p_seq. cbn [p_one]. rewrite (proj2 (Ascii.eqb_neq "\" a)) by congruence. rewrite (proj2 (Ascii.eqb_neq quote a)) by (unfold quote; congruence). reflexivity.
    - rewrite (star_step _ _ _ (r +++ String quote rest)%string s SH); [exact IH|].
      unfold p_sor at 1. unfold g_quoted_pair, p_if_must. unfold p_seq. cbn [p_one]. rewrite Ascii.eqb_refl. unfold p_must, p_sor. cbn [p_one].
      destruct (c_vchar a) eqn:V; [reflexivity|]. destruct (obs_text a) eqn:O; [reflexivity|]. destruct (c_wsp a) eqn:W; [reflexivity|]. exfalso.
      destruct H as [H|[H|H]].
      + unfold c_vchar in V. rewrite (proj2 (c_range_spec 33 126 a) H) in V. discriminate.
      + unfold obs_text in O. apply N.leb_gt in O. lia.
      + rewrite (proj2 (wsp_spec a) H) in W. discriminate.
  Qed.
  Lemma quoted_ok : forall v rest (s : S), quotable v -> g_quoted (String quote (v +++ String quote rest))%string s = Matched rest s.
  Proof.
    intros v rest s Q. unfold g_quoted. unfold p_seq at 1. cbn [p_one]. rewrite Ascii.eqb_refl. unfold p_seq. rewrite quoted_inner by assumption. cbn [p_one]. rewrite Ascii.eqb_refl. reflexivity.
  Qed.
  Lemma quoted_state : forall i (s : S), (exists r, g_quoted i s = Matched r s) \/ g_quoted i s = Failed s \/ g_quoted i s = Raised s.
  Proof.
    assert (N : inert (@g_quoted S)). { unfold g_quoted, g_quoted_pair, p_if_must. auto 20 with peg. }
    assert (T : total (@g_quoted S)). { unfold g_quoted, g_quoted_pair, p_if_must. auto 20 with peg. }
    intros i s. specialize (N i s). specialize (T i s). destruct (g_quoted i s); subst; eauto. congruence.
  Qed.
End Names.

(** ** parameters *)
Definition with_params (m : media) (ps : list (string * string)) : media := MT (m_type m) (m_subtype m) (m_suffix m) (m_params m ++ ps).
Lemma with_params_nil : forall m, with_params m [] = m.
Proof. intros [t u x ps]. unfold with_params. cbn. rewrite app_nil_r. reflexivity. Qed.
Lemma with_params_app : forall m a b, with_params (with_params m a) b = with_params m (a ++ b).
Proof. intros. unfold with_params. cbn. rewrite app_assoc. reflexivity. Qed.
Lemma unquote_ok : forall v, unquote (String quote (v +++ String quote ""))%string = v.
Proof.
  intros v. unfold unquote. cbn [String.length]. rewrite length_append. cbn [String.length]. replace (S (String.length v + 1) - 2)%nat with (String.length v) by lia. cbn [String.substring].
  generalize (String quote "")%string as t. induction v as [|a v IH]; intros t; [destruct t; reflexivity|]. cbn. rewrite IH. reflexivity.
Qed.
Lemma name_quote : forall rest (s : pstate), g_name (String quote rest) s = Failed s.
Proof. reflexivity. Qed.
Lemma param_ok : forall p t rest m, param_text p t -> stops rest -> g_parameter (t +++ rest)%string m = Matched rest (with_params m [p]).
Proof.
  intros p t rest m T St. destruct T as [k v K V|k v K V]; unfold g_parameter, p_change; unfold p_seq at 1.
  - rewrite !append_assoc. unfold g_attribute at 1, p_act at 1. rewrite name_ok; [|exact K|reflexivity]. rewrite consumed_app. cbn [fst snd]. unfold p_seq. cbn [append p_one]. change (Ascii.eqb "=" "=") with true. cbn match.
    unfold g_value, p_sor. unfold p_act at 1.
    assert (Q : g_quoted (v +++ rest)%string (k, ""%string) = Failed (k, ""%string)).
    { apply is_name_good in V as (a & r & -> & A & _). unfold g_quoted, p_seq. cbn [append p_one]. destruct (Ascii.eqb_spec quote a) as [<-|]; [discriminate A|reflexivity]. }
    rewrite Q. unfold p_act. rewrite name_ok by assumption. rewrite consumed_app. reflexivity.
  - rewrite !append_assoc. unfold g_attribute at 1, p_act at 1. rewrite name_ok; [|exact K|reflexivity]. rewrite consumed_app. cbn [fst snd]. unfold p_seq. cbn [append p_one]. change (Ascii.eqb "=" "=") with true. cbn match.
    unfold g_value, p_sor. unfold p_act at 1. rewrite !append_assoc. cbn [append]. change """"%char with quote. rewrite quoted_ok by assumption.
    assert (E : consumed (String quote (v +++ String quote rest)) rest = String quote (v +++ String quote "")).
    { rewrite <- (consumed_app (String quote (v +++ String quote "")) rest). f_equal. cbn [append]. rewrite append_assoc. reflexivity. }
    rewrite E, unquote_ok. reflexivity.
Qed.
Lemma param_fails : forall i m, (match i with String a _ => c_alnum a = false | _ => True end) -> g_parameter i m = Failed m.
Proof.
  intros [|a i] m H; [reflexivity|]. unfold g_parameter, p_change. unfold p_seq at 1. unfold g_attribute, p_act, g_name, p_seq. cbn [p_one]. rewrite H. reflexivity.
Qed.
Lemma attribute_shrinks : shrinks g_attribute.
Proof. unfold g_attribute. apply act_shrinks, name_shrinks. Qed.
Lemma change_shrinks : forall {S T} (f : T) (g : T -> S -> S) p, shrinks p -> shrinks (p_change f g p).
Proof. intros S T f g p H i s r s' E. unfold p_change in E. destruct (p i f) as [r1 t| | |] eqn:P; try discriminate. injection E as -> _. now apply H in P. Qed.
Lemma quoted_shrinks : forall {S}, shrinks (@g_quoted S).
Proof. intros S. unfold g_quoted, g_quoted_pair, p_if_must. apply seq_shrinks; [apply one_shrinks|]. apply seq_keeps; auto 10 with peg. Qed.
Lemma value_shrinks : shrinks g_value.
Proof. unfold g_value. apply sor_shrinks; apply act_shrinks; [apply quoted_shrinks|apply name_shrinks]. Qed.
Lemma parameter_shrinks : shrinks g_parameter.
Proof. unfold g_parameter. apply change_shrinks, seq_shrinks; [apply attribute_shrinks|]. apply seq_keeps; auto using value_shrinks with peg. Qed.
Lemma sep_shrinks : shrinks (p_seq g_rws g_parameter).
Proof. apply seq_shrinks; [apply rws_shrinks|]. auto using parameter_shrinks with peg. Qed.
Lemma line_end_first : forall e, line_end e -> match e with String a _ => (a = chr 10 \/ a = chr 13) | _ => True end.
Proof. intros e []; auto. Qed.
Lemma blanks_end_stops : forall b e, blanks b -> line_end e -> stops (b +++ e).
Proof.
  intros [|a b] e B L; cbn [append].
  - apply line_end_first in L. destruct e as [|a e]; [exact I|]. destruct L as [->| ->]; reflexivity.
  - inversion B as [|? ? H]; subst. destruct H as [->| ->]; reflexivity.
Qed.
Lemma end_no_blank : forall e, line_end e -> no_blank e.
Proof. intros e L. apply line_end_first in L. destruct e as [|a e]; [exact I|]. destruct L as [->| ->]; reflexivity. Qed.
Lemma no_more_params : forall b e m, blanks b -> line_end e -> p_star (p_seq g_rws g_parameter) (b +++ e)%string m = Matched (b +++ e)%string m.
Proof.
  intros b e m B L. apply star_stop. unfold p_seq. destruct b as [|a b].
  - cbn [append]. apply line_end_first in L. destruct e as [|a e]; [reflexivity|]. destruct L as [->| ->]; reflexivity.
  - rewrite rws_ok; [|exact B|discriminate|now apply end_no_blank]. apply param_fails. apply line_end_first in L. destruct e as [|c e]; [exact I|]. destruct L as [->| ->]; reflexivity.
Qed.
Lemma param_no_blank : forall p t rest, param_text p t -> no_blank (t +++ rest).
Proof.
  intros p t rest [k v K V|k v K V]; apply is_name_good in K as (a & r & -> & A & _); cbn [append no_blank]; (destruct (c_wsp a) eqn:W; [|reflexivity]); apply wsp_spec in W as [->| ->]; discriminate A.
Qed.
Lemma params_no_blank : forall ps t rest, params_text ps t -> no_blank (t +++ rest).
Proof. intros ps t rest [p t' P|p t' b qs r P _ _ _]; [now apply param_no_blank with p|]. rewrite append_assoc. now apply param_no_blank with p. Qed.
Lemma params_ok : forall ps t b e, params_text ps t -> blanks b -> line_end e ->
  forall m, g_parameters (t +++ b +++ e)%string m = Matched (b +++ e)%string (with_params m ps).
Proof.
  intros ps t b e T B L.
  assert (K : forall m, p_seq g_parameter (p_star (p_seq g_rws g_parameter)) (t +++ b +++ e)%string m = Matched (b +++ e)%string (with_params m ps)).
  2: { exact K. }
  induction T as [p t P|p t b' ps r P B' NE T IH]; intros m; unfold p_seq at 1.
  - rewrite (param_ok p t _ _ P) by now apply blanks_end_stops. now apply no_more_params.
  - rewrite !append_assoc. rewrite (param_ok p t _ _ P).
    2: { destruct b' as [|a b']; [congruence|]. inversion B' as [|? ? H]; subst. destruct H as [->| ->]; reflexivity. }
    unfold p_seq in IH. specialize (IH (with_params m [p])). rewrite with_params_app in IH.
    destruct (g_parameter (r +++ b +++ e)%string (with_params m [p])) as [r1 m1| | |] eqn:G; try discriminate.
    rewrite (star_step _ _ _ r1 m1 sep_shrinks); [exact IH|].
    unfold p_seq. rewrite rws_ok; [exact G|exact B'|exact NE|now apply params_no_blank with ps].
Qed.

(** ** type and subtype *)
Definition ends (r : string) : Prop := stops r /\ match r with String a _ => a <> "+"%char | _ => True end.
Lemma join_more : forall x l, l <> [] -> join "+" (x :: l) = (x +++ "+" +++ join "+" l)%string.
Proof. intros x [|y l] H; [congruence|reflexivity]. Qed.
Lemma chop_ok : forall s a, chop (s +++ String a "")%string = s.
Proof.
  intros s a. unfold chop. rewrite length_append. cbn [String.length]. replace (String.length s + 1 - 1)%nat with (String.length s) by lia.
  generalize (String a "")%string as t. induction s as [|b s IH]; intros t; [destruct t; reflexivity|]. cbn. rewrite IH. reflexivity.
Qed.
Definition g_piece : rule media := p_seq g_name (p_one (Ascii.eqb "+")).
Lemma piece_shrinks : shrinks g_piece.
Proof. apply seq_shrinks; [apply name_shrinks|auto with peg]. Qed.
Lemma piece_ok : forall n rest m, is_name n -> g_piece (n +++ "+" +++ rest)%string m = Matched rest m.
Proof. intros n rest m N. unfold g_piece, p_seq. rewrite name_ok; [reflexivity|exact N|reflexivity]. Qed.
Lemma piece_fails : forall n rest m, is_name n -> ends rest -> g_piece (n +++ rest)%string m = Failed m.
Proof.
  intros n rest m N [St P]. unfold g_piece, p_seq. rewrite name_ok by assumption. destruct rest as [|a rest]; [reflexivity|]. cbn [p_one]. rewrite (proj2 (Ascii.eqb_neq "+" a)) by congruence. reflexivity.
Qed.
(** ns as the text it stands for: each name followed by + *)
Definition plus_all (ns : list string) : string := sconcat (map (fun n => n +++ "+")%string ns).
Lemma plus_all_join : forall ns, ns <> [] -> plus_all ns = (join "+" ns +++ "+")%string.
Proof.
  induction ns as [|n ns IH]; intros H; [congruence|]. unfold plus_all in *. cbn [map sconcat]. destruct ns as [|n' ns]; [cbn; apply append_nil_r|].
  rewrite IH by discriminate. rewrite (join_more n (n' :: ns)) by discriminate. rewrite !append_assoc. reflexivity.
Qed.
Lemma pieces_ok : forall ns x rest m, Forall is_name ns -> is_name x -> ends rest -> p_star g_piece (plus_all ns +++ x +++ rest)%string m = Matched (x +++ rest)%string m.
Proof.
  intros ns x rest m F X E. induction F as [|n ns N F IH].
  - cbn [plus_all map sconcat append]. apply star_stop. now apply piece_fails.
  - unfold plus_all in *. cbn [map sconcat]. rewrite !append_assoc. rewrite (star_step _ _ _ (sconcat (map (fun n => n +++ "+") ns) +++ x +++ rest)%string m piece_shrinks); [exact IH|]. now apply piece_ok.
Qed.
Lemma sub_ok : forall sub suf u rest m, sub_text sub suf u -> ends rest -> m_suffix m = ""%string ->
  g_subtype (u +++ rest)%string m = Matched rest (MT (m_type m) sub suf (m_params m)).
Proof.
  intros sub suf u rest m T E Z. destruct T as [n N|ns x NE F X]; unfold g_subtype; unfold p_sor at 1; unfold p_seq at 1; unfold g_prefix; unfold p_act at 1; unfold p_plus; fold g_piece; unfold p_seq at 1.
  - rewrite piece_fails by assumption. unfold p_act. rewrite name_ok; [|exact N|exact (proj1 E)]. rewrite consumed_app. unfold set_subtype. rewrite Z. reflexivity.
  - destruct ns as [|n ns]; [congruence|]. inversion F as [|? ? N F']; subst.
    assert (J : join "+" ((n :: ns) ++ [x]) = (plus_all (n :: ns) +++ x)%string).
    { clear. revert n. induction ns as [|n' ns IH]; intros n; [cbn; rewrite append_nil_r, append_assoc; reflexivity|].
      change ((n :: n' :: ns) ++ [x]) with (n :: ((n' :: ns) ++ [x])). rewrite (join_more n ((n' :: ns) ++ [x])) by discriminate. rewrite IH. unfold plus_all. cbn [map sconcat]. rewrite !append_assoc. reflexivity. }
    rewrite J. rewrite append_assoc. pose proof (pieces_ok ns x rest m F' X E) as P.
    assert (J2 : (plus_all (n :: ns) +++ x +++ rest = n +++ "+" +++ plus_all ns +++ x +++ rest)%string) by (unfold plus_all; cbn [map sconcat]; rewrite !append_assoc; reflexivity).
    rewrite J2 at 1. rewrite piece_ok by assumption. rewrite P.
    rewrite consumed_app. unfold g_suffix, p_act. rewrite name_ok; [|exact X|exact (proj1 E)]. rewrite consumed_app.
    rewrite plus_all_join by discriminate. rewrite chop_ok. reflexivity.
Qed.

(** ** the whole *)
Lemma name_no_blank : forall n rest, is_name n -> no_blank (n +++ rest).
Proof. intros n rest N. apply is_name_good in N as (a & r & -> & A & _). cbn [append no_blank]. destruct (c_wsp a) eqn:W; [|reflexivity]. apply wsp_spec in W as [->| ->]; discriminate A. Qed.
Lemma type_ok : forall t sub suf u rest, is_name t -> sub_text sub suf u -> ends rest ->
  p_seq (p_must g_type) (p_seq (p_must (p_one (Ascii.eqb "/"))) (p_must g_subtype)) (t +++ "/" +++ u +++ rest)%string m_empty = Matched rest (MT t sub suf []).
Proof.
  intros t sub suf u rest T Su E. unfold p_seq at 1. unfold p_must at 1. unfold g_type, p_act. rewrite name_ok; [|exact T|reflexivity]. rewrite consumed_app.
  unfold p_seq. unfold p_must at 1. cbn [append p_one]. change (Ascii.eqb "/" "/") with true. cbn match. unfold p_must. rewrite (sub_ok sub suf u rest _ Su E) by reflexivity. reflexivity.
Qed.
Lemma blanks_ends : forall b e, blanks b -> (e = ""%string \/ exists a r, e = String a r /\ (a = chr 10 \/ a = chr 13 \/ a = ";"%char)) -> ends (b +++ e).
Proof.
  intros [|a b] e B L; cbn [append].
  - destruct L as [->|(a & r & -> & [->|[->| ->]])]; split; try reflexivity; vm_compute; try exact I; intros H; discriminate H.
  - inversion B as [|? ? H]; subst. destruct H as [->| ->]; split; try reflexivity; vm_compute; intros H; discriminate H.
Qed.
Lemma eolf_ok : forall e m, line_end e -> exists r, g_eolf e m = Matched r m.
Proof. intros e m [|r|r]; cbn; eauto. Qed.
Lemma parse_ok : forall m s, media_text m s -> parse_media s = Some m.
Proof.
  intros m s [b1 t sub suf u b2 e B1 T Su B2 L|b1 t sub suf u b2 b3 ps p b4 e B1 T Su B2 B3 P B4 L]; unfold parse_media, p_try_catch, g_match; unfold p_seq at 1.
  - rewrite ows_ok; [|exact B1|now apply name_no_blank]. unfold p_seq at 1. unfold g_media. unfold p_seq at 1.
    assert (E : ends (b2 +++ e)). { apply blanks_ends; [exact B2|]. destruct L as [|r|r]; [now left| |]; right; eauto 10. }
    rewrite (type_ok t sub suf u _ T Su E).
    assert (O : p_opt (p_seq g_ows (p_seq (p_one (Ascii.eqb ";")) (p_seq g_ows g_parameters))) (b2 +++ e)%string (MT t sub suf []) = Matched (b2 +++ e)%string (MT t sub suf [])).
    { unfold p_opt. unfold p_seq at 1. rewrite ows_ok; [|exact B2|now apply end_no_blank]. unfold p_seq at 1. apply line_end_first in L. destruct e as [|a e]; [reflexivity|]. destruct L as [->| ->]; reflexivity. }
    rewrite O. unfold p_seq. rewrite ows_ok; [|exact B2|now apply end_no_blank]. destruct (eolf_ok e (MT t sub suf []) L) as [r ->]. reflexivity.
  - rewrite ows_ok; [|exact B1|now apply name_no_blank]. unfold p_seq at 1. unfold g_media. unfold p_seq at 1.
    rewrite (type_ok t sub suf u _ T Su); [|apply blanks_ends; [exact B2|]; right; eexists _, _; split; [reflexivity|auto]].
    assert (O : p_opt (p_seq g_ows (p_seq (p_one (Ascii.eqb ";")) (p_seq g_ows g_parameters))) (b2 +++ ";" +++ b3 +++ p +++ b4 +++ e)%string (MT t sub suf []) = Matched (b4 +++ e)%string (MT t sub suf ps)).
    { unfold p_opt. unfold p_seq at 1. rewrite ows_ok; [|exact B2|reflexivity]. unfold p_seq at 1. cbn [append p_one]. change (Ascii.eqb ";" ";") with true. cbn match. unfold p_seq at 1.
      rewrite ows_ok; [|exact B3|now apply params_no_blank with ps]. rewrite (params_ok ps p b4 e P B4 L). reflexivity. }
    rewrite O. unfold p_seq. rewrite ows_ok; [|exact B4|now apply end_no_blank]. destruct (eolf_ok e (MT t sub suf ps) L) as [r ->]. reflexivity.
Qed.

(** ** what parsing yields for any text *)
Lemma piece_inv : forall i m, (exists n rest, g_piece i m = Matched rest m /\ i = (n +++ "+" +++ rest)%string /\ is_name n) \/ g_piece i m = Failed m.
Proof.
  intros i m. unfold g_piece, p_seq. destruct (name_inv i m) as [(n & rest & -> & -> & N & St)| ->]; [|now right].
  destruct rest as [|a rest]; cbn [p_one]; [now right|]. destruct (Ascii.eqb_spec "+" a) as [<-|]; [|now right]. left. exists n, rest. auto.
Qed.
Lemma pieces_inv : forall k i m, (String.length i <= k)%nat -> exists ns rest, p_star g_piece i m = Matched rest m /\ i = (plus_all ns +++ rest)%string /\ Forall is_name ns.
Proof.
  induction k as [|k IH]; intros i m L; (destruct (piece_inv i m) as [(n & rest & E & I & N)|E]; [|exists [], i; split; [now apply star_stop|split; [reflexivity|constructor]]]).
  - pose proof (piece_shrinks _ _ _ _ E). lia.
  - pose proof (piece_shrinks _ _ _ _ E). destruct (IH rest m ltac:(lia)) as (ns & r & E2 & I2 & F). exists (n :: ns), r. split; [|split; [|now constructor]].
    + rewrite (star_step _ _ _ rest m piece_shrinks E). exact E2.
    + rewrite I, I2. unfold plus_all. cbn [map sconcat]. rewrite !append_assoc. reflexivity.
Qed.
Lemma sub_inv' : forall i m, m_suffix m = ""%string ->
  match g_subtype i m with
  | Matched rest m' => exists sub suf u, m' = MT (m_type m) sub suf (m_params m) /\ sub_text sub suf u
  | Failed m' => m' = m
  | _ => False
  end.
Proof.
  intros i m Z. unfold g_subtype. unfold p_sor at 1; unfold p_seq at 1; unfold g_prefix; unfold p_act at 1; unfold p_plus; fold g_piece; unfold p_seq at 1.
  destruct (piece_inv i m) as [(n & rest & E & I & N)|E]; rewrite E.
  - destruct (pieces_inv _ rest m (le_n _)) as (ns & r & E2 & I2 & F). rewrite E2.
    assert (C : consumed i r = plus_all (n :: ns)).
    { rewrite I, I2. replace (n +++ "+" +++ plus_all ns +++ r)%string with (plus_all (n :: ns) +++ r)%string by (unfold plus_all; cbn [map sconcat]; rewrite !append_assoc; reflexivity). apply consumed_app. }
    rewrite C. rewrite plus_all_join by discriminate. rewrite chop_ok. unfold g_suffix. unfold p_act at 1.
    destruct (name_inv r (set_subtype (join "+" (n :: ns)) m)) as [(x & r2 & E3 & I3 & X & St)|E3]; rewrite E3.
    + subst r. rewrite consumed_app. exists (join "+" (n :: ns)), x, (join "+" ((n :: ns) ++ [x])). split; [reflexivity|]. constructor; [discriminate|now constructor|exact X].
    + unfold p_act. destruct (name_inv i (set_subtype (join "+" (n :: ns)) m)) as [(x & r2 & E4 & I4 & X & St)|E4].
      * rewrite E4. exists x, ""%string, x. split; [|now constructor]. rewrite I4, consumed_app. unfold set_subtype. cbn. rewrite Z. reflexivity.
      * exfalso. rewrite I in E4. change (n +++ "+" +++ rest)%string with (n +++ (String "+" rest))%string in E4. rewrite name_ok in E4; [discriminate|exact N|reflexivity].
  - unfold p_act. destruct (name_inv i m) as [(x & r2 & E4 & I4 & X & St)|E4]; rewrite E4; [|reflexivity].
    exists x, ""%string, x. split; [|now constructor]. rewrite I4, consumed_app. unfold set_subtype. rewrite Z. reflexivity.
Qed.
Lemma sub_inv : forall i m, m_suffix m = ""%string ->
  (exists sub suf u rest, g_subtype i m = Matched rest (MT (m_type m) sub suf (m_params m)) /\ sub_text sub suf u) \/ g_subtype i m = Failed m.
Proof.
  intros i m Z. pose proof (sub_inv' i m Z) as H. destruct (g_subtype i m) as [r m'|m'|m'|]; try contradiction; [|subst; auto].
  destruct H as (sub & suf & u & -> & T). left. exists sub, suf, u, r. auto.
Qed.
Lemma param_inv' : forall i m, match g_parameter i m with
  | Matched r m' => exists k v, m' = with_params m [(k, v)] /\ is_name k
  | Failed m' | Raised m' => m' = m
  | Runaway => False
  end.
Proof.
  intros i m. unfold g_parameter, p_change. unfold p_seq at 1. unfold g_attribute at 1. unfold p_act at 1.
  destruct (name_inv i (""%string, ""%string)) as [(k & r & -> & -> & K & St)| ->]; [|reflexivity]. rewrite consumed_app. cbn [fst snd]. unfold p_seq.
  destruct r as [|a r]; cbn [p_one]; [reflexivity|]. destruct (Ascii.eqb "=" a); [|reflexivity]. unfold g_value, p_sor. unfold p_act at 1.
  destruct (quoted_state r (k, ""%string)) as [[r2 ->]|[-> | ->]]; [eexists k, _; split; [reflexivity|exact K]| |reflexivity].
  unfold p_act. destruct (name_inv r (k, ""%string)) as [(x & r2 & -> & -> & X & _)| ->]; [|reflexivity]. eexists k, _. split; [reflexivity|exact K].
Qed.
Lemma param_inv : forall i m, (exists k v r, g_parameter i m = Matched r (with_params m [(k, v)]) /\ is_name k) \/ g_parameter i m = Failed m \/ g_parameter i m = Raised m.
Proof.
  intros i m. pose proof (param_inv' i m) as H. destruct (g_parameter i m) as [r m'|m'|m'|]; try contradiction; subst; auto.
  destruct H as (k & v & -> & K). left. exists k, v, r. auto.
Qed.
Definition keys_ok (ps : list (string * string)) : Prop := Forall (fun p => is_name (fst p)) ps.
Definition ends_in (o : pres media) (P : media -> Prop) : Prop := match o with Matched _ m | Failed m | Raised m => P m | Runaway => False end.
Lemma params_star_inv : forall k i m, (String.length i < k)%nat -> ends_in (p_star_from k (p_seq g_rws g_parameter) i m) (fun m' => exists ps, m' = with_params m ps /\ keys_ok ps).
Proof.
  assert (Z : forall m, exists ps, m = with_params m ps /\ keys_ok ps) by (intros m; exists []; rewrite with_params_nil; split; [reflexivity|constructor]).
  induction k as [|k IH]; intros i m L; [lia|]. cbn [p_star_from]. destruct (p_seq g_rws g_parameter i m) as [r m1|m1|m1|] eqn:E.
  - pose proof (sep_shrinks _ _ _ _ E). unfold p_seq in E. destruct (rws_state i m) as [[r1 E1]|E1]; rewrite E1 in E; [|discriminate].
    destruct (param_inv r1 m) as [(key & v & r2 & E2 & K)|[E2|E2]]; rewrite E2 in E; try discriminate. injection E as -> <-.
    specialize (IH r (with_params m [(key, v)]) ltac:(lia)). unfold ends_in in *. destruct (p_star_from k _ r _); try exact IH;
      destruct IH as (ps & -> & F); exists ((key, v) :: ps); (split; [rewrite with_params_app; reflexivity|constructor; assumption]).
  - cbn. unfold p_seq in E. destruct (rws_state i m) as [[r1 E1]|E1]; rewrite E1 in E; [|injection E as <-; apply Z].
    destruct (param_inv r1 m) as [(key & v & r2 & E2 & K)|[E2|E2]]; rewrite E2 in E; try discriminate. injection E as <-. apply Z.
  - cbn. unfold p_seq in E. destruct (rws_state i m) as [[r1 E1]|E1]; rewrite E1 in E; [|discriminate].
    destruct (param_inv r1 m) as [(key & v & r2 & E2 & K)|[E2|E2]]; rewrite E2 in E; try discriminate. injection E as <-. apply Z.
  - exfalso. unfold p_seq in E. destruct (rws_state i m) as [[r1 E1]|E1]; rewrite E1 in E; [|discriminate].
    destruct (param_inv r1 m) as [(key & v & r2 & E2 & K)|[E2|E2]]; rewrite E2 in E; discriminate.
Qed.
Lemma params_inv : forall i m, ends_in (g_parameters i m) (fun m' => exists ps, m' = with_params m ps /\ keys_ok ps).
Proof.
  intros i m. assert (Z : exists ps, m = with_params m ps /\ keys_ok ps) by (exists []; rewrite with_params_nil; split; [reflexivity|constructor]).
  unfold g_parameters, p_list. unfold p_seq at 1. destruct (param_inv i m) as [(key & v & r2 & -> & K)|[->| ->]]; [|exact Z|exact Z].
  pose proof (params_star_inv (S (String.length r2)) r2 (with_params m [(key, v)]) ltac:(lia)) as IH. unfold p_star.
  unfold ends_in in *. destruct (p_star_from _ _ r2 _); try exact IH;
      destruct IH as (ps & -> & F); exists ((key, v) :: ps); (split; [rewrite with_params_app; reflexivity|constructor; assumption]).
Qed.
(** nothing; a type only; type, subtype and parameters *)
Definition parsed (m : media) : Prop :=
  m = m_empty \/ (exists t, is_name t /\ m = MT t "" "" []) \/
  (exists t sub suf u ps, is_name t /\ sub_text sub suf u /\ keys_ok ps /\ m = MT t sub suf ps).
Lemma parse_inv : forall s, exists m, parse_media s = Some m /\ parsed m.
Proof.
  intros s. unfold parse_media, p_try_catch, g_match. unfold p_seq at 1. destruct (ows_some s m_empty) as (b & i & -> & _). unfold p_seq at 1. unfold g_media. unfold p_seq at 1 2.
  unfold p_must at 1. unfold g_type. unfold p_act at 1. destruct (name_inv i m_empty) as [(t & r & -> & -> & T & _)| ->]; [|exists m_empty; split; [reflexivity|now left]].
  rewrite consumed_app. unfold p_seq at 1. unfold p_must at 1. destruct (p_one (Ascii.eqb "/") r (set_type t m_empty)) as [r1 m1|m1|m1|] eqn:E1.
  2-4: destruct r as [|a r]; cbn [p_one] in E1; try discriminate; try (destruct (Ascii.eqb "/" a); discriminate E1).
  2: { injection E1 as <-. exists (MT t "" "" []). split; [reflexivity|]. right. left. exists t. auto. }
  2: { destruct (Ascii.eqb "/" a); [discriminate|]. injection E1 as <-. exists (MT t "" "" []). split; [reflexivity|]. right. left. exists t. auto. }
  assert (m1 = set_type t m_empty) as ->. { destruct r as [|a r]; cbn [p_one] in E1; [discriminate|]. destruct (Ascii.eqb "/" a); [|discriminate]. now injection E1. }
  unfold p_must. destruct (sub_inv r1 (set_type t m_empty) eq_refl) as [(sub & suf & u & r2 & -> & Su)| ->].
  2: { exists (MT t "" "" []). split; [reflexivity|]. right. left. exists t. auto. }
  cbn [set_type m_type m_params m_empty].
  assert (O : ends_in (p_opt (p_seq g_ows (p_seq (p_one (Ascii.eqb ";")) (p_seq g_ows g_parameters))) r2 (MT t sub suf [])) (fun m' => exists ps, m' = MT t sub suf ps /\ keys_ok ps)).
  { assert (Z : exists ps, MT t sub suf [] = MT t sub suf ps /\ keys_ok ps) by (exists []; split; [reflexivity|constructor]).
    unfold p_opt. unfold p_seq at 1. destruct (ows_some r2 (MT t sub suf [])) as (b2 & r3 & -> & _). unfold p_seq at 1. destruct r3 as [|a r3]; cbn [p_one]; [exact Z|].
    destruct (Ascii.eqb ";" a); [|exact Z]. unfold p_seq. destruct (ows_some r3 (MT t sub suf [])) as (b3 & r4 & -> & _).
    pose proof (params_inv r4 (MT t sub suf [])) as P. destruct (g_parameters r4 (MT t sub suf [])); exact P. }
  destruct (p_opt _ r2 (MT t sub suf [])) as [r3 m3|m3|m3|]; cbn in O; [|destruct O as (ps & -> & F)..|contradiction].
  - destruct O as (ps & -> & F). unfold p_seq. destruct (ows_some r3 (MT t sub suf ps)) as (b2 & r4 & -> & _).
    assert (g_eolf r4 (MT t sub suf ps) = Failed (MT t sub suf ps) \/ exists r5, g_eolf r4 (MT t sub suf ps) = Matched r5 (MT t sub suf ps)) as G.
    { unfold g_eolf. destruct r4 as [|a r4]; [eauto|]. destruct (Ascii.eqb a (chr 10)); [eauto|]. destruct r4 as [|c r4]; [auto|]. destruct (_ && _)%bool; eauto. }
    exists (MT t sub suf ps). split; [|right; right; exists t, sub, suf, u, ps; auto]. destruct G as [->|[r5 ->]]; reflexivity.
  - exists (MT t sub suf ps). split; [reflexivity|]. right; right; exists t, sub, suf, u, ps; auto.
  - exists (MT t sub suf ps). split; [reflexivity|]. right; right; exists t, sub, suf, u, ps; auto.
Qed.

(** ** printing *)
Lemma name_not_empty : forall n, is_name n -> n <> ""%string.
Proof. intros n (a & r & -> & _). discriminate. Qed.
Lemma sub_not_empty : forall sub suf u, sub_text sub suf u -> sub <> ""%string.
Proof.
  intros sub suf u [n N|ns x NE F X]; [now apply name_not_empty|]. destruct ns as [|n ns]; [congruence|]. inversion F as [|? ? (a & r & -> & _) F']; subst. destruct ns as [|n' ns]; discriminate.
Qed.
Lemma sub_unique : forall sub suf u, sub_text sub suf u -> u = (sub +++ match suf with EmptyString => "" | x => "+" +++ x end)%string.
Proof.
  intros sub suf u [n N|ns x NE F X]; [rewrite append_nil_r; reflexivity|].
  assert (J : join "+" (ns ++ [x]) = (join "+" ns +++ "+" +++ x)%string).
  { clear - NE. induction ns as [|n ns IH]; [congruence|]. destruct ns as [|n' ns]; [reflexivity|]. change ((n :: n' :: ns) ++ [x]) with (n :: ((n' :: ns) ++ [x])).
    rewrite (join_more n ((n' :: ns) ++ [x])) by discriminate. rewrite IH by discriminate. rewrite (join_more n (n' :: ns)) by discriminate. rewrite !append_assoc. reflexivity. }
  rewrite J. apply is_name_good in X as (a & r & -> & _). reflexivity.
Qed.
Lemma name_unquoted : forall v, is_name v -> s8_value v = v.
Proof.
  intros v V. apply is_name_good in V as (a & r & -> & A & F & _). unfold s8_value.
  assert (K : existsb needs_quotes (list_ascii_of_string (String a r)) = false); [|rewrite K; reflexivity].
  assert (C : forall c, name_char c = true -> needs_quotes c = false).
  { intros c. destruct c as [b0 b1 b2 b3 b4 b5 b6 b7]. destruct b0, b1, b2, b3, b4, b5, b6, b7; vm_compute; intros H; reflexivity || discriminate H. }
  cbn [list_ascii_of_string existsb]. rewrite (C a) by (unfold name_char; rewrite A; reflexivity). cbn [orb].
  induction (list_ascii_of_string r) as [|c l IH]; [reflexivity|]. inversion F; subst. cbn. rewrite (C c) by assumption. now apply IH.
Qed.
Lemma value_quoted : forall v, Exists (fun c => needs_quotes c = true) (list_ascii_of_string v) -> every (fun c => c <> "\"%char /\ c <> """"%char /\ c <> chr 13) v ->
  s8_value v = String """" (v +++ String """" "") /\ quotable v.
Proof.
  intros v E F. split.
  - unfold s8_value. assert (K : existsb needs_quotes (list_ascii_of_string v) = true).
    { apply existsb_exists. apply Exists_exists in E. exact E. }
    rewrite K. unfold s8_quoted. change quote with """"%char. f_equal. f_equal.
    clear E K. induction v as [|a v IH]; [reflexivity|]. inversion F as [|? ? (N1 & N2 & N3) F']; subst. cbn [s8_qtext].
    rewrite (proj2 (Ascii.eqb_neq a "\")) by assumption. rewrite (proj2 (Ascii.eqb_neq a quote)) by assumption. rewrite (proj2 (Ascii.eqb_neq a (chr 13))) by assumption. cbn. rewrite IH by assumption. reflexivity.
  - clear E. induction v as [|a v IH]; [constructor|]. inversion F as [|? ? (N1 & N2 & N3) F']; subst. apply q_char; auto.
Qed.
Lemma print_ok : forall m, printable m -> media_text m (print_media m).
Proof.
  intros [t sub suf ps] [[T [u Su]] P]. cbn [m_type m_subtype m_suffix m_params] in *. pose proof (sub_unique _ _ _ Su) as U. pose proof (name_not_empty t T). pose proof (sub_not_empty _ _ _ Su).
  assert (PM : print_media (MT t sub suf ps) = (t +++ "/" +++ u +++ sconcat (map print_param ps))%string).
  { unfold print_media. cbn [m_type m_subtype m_suffix m_params]. rewrite U. destruct t as [|a t]; [congruence|]. destruct sub as [|b sub]; [congruence|]. rewrite (append_assoc (String b sub)). destruct suf; reflexivity. }
  rewrite PM. destruct P as [->|(k & v & -> & K & V)].
  - cbn [map sconcat]. exact (text_plain "" t sub suf u "" "" ltac:(constructor) T Su ltac:(constructor) ltac:(constructor)).
  - cbn [map sconcat]. unfold print_param. cbn [fst snd]. rewrite append_nil_r. pose proof (name_not_empty k K). destruct k as [|a k]; [congruence|].
    assert (PT : param_text (String a k, v) (String a k +++ "=" +++ s8_value v)).
    { destruct V as [V|[V1 V2]]; [rewrite name_unquoted by assumption; now constructor|]. destruct (value_quoted v V1 V2) as [-> Q]. now constructor. }
    pose proof (text_params "" t sub suf u "" " " [(String a k, v)] (String a k +++ "=" +++ s8_value v) "" "" ltac:(constructor) T Su ltac:(constructor)) as M.
    rewrite !append_nil_r in M. apply M; try constructor; auto; constructor.
Qed.

(** ** letters *)
Lemma lower_spec : forall a b, Ascii.eqb (lower a) (lower b) = true <-> same_letter a b.
Proof.
  intros a b. unfold lower, same_letter. pose proof (byte_lt a). pose proof (byte_lt b). rewrite Ascii.eqb_eq.
  destruct (c_range 65 90 a) eqn:A; destruct (c_range 65 90 b) eqn:B;
    rewrite ?c_range_spec in *; (try (assert (NA : ~ (65 <= byte a <= 90)%N) by (rewrite <- c_range_spec; congruence))); (try (assert (NB : ~ (65 <= byte b <= 90)%N) by (rewrite <- c_range_spec; congruence))).
  - split; [|intros [->|[[_ E]|[_ E]]]; [reflexivity|lia|lia]]. intros E. left. apply byte_inj. apply (f_equal byte) in E. rewrite !byte_chr in E by lia. lia.
  - split.
    + intros E. right. left. split; [exact A|]. apply (f_equal byte) in E. rewrite byte_chr in E by lia. lia.
    + intros [->|[[_ E]|[E _]]]; [contradiction| |contradiction]. apply byte_inj. rewrite byte_chr by lia. lia.
  - split.
    + intros E. right. right. split; [exact B|]. apply (f_equal byte) in E. rewrite byte_chr in E by lia. lia.
    + intros [->|[[E _]|[_ E]]]; [contradiction|contradiction|]. apply byte_inj. rewrite byte_chr by lia. lia.
  - split; [now left|]. intros [->|[[E _]|[E _]]]; [reflexivity|contradiction|contradiction].
Qed.
Lemma iequal_spec : forall a b, iequal a b = true <-> same_ignoring_case a b.
Proof.
  unfold same_ignoring_case. induction a as [|x a IH]; intros [|y b]; cbn [iequal list_ascii_of_string]; (split; intros H; try discriminate; try (inversion H; fail); try constructor).
  - apply andb_true_iff in H as [H1 H2]. now apply lower_spec.
  - apply andb_true_iff in H as [H1 H2]. now apply IH.
  - inversion H; subst. apply andb_true_iff. split; [now apply lower_spec|now apply IH].
Qed.
