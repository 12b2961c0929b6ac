From Verif Require Import Base Peg Utf8Spec MediaType MediaSpec MediaProofs UriTemplate UriSpec UriChars.
Local Open Scope string_scope.

Ltac conc A := unfold letter, digit in A;
  repeat match type of A with context [byte (Ascii ?a ?b ?c ?d ?e ?f ?g ?h)] =>
    let v := eval vm_compute in (byte (Ascii a b c d e f g h)) in change (byte (Ascii a b c d e f g h)) with v in A end; lia.

(** ** Names of variables *)
Section Names.
  Context {S : Type}.
  Implicit Types s : S.
  Lemma varchar_ok : forall t r s, UriSpec.name_char t -> u_varchar (t +++ r) s = Matched r s.
  Proof.
    intros t r s [t' T|a A]; unfold u_varchar, p_sor; [now rewrite pct_ok|]. cbn [append].
    rewrite pct_no by (intros ->; destruct A as [A|[A|A]]; [conc A|conc A|discriminate]).
    unfold is_char, p_one. destruct A as [A|[A| ->]].
    - apply letter_spec in A. now rewrite A.
    - destruct (c_alpha a); [reflexivity|]. apply digit_spec in A. now rewrite A.
    - reflexivity.
  Qed.
  Lemma varchar_sound : forall i s, (exists t r, UriSpec.name_char t /\ i = t +++ r /\ u_varchar i s = Matched r s) \/ u_varchar i s = Failed s.
  Proof.
    intros i s. unfold u_varchar, p_sor. destruct (pct_sound i s) as [(t & r & T & -> & E)|E]; rewrite E; [left; exists t, r; repeat split; now constructor|].
    destruct i as [|a i]; [now right|]. unfold is_char, p_one.
    destruct (c_alpha a) eqn:A; [left; exists (String a ""), i; repeat split; apply name_plain; left; now apply letter_spec|].
    destruct (c_digit a) eqn:B; [left; exists (String a ""), i; repeat split; apply name_plain; right; left; now apply digit_spec|].
    destruct (Ascii.eqb_spec "_" a) as [<-|]; [|now right]. left. exists "_", i. repeat split. apply name_plain. auto.
  Qed.
  Lemma dot_ok : forall r s, ~ starts "." r -> u_dot (String "." r) s = Matched r s.
  Proof. intros r s H. unfold u_dot, p_try_catch, p_if_must, p_seq, p_must, p_not_at. rewrite char_ok, char_no by exact H. reflexivity. Qed.
  Lemma dot_sound : forall i s, (exists r, i = String "." r /\ ~ starts "." r /\ u_dot i s = Matched r s) \/ u_dot i s = Failed s.
  Proof.
    intros i s. unfold u_dot, p_try_catch, p_if_must, p_seq, p_must, p_not_at, is_char, p_one. destruct i as [|a i]; [now right|].
    destruct (Ascii.eqb_spec "." a) as [<-|]; [|now right].
    destruct i as [|b i]; [left; exists ""; repeat split; intros [r H]; discriminate|]. destruct (Ascii.eqb_spec "." b) as [<-|N]; [now right|].
    left. exists (String b i). repeat split. intros [r [= -> _]]. congruence.
  Qed.
  Lemma dot_no : forall i s, ~ starts "." i -> u_dot i s = Failed s.
  Proof. intros i s H. unfold u_dot, p_try_catch, p_if_must, p_seq. now rewrite char_no. Qed.
  Lemma name_char_head : forall t, UriSpec.name_char t -> exists a r, t = String a r /\ a <> "."%char /\ a <> ","%char /\ a <> "}"%char.
  Proof.
    intros t [t' (a & b & _ & _ & ->)|a A]; [eexists _, _; repeat split; discriminate|].
    exists a, "". repeat split; intros ->; destruct A as [A|[A|A]]; first [discriminate A|conc A].
  Qed.
  Definition name_one : rule S := p_sor u_dot u_varchar.
  Lemma name_shrinks : shrinks name_one.
  Proof.
    intros i s r s' E. unfold name_one, p_sor in E. destruct (dot_sound i s) as [(r1 & -> & _ & F)|F]; rewrite F in E; [injection E as <- <-; cbn; lia|].
    destruct (varchar_sound i s) as [(t & r1 & T & -> & G)|G]; rewrite G in E; [|discriminate]. injection E as <- <-.
    apply name_char_head in T as (a & q & -> & _). rewrite length_append. cbn. lia.
  Qed.
  (** where a name ends *)
  Definition name_stops (i : string) : Prop := ~ starts "." i /\ forall s, u_varchar i s = Failed s.
  Lemma rest_ok : forall t r s, name_rest t -> name_stops r -> p_star name_one (t +++ r) s = Matched r s.
  Proof.
    intros t r s H [K1 K2]. induction H as [|c t C H IH|t N H IH].
    - apply star_stop. change ("" +++ r) with r. unfold name_one, p_sor. rewrite dot_no by exact K1. apply K2.
    - rewrite append_assoc. rewrite (star_step _ _ s (t +++ r) s); [exact IH|exact name_shrinks|]. unfold name_one, p_sor.
      rewrite dot_no; [now apply varchar_ok|]. apply name_char_head in C as (a & q & -> & D & _). intros [x [= -> _]]. congruence.
    - cbn [append]. rewrite (star_step _ _ s (t +++ r) s); [exact IH|exact name_shrinks|]. unfold name_one, p_sor.
      rewrite dot_ok; [reflexivity|]. destruct t as [|a t]; [exact K1|]. intros [x [= -> _]]. apply N. now exists t.
  Qed.
  Lemma rest_sound : forall n i s, (String.length i < n)%nat -> exists t r, name_rest t /\ i = t +++ r /\ p_star name_one i s = Matched r s /\ name_one r s = Failed s.
  Proof.
    induction n as [|n IH]; intros i s H; [lia|]. destruct (name_one i s) as [r s'| | |] eqn:E.
    - pose proof (name_shrinks _ _ _ _ E) as L. pose proof E as E'. unfold name_one, p_sor in E.
      destruct (dot_sound i s) as [(r1 & -> & N & F)|F]; rewrite F in E.
      + injection E as <- <-. destruct (IH r1 s ltac:(lia)) as (t & r & T & -> & P & Q). exists (String "." t), r. repeat split; [|rewrite (star_step _ _ _ _ _ name_shrinks E'); exact P|exact Q].
        constructor; [|exact T]. intros [x ->]. apply N. now exists (x +++ r).
      + destruct (varchar_sound i s) as [(t & r1 & T & -> & G)|G]; rewrite G in E; [|discriminate]. injection E as <- <-.
        destruct (IH r1 s ltac:(lia)) as (u & r & U & -> & P & Q). exists (t +++ u), r. rewrite append_assoc.
        repeat split; [now constructor|rewrite (star_step _ _ _ _ _ name_shrinks E'); exact P|exact Q].
    - assert (s0 = s) as ->.
      { unfold name_one, p_sor in E. destruct (dot_sound i s) as [(r1 & _ & _ & F)|F]; rewrite F in E; [discriminate|].
        destruct (varchar_sound i s) as [(t & r1 & _ & _ & G)|G]; rewrite G in E; [discriminate|now injection E]. }
      exists "", i. repeat split; [constructor| |exact E]. now apply star_stop.
    - exfalso. unfold name_one, p_sor in E. destruct (dot_sound i s) as [(r1 & _ & _ & F)|F]; rewrite F in E; [discriminate|].
      destruct (varchar_sound i s) as [(t & r1 & _ & _ & G)|G]; rewrite G in E; discriminate.
    - exfalso. unfold name_one, p_sor in E. destruct (dot_sound i s) as [(r1 & _ & _ & F)|F]; rewrite F in E; [discriminate|].
      destruct (varchar_sound i s) as [(t & r1 & _ & _ & G)|G]; rewrite G in E; discriminate.
  Qed.
  Lemma varname_ok : forall n r s, var_name n -> name_stops r -> u_varname (n +++ r) s = Matched r s.
  Proof. intros n r s (c & t & C & T & ->) K. unfold u_varname, p_seq. rewrite append_assoc, varchar_ok by exact C. now apply rest_ok. Qed.
  Lemma varname_sound : forall i s, (exists n r, var_name n /\ i = n +++ r /\ u_varname i s = Matched r s /\ name_one r s = Failed s) \/ (u_varname i s = Failed s /\ u_varchar i s = Failed s).
  Proof.
    intros i s. unfold u_varname, p_seq. destruct (varchar_sound i s) as [(t & r & T & -> & E)|E]; rewrite E; [|now right].
    destruct (rest_sound _ r s (Nat.lt_succ_diag_r _)) as (u & r' & U & -> & P & Q). left. exists (t +++ u), r'. rewrite append_assoc. repeat split; [|exact P|exact Q].
    now exists t, u.
  Qed.
  (** *** the length of a prefix *)
  Lemma digits_ok : forall n d r s, every digit d -> (String.length d <= n)%nat -> (forall a q, r = String a q -> ~ digit a) -> p_rep_opt n (p_one c_digit) (d +++ r) s = Matched r s.
  Proof.
    induction n as [|n IH]; intros [|a d] r s D L N; cbn [String.length] in L; try lia; cbn [p_rep_opt append].
    - reflexivity.
    - destruct r as [|b q]; [reflexivity|]. cbn. destruct (c_digit b) eqn:B; [|reflexivity]. apply digit_spec in B. now destruct (N b q eq_refl).
    - inversion D as [|? ? A D']; subst. unfold p_one at 1. apply digit_spec in A. rewrite A. apply IH; [exact D'|lia|exact N].
  Qed.
  Lemma digits_sound : forall n i s, exists d r, every digit d /\ (String.length d <= n)%nat /\ i = d +++ r /\ p_rep_opt n (p_one c_digit) i s = Matched r s.
  Proof.
    induction n as [|n IH]; intros i s; cbn [p_rep_opt]; [exists "", i; repeat split; [constructor|cbn; lia]|].
    destruct i as [|a i]; cbn [p_one]; [exists "", ""; repeat split; [constructor|cbn; lia]|]. unfold p_one at 1. destruct (c_digit a) eqn:A; [|exists "", (String a i); repeat split; [constructor|cbn; lia]].
    destruct (IH i s) as (d & r & D & L & -> & E). exists (String a d), r. repeat split; [constructor; [now apply digit_spec|exact D]|cbn; lia|exact E].
  Qed.
  Lemma prefix_ok : forall d r s, every digit d -> (String.length d <= 3)%nat -> (forall a q, r = String a q -> ~ digit a) -> u_prefix_value (d +++ r) s = Matched r s.
  Proof.
    intros d r s D L N. unfold u_prefix_value, p_rep_max, p_seq. rewrite digits_ok by assumption. unfold p_not_at. destruct r as [|a q]; [reflexivity|]. cbn.
    destruct (c_digit a) eqn:A; [|reflexivity]. apply digit_spec in A. now destruct (N a q eq_refl).
  Qed.
  Lemma prefix_sound : forall i s, (exists d r, every digit d /\ (String.length d <= 3)%nat /\ i = d +++ r /\ u_prefix_value i s = Matched r s) \/ u_prefix_value i s = Failed s.
  Proof.
    intros i s. unfold u_prefix_value, p_rep_max, p_seq. destruct (digits_sound 3 i s) as (d & r & D & L & -> & E). rewrite E. unfold p_not_at.
    destruct r as [|a q]; cbn; [left; exists d, ""; auto|]. destruct (c_digit a); [now right|left; exists d, (String a q); auto].
  Qed.
End Names.
Lemma digits_number : forall d acc, digits d acc = fold_left (fun n a => (10 * n + (byte a - 48))%N) (list_ascii_of_string d) acc.
Proof. induction d as [|a d IH]; intros acc; cbn [digits list_ascii_of_string fold_left]; [reflexivity|]. rewrite IH. f_equal. lia. Qed.

(** ** Items *)
Definition ends (i : string) : Prop := i = "" \/ starts "," i \/ starts "}" i.
Definition clean (s : string) : Prop := every (fun c => c <> ","%char /\ c <> "}"%char) s.
Lemma ends_name_stops : forall {S} i, ends i -> @name_stops S i.
Proof. intros S i [->|[[r ->]|[r ->]]]; (split; [intros [x H]; discriminate|reflexivity]). Qed.
Lemma ends_no_digit : forall i, ends i -> forall a q, i = String a q -> ~ digit a.
Proof. intros i [->|[[r ->]|[r ->]]] a q [= <- <-] D; conc D. Qed.
Lemma after_name : forall {S} c i, (c = ":" \/ c = "*")%char -> @name_stops S (String c i).
Proof. intros S c i [-> | ->]; (split; [intros [x H]; discriminate|reflexivity]). Qed.
Lemma varspec_ok : forall v t r, var_spec v t -> ends r -> g_varspec (t +++ r) (Var "" 0 false) = Matched r v.
Proof.
  intros v t r [n N|n d N D L|n N] K; unfold g_varspec, p_seq, g_varname, p_act.
  - rewrite varname_ok by (try apply ends_name_stops; assumption). rewrite consumed_app. cbn [v_prefix v_explode]. unfold p_opt, p_sor, g_prefix, g_explode, p_seq, p_act.
    rewrite !char_no; [reflexivity| |]; intros [x ->]; destruct K as [K|[[y K]|[y K]]]; discriminate.
  - rewrite !append_assoc, varname_ok by (try apply after_name; auto). rewrite consumed_app. cbn [v_prefix v_explode]. unfold p_opt, p_sor, g_prefix, p_seq, p_act.
    change ((":" +++ d +++ r)) with (String ":" (d +++ r)). rewrite char_ok, prefix_ok by (try apply ends_no_digit; assumption). rewrite consumed_app. cbn [v_name v_explode].
    unfold number. now rewrite digits_number.
  - rewrite !append_assoc, varname_ok by (try apply after_name; auto). rewrite consumed_app. cbn [v_prefix v_explode]. unfold p_opt, p_sor, g_prefix, p_seq, p_act.
    change ("*" +++ r) with (String "*" r). rewrite char_no by (intros [x H]; discriminate). unfold g_explode, p_act. rewrite char_ok. reflexivity.
Qed.
Lemma varspec_sound : forall i, (exists v t r, var_spec v t /\ i = t +++ r /\ g_varspec i (Var "" 0 false) = Matched r v) \/ g_varspec i (Var "" 0 false) = Failed (Var "" 0 false).
Proof.
  intros i. unfold g_varspec, p_seq, g_varname, p_act. destruct (varname_sound i (Var "" 0 false)) as [(n & r & N & -> & E & _)|[E _]]; rewrite E; [left|now right].
  rewrite consumed_app. cbn [v_prefix v_explode]. unfold p_opt, p_sor, g_prefix, g_explode, p_seq, p_act.
  destruct r as [|a r]; [exists (Var n 0 false), n, ""; repeat split; now constructor|].
  destruct (Ascii.eqb_spec ":" a) as [<-|A].
  - rewrite char_ok. destruct (prefix_sound r (Var n 0 false)) as [(d & q & D & L & -> & F)|F]; rewrite F.
    + rewrite consumed_app. cbn [v_name v_explode]. exists (Var n (number d) false), (n +++ ":" +++ d), q.
      repeat split; [now constructor|now rewrite !append_assoc|unfold number; now rewrite digits_number].
    + rewrite char_no by (intros [x H]; discriminate). exists (Var n 0 false), n, (String ":" r). repeat split. now constructor.
  - rewrite (char_no ":") by (intros [x [= X _]]; congruence). destruct (Ascii.eqb_spec "*" a) as [<-|B].
    + rewrite char_ok. exists (Var n 0 true), (n +++ "*"), r. repeat split; [now constructor|now rewrite append_assoc].
    + rewrite char_no by (intros [x [= X _]]; congruence). exists (Var n 0 false), n, (String a r). repeat split. now constructor.
Qed.
Lemma every_app : forall P a b, every P (a +++ b) <-> every P a /\ every P b.
Proof. intros P a b. unfold every. induction a as [|x a IH]; cbn; [intuition|]. rewrite !Forall_cons_iff. tauto. Qed.
Lemma clean_sure : forall a r, (letter a \/ digit a \/ In a (list_ascii_of_string "_.:*%")) -> clean r -> clean (String a r).
Proof.
  intros a r A R. constructor; [|exact R].
  split; intros ->; (destruct A as [A|[A|A]]; [conc A|conc A|cbn in A; intuition discriminate]).
Qed.
Lemma hexadecimal_sure : forall a, hexadecimal a -> letter a \/ digit a.
Proof. intros a H. unfold hexadecimal in H. cbn in H. unfold letter, digit. intuition (subst a; (left; vm_compute; intuition discriminate) || (right; vm_compute; intuition discriminate) || idtac). Qed.
Lemma name_char_clean : forall t r, UriSpec.name_char t -> clean r -> clean (t +++ r).
Proof.
  intros t r [t' (a & b & A & B & ->)|a A] R; cbn [append].
  - apply hexadecimal_sure in A, B. apply clean_sure; [cbn; tauto|]. apply clean_sure; [tauto|]. apply clean_sure; tauto.
  - apply clean_sure; [|exact R]. destruct A as [A|[A| ->]]; cbn; tauto.
Qed.
Lemma rest_clean : forall t, name_rest t -> clean t.
Proof. intros t H. induction H; [constructor|now apply name_char_clean|apply clean_sure; [cbn; tauto|assumption]]. Qed.
Lemma var_name_clean : forall n, var_name n -> clean n.
Proof. intros n (c & r & C & R & ->). apply name_char_clean; [exact C|now apply rest_clean]. Qed.
Lemma var_spec_clean : forall v t, var_spec v t -> clean t.
Proof.
  intros v t [n N|n d N D _|n N].
  - now apply var_name_clean.
  - apply every_app. split; [now apply var_name_clean|]. apply (clean_sure ":" d); [cbn; tauto|].
    unfold clean, every. eapply Forall_impl; [|exact D]. intros a A. split; intros ->; conc A.
  - apply every_app. split; [now apply var_name_clean|]. apply clean_sure; [cbn; tauto|constructor].
Qed.
Lemma cut_unique : forall a b r r', clean a -> clean b -> ends r -> ends r' -> a +++ r = b +++ r' -> a = b /\ r = r'.
Proof.
  induction a as [|x a IH]; intros [|y b] r r' A B R R' E; cbn [append] in E.
  - now split.
  - exfalso. subst r. inversion B as [|? ? [B1 B2] _]; subst. destruct R as [Z|[[q Z]|[q Z]]]; [discriminate|injection Z as Z _|injection Z as Z _]; congruence.
  - exfalso. subst r'. inversion A as [|? ? [B1 B2] _]; subst. destruct R' as [Z|[[q Z]|[q Z]]]; [discriminate|injection Z as Z _|injection Z as Z _]; congruence.
  - injection E as <- E. inversion A; inversion B; subst. destruct (IH b r r') as [-> ->]; auto.
Qed.
Section Terms.
  Context {S : Type}.
  Implicit Types s : S.
  Lemma term_ok : forall i s, ends i -> p_at term i s = Matched i s /\ p_not_at term i s = Failed s.
  Proof. intros i s [->|[[r ->]|[r ->]]]; now split. Qed.
  Lemma term_no : forall i s, ~ ends i -> p_at term i s = Failed s /\ p_not_at term i s = Matched i s.
  Proof.
    intros i s H. unfold p_at, p_not_at, term, p_sor, u_close. destruct i as [|a i]; [destruct H; now left|].
    rewrite !char_no by (intros [r E]; rewrite E in H; apply H; unfold ends, starts; eauto). now split.
  Qed.
  Lemma skip_shrinks : forall (t : rule S), shrinks (p_seq (p_not_at t) p_any).
  Proof. intros t. apply seq_shrinks2; [apply not_at_keeps|apply one_shrinks]. Qed.
  Lemma skip_ok : forall p r s, clean p -> ends r -> p_star (p_seq (p_not_at term) p_any) (p +++ r) s = Matched r s.
  Proof.
    induction p as [|a p IH]; intros r s C K.
    - apply star_stop. change ("" +++ r) with r. unfold p_seq. now rewrite (proj2 (term_ok r s K)).
    - cbn [append]. inversion C as [|? ? [A B] C']; subst.
      assert (E : ~ ends (String a (p +++ r))) by (intros [X|[[x [= X _]]|[x [= X _]]]]; congruence).
      rewrite (star_step _ _ s (p +++ r) s); [now apply IH|apply skip_shrinks|]. unfold p_seq. now rewrite (proj2 (term_no _ s E)).
  Qed.
  Lemma r_skip_ok : forall p r s, clean p -> ends r -> r_skip term (p +++ r) s = Matched r s.
  Proof.
    intros [|a p] r s C K.
    - change ("" +++ r) with r. unfold r_skip, p_sor, p_plus, p_seq. now rewrite (proj2 (term_ok r s K)).
    - cbn [append]. inversion C as [|? ? [A B] C']; subst.
      assert (E : ~ ends (String a (p +++ r))) by (intros [X|[[x [= X _]]|[x [= X _]]]]; congruence).
      unfold r_skip, p_sor, p_plus. unfold p_seq at 1. unfold p_seq at 1. rewrite (proj2 (term_no _ s E)). unfold p_any, p_one. cbv iota.
      pose proof (skip_ok p r s C' K) as Q. unfold p_any, p_one in Q. now rewrite Q.
  Qed.
End Terms.
Lemma item_good : forall v p r x, var_spec v p -> ends r -> g_item (p +++ r) x = Matched r (add_item (GoodItem v) x).
Proof.
  intros v p r x V K. unfold g_item, p_change, r_item, p_seq, p_must. rewrite (varspec_ok v p r V K). now rewrite (proj1 (term_ok r v K)).
Qed.
Lemma item_bad : forall p r x, (forall v, ~ var_spec v p) -> clean p -> ends r -> g_item (p +++ r) x = Raised x.
Proof.
  intros p r x V C K. unfold g_item, p_change, r_item, p_seq, p_must. destruct (varspec_sound (p +++ r)) as [(v & t & q & T & E & ->)|E]; [|now rewrite E].
  assert (~ ends q) as Q.
  { intros Q. destruct (cut_unique p t r q C (var_spec_clean _ _ T) K Q E) as [<- <-]. exact (V v T). }
  now rewrite (proj1 (term_no q v Q)).
Qed.
Lemma head_ok : forall p i r x, item_of p i -> clean p -> ends r -> g_head (p +++ r) x = Matched r (add_item i x).
Proof.
  intros p i r x [(v & -> & V)|[-> V]] C K; unfold g_head, p_sor, p_try_catch; [now rewrite (item_good v p r x V K)|].
  rewrite (item_bad p r x V C K). unfold g_invalid_item, p_change, p_act. rewrite r_skip_ok by assumption. now rewrite consumed_app.
Qed.
Lemma item_total : forall p, clean p -> exists i, item_of p i.
Proof.
  intros p C. destruct (varspec_sound p) as [(v & t & q & T & E & F)|E].
  - destruct (string_dec q "") as [->|N]; [rewrite append_nil_r in E; subst t; exists (GoodItem v); left; eauto|].
    exists (InvalidItem p). right. split; [reflexivity|]. intros w W. pose proof (varspec_ok w p "" W (or_introl eq_refl)) as G. rewrite append_nil_r in G. congruence.
  - exists (InvalidItem p). right. split; [reflexivity|]. intros w W. pose proof (varspec_ok w p "" W (or_introl eq_refl)) as G. rewrite append_nil_r in G. congruence.
Qed.

(** ** Lists of variables *)
Lemma term_cases : forall i, ends i \/ ~ ends i.
Proof.
  intros [|a i]; [left; now left|]. destruct (Ascii.eqb_spec a ",") as [->|A]; [left; right; left; now exists i|].
  destruct (Ascii.eqb_spec a "}") as [->|B]; [left; right; right; now exists i|]. right. intros [X|[[x [= X _]]|[x [= X _]]]]; congruence.
Qed.
Lemma change_keeps : forall {S T} (f : T) (g : T -> S -> S) p, keeps p -> keeps (p_change f g p).
Proof. intros S T f g p H i s r s' E. unfold p_change in E. destruct (p i f) eqn:P; try discriminate. injection E as <- _. now apply H in P. Qed.
Lemma try_keeps : forall {S} (p : rule S), keeps p -> keeps (p_try_catch p).
Proof. intros S p H i s r s' E. unfold p_try_catch in E. destruct (p i s) eqn:P; try discriminate. injection E as <- _. now apply H in P. Qed.
Lemma try_shrinks : forall {S} (p : rule S), shrinks p -> shrinks (p_try_catch p).
Proof. intros S p H i s r s' E. unfold p_try_catch in E. destruct (p i s) eqn:P; try discriminate. injection E as <- _. now apply H in P. Qed.
Lemma at_keeps : forall {S} (p : rule S), keeps (p_at p).
Proof. intros S p i s r s' E. unfold p_at in E. destruct (p i s) eqn:P; try discriminate. injection E as <- _. lia. Qed.
Lemma must_keeps : forall {S} (p : rule S), keeps p -> keeps (p_must p).
Proof. intros S p H i s r s' E. unfold p_must in E. destruct (p i s) eqn:P; try discriminate. injection E as <- _. now apply H in P. Qed.
Lemma act_keeps : forall {S} f (p : rule S), keeps p -> keeps (p_act f p).
Proof. intros S f p H i s r s' E. unfold p_act in E. destruct (p i s) eqn:P; try discriminate. injection E as <- _. now apply H in P. Qed.
Lemma sor_keeps : forall {S} (p q : rule S), keeps p -> keeps q -> keeps (p_sor p q).
Proof. intros S p q H K i s r s' E. unfold p_sor in E. destruct (p i s) eqn:P; try discriminate; [injection E as <- _; now apply H in P|now apply K in E]. Qed.
Lemma nothing_keeps : forall {S}, keeps (@p_nothing S).
Proof. intros S i s r s' [= <- _]. lia. Qed.
Lemma eof_keeps : forall {S}, keeps (@p_eof S).
Proof. intros S [|a i] s r s' [= <- _]. cbn. lia. Qed.
Lemma one_keeps : forall {S} f, keeps (@p_one S f).
Proof. intros S f. apply shrinks_keeps, one_shrinks. Qed.
Lemma plus_shrinks : forall {S} (p : rule S), shrinks p -> shrinks (p_plus p).
Proof. intros S p H. apply seq_shrinks; [exact H|]. now apply star_keeps, shrinks_keeps. Qed.
#[export] Hint Resolve change_keeps try_keeps try_shrinks at_keeps must_keeps act_keeps sor_keeps nothing_keeps eof_keeps one_keeps plus_shrinks change_shrinks : peg.
Lemma pct_shrinks : forall {S}, shrinks (@u_pct S).
Proof. intros S. unfold u_pct, p_if_must, is_char. auto 10 with peg. Qed.
Lemma varspec_keeps : keeps g_varspec.
Proof.
  unfold g_varspec, g_varname, g_prefix, g_explode, u_varname, u_varchar, u_dot, p_if_must, u_prefix_value, p_rep_max, is_char. pose proof (@pct_shrinks variable).
  auto 20 with peg.
Qed.
Lemma head_keeps : keeps g_head.
Proof.
  unfold g_head, g_item, g_invalid_item, r_item, r_skip, term, u_close, is_char, p_any. pose proof varspec_keeps.
  apply sor_keeps; [auto 10 with peg|]. apply change_keeps, act_keeps, sor_keeps; [|auto with peg]. apply shrinks_keeps, plus_shrinks. apply skip_shrinks.
Qed.
Lemma more_shrinks : shrinks (p_seq (is_char ",") g_head).
Proof. apply seq_shrinks; [unfold is_char; auto with peg|apply head_keeps]. Qed.
Definition add_items (l : list item) (x : expression) : expression := Expr (x_type x) (x_vars x ++ l) (x_unclosed x).
Lemma add_items_nil : forall x, add_items [] x = x.
Proof. intros [t l u]. unfold add_items. cbn. now rewrite app_nil_r. Qed.
Lemma add_items_cons : forall i l x, add_items l (add_item i x) = add_items (i :: l) x.
Proof. intros i l x. unfold add_items, add_item. cbn. now rewrite <- app_assoc. Qed.
(** the end of the list *)
Definition closes (i : string) : Prop := i = "" \/ starts "}" i.
Lemma closes_ends : forall i, closes i -> ends i.
Proof. intros i [->|H]; [now left|now right; right]. Qed.
Lemma more_ok : forall ps is r x, Forall2 item_of ps is -> Forall clean ps -> closes r ->
  p_star (p_seq (is_char ",") g_head) (sconcat (map (fun p => "," +++ p) ps) +++ r) x = Matched r (add_items is x).
Proof.
  intros ps is r x H C K. revert x C. induction H as [|p i ps is P H IH]; intros x C.
  - cbn [map sconcat]. rewrite add_items_nil. change ("" +++ r) with r. apply star_stop. unfold p_seq. rewrite char_no; [reflexivity|].
    intros [q ->]. destruct K as [K|[y K]]; discriminate.
  - inversion C as [|? ? C1 C2]; subst. cbn [map sconcat]. rewrite !append_assoc. change ("," +++ p +++ sconcat (map (fun p => "," +++ p) ps) +++ r) with (String "," (p +++ sconcat (map (fun p => "," +++ p) ps) +++ r)).
    rewrite (star_step _ _ x (sconcat (map (fun p => "," +++ p) ps) +++ r) (add_item i x)).
    + rewrite <- add_items_cons. now apply IH.
    + exact more_shrinks.
    + unfold p_seq. rewrite char_ok. apply head_ok; [exact P|exact C1|]. destruct ps as [|p' ps]; [now apply closes_ends|right; left]. cbn [map sconcat]. rewrite !append_assoc. now eexists.
Qed.
Lemma join_sconcat : forall p ps, join "," (p :: ps) = p +++ sconcat (map (fun p => "," +++ p) ps).
Proof.
  intros p ps. revert p. induction ps as [|q ps IH]; intros p; cbn [map sconcat]; [cbn; now rewrite append_nil_r|].
  change (join "," (p :: q :: ps)) with (p +++ "," +++ join "," (q :: ps)). rewrite IH. cbn [append]. reflexivity.
Qed.
Lemma free_app : forall c a b, free c (a +++ b) <-> free c a /\ free c b.
Proof.
  intros c a b. unfold free. induction a as [|x a IH]; cbn; [tauto|]. split; intros H; [split; intros K; apply H; tauto|].
  intros [->|K]; [apply (proj1 H); now left|]. apply IH in K; [exact K|]. tauto.
Qed.
Lemma clean_free : forall s, clean s <-> free "," s /\ free "}" s.
Proof.
  intros s. unfold clean, every, free. rewrite Forall_forall. split.
  - intros H. split; intros K; apply H in K; tauto.
  - intros [A B] c K. split; intros ->; tauto.
Qed.
Lemma pieces_clean : forall s ps, pieces s ps -> free "}" s -> Forall clean ps.
Proof.
  intros s ps (N & F & ->) B. destruct ps as [|p ps]; [congruence|]. rewrite join_sconcat in B. apply free_app in B as [B1 B2].
  inversion F as [|? ? F1 F2]; subst. constructor; [now apply clean_free|]. clear N F F1 B1 p. induction F2 as [|p ps P F IH]; [constructor|].
  cbn [map sconcat] in B2. apply free_app in B2 as [B1 B2]. constructor; [|now apply IH]. apply clean_free. split; [exact P|].
  intros K. apply B1. cbn. now right.
Qed.
Lemma variables_ok : forall s ps is r x, pieces s ps -> free "}" s -> Forall2 item_of ps is -> closes r -> g_variables (s +++ r) x = Matched r (add_items is x).
Proof.
  intros s ps is r x P B H K. pose proof (pieces_clean s ps P B) as C. destruct P as (N & F & ->). destruct H as [|p i ps is I H]; [congruence|]. inversion C as [|? ? C1 C2]; subst.
  rewrite join_sconcat, append_assoc. unfold g_variables. unfold p_seq at 1. rewrite (head_ok p i); [|exact I|exact C1|].
  - unfold p_seq at 1. rewrite (more_ok ps is r _ H C2 K), add_items_cons. unfold p_at, p_sor, u_close. destruct K as [->|[q ->]]; [reflexivity|now rewrite char_ok].
  - destruct ps as [|p' ps]; [now apply closes_ends|right; left]. cbn [map sconcat]. rewrite !append_assoc. now eexists.
Qed.

(** ** Expressions *)
Lemma operator_ok : forall b o rest r x, opens b o rest -> closes r -> x_type x = NoOp -> p_opt g_operator (b +++ r) x = Matched (rest +++ r) (set_op o x).
Proof.
  intros b o rest r x [(c & -> & O)|(-> & -> & O)] K X.
  - cbn [append]. cbn in O. repeat (destruct O as [[= <- <-]|O]; [reflexivity|]). now destruct O.
  - assert (E : set_op NoOp x = x) by (destruct x; cbn in *; now subst). rewrite E. destruct b as [|c b].
    + cbn [append]. destruct K as [->|[q ->]]; reflexivity.
    + cbn [append]. specialize (O c b eq_refl). cbn in O. unfold p_opt, g_operator, p_sor, g_op, p_act.
      rewrite !char_no by (intros [q [= Q _]]; subst c; tauto). unfold p_one. destruct (c_in "=,!@|" c) eqn:I; [|reflexivity].
      apply c_in_spec in I. cbn in I. exfalso. intuition (subst c; tauto).
Qed.
Lemma opens_free : forall b o rest, opens b o rest -> free "}" b -> free "}" rest.
Proof. intros b o rest [(c & -> & _)|(_ & -> & _)] B; [|exact B]. intros K. apply B. cbn. now right. Qed.
Lemma expression_ok : forall b o rest ps is r acc, opens b o rest -> pieces rest ps -> Forall2 item_of ps is -> free "}" b -> closes r ->
  g_expression (String "{" (b +++ r)) acc =
  Matched (match r with String _ q => q | "" => "" end) (acc ++ [Expression (Expr o is (match r with "" => true | _ => false end))])%list.
Proof.
  intros b o rest ps is r acc O P H B K. unfold g_expression, p_change, p_if_must. unfold p_seq at 1. unfold u_open. rewrite char_ok. unfold p_must. unfold p_seq at 1.
  rewrite (operator_ok b o rest r (Expr NoOp [] false) O K eq_refl). unfold p_seq at 1. rewrite (variables_ok rest ps is r _ P (opens_free _ _ _ O B) H K).
  unfold p_sor, u_close. destruct K as [->|[q ->]].
  - rewrite char_no by (intros [q E]; discriminate). reflexivity.
  - rewrite char_ok. reflexivity.
Qed.
Lemma literals_no_brace : forall b acc, g_literals (String "{" b) acc = Failed acc.
Proof. reflexivity. Qed.

(** ** Text *)
Lemma stop_ok : forall {S} i (s : S), lit_stops i -> p_at stop i s = Matched i s /\ p_not_at stop i s = Failed s.
Proof. intros S i s [->|[r ->]]; now split. Qed.
Lemma stop_no : forall {S} a r (s : S), a <> "{"%char -> p_at stop (String a r) s = Failed s /\ p_not_at stop (String a r) s = Matched (String a r) s.
Proof. intros S a r s H. unfold p_at, p_not_at, stop, p_sor, u_open. rewrite char_no by (intros [q [= E _]]; congruence). now split. Qed.
Lemma must_skip_star : forall {S} t r (s : S), free "{" t -> lit_stops r -> p_star (p_seq (p_not_at stop) p_any) (t +++ r) s = Matched r s.
Proof.
  intros S. induction t as [|a t IH]; intros r s F K.
  - apply star_stop. change ("" +++ r) with r. unfold p_seq. now rewrite (proj2 (stop_ok r s K)).
  - cbn [append]. assert (A : a <> "{"%char) by (intros ->; apply F; now left). assert (F' : free "{" t) by (intros Q; apply F; now right).
    rewrite (star_step _ _ s (t +++ r) s); [now apply IH|apply skip_shrinks|]. unfold p_seq. now rewrite (proj2 (stop_no a (t +++ r) s A)).
Qed.
Lemma must_skip_ok : forall {S} t r (s : S), t <> "" -> free "{" t -> lit_stops r -> r_must_skip stop (t +++ r) s = Matched r s.
Proof.
  intros S [|a t] r s N F K; [congruence|]. cbn [append]. assert (A : a <> "{"%char) by (intros ->; apply F; now left). assert (F' : free "{" t) by (intros Q; apply F; now right).
  unfold r_must_skip, p_plus. do 3 (unfold p_seq at 1). rewrite (proj2 (stop_no a (t +++ r) s A)). unfold p_any at 1. unfold p_one at 1. cbv iota.
  rewrite (must_skip_star t r s F' K). apply (stop_ok r s K).
Qed.
Lemma utf8_all_high : forall c, (128 <= c)%N -> scalar c -> every (fun a => (128 <= byte a)%N) (utf8 c).
Proof.
  intros c H Sc. apply scalar_iff in Sc. unfold utf8, utf8_bytes. destruct (c <=? 127)%N eqn:E; bytes; [lia|].
  assert (M : forall n, (n mod 64 < 64)%N) by (intros n; apply N.mod_lt; lia).
  pose proof (M c) as M1. pose proof (M (c / 64)%N) as M2. pose proof (M (c / 4096)%N) as M3.
  destruct (c <=? 2047)%N eqn:E1; bytes; [|destruct (c <=? 65535)%N eqn:E2; bytes].
  - assert (X : (c / 64 < 32)%N) by (apply N.div_lt_upper_bound; lia). revert M1 X. generalize (c mod 64)%N, (c / 64)%N. intros x y X Y.
    repeat constructor; rewrite byte_chr; lia.
  - assert (X : (c / 4096 < 16)%N) by (apply N.div_lt_upper_bound; lia). revert M1 M2 X. generalize (c mod 64)%N, ((c / 64) mod 64)%N, (c / 4096)%N. intros x y z X Y Z.
    repeat constructor; rewrite byte_chr; lia.
  - assert (X : (c / 262144 < 8)%N) by (apply N.div_lt_upper_bound; lia). revert M1 M2 M3 X.
    generalize (c mod 64)%N, ((c / 64) mod 64)%N, ((c / 4096) mod 64)%N, (c / 262144)%N. intros x y z w X Y Z W.
    repeat constructor; rewrite byte_chr; lia.
Qed.
Lemma every_free : forall (P : ascii -> Prop) c s, every P s -> ~ P c -> free c s.
Proof. intros P c s H N K. unfold every in H. rewrite Forall_forall in H. now apply N, H. Qed.
Lemma literal_char_free : forall t, literal_char t -> free "{" t.
Proof.
  intros t [t' (a & b & A & B & ->)|a A|c C].
  - apply hexadecimal_sure in A, B. intros [K|[K|[K|[]]]]; [discriminate|subst a|subst b]; [destruct A as [A|A]; conc A|destruct B as [B|B]; conc B].
  - intros [->|[]]. apply allowed_spec in A. discriminate.
  - eapply every_free; [apply utf8_all_high; [now apply international_high|now apply international_scalar]|]. vm_compute. intuition.
Qed.
Lemma literal_free : forall t, literal t -> free "{" t.
Proof.
  intros t (l & _ & F & ->). induction F as [|x l X F IH]; [intros []|]. cbn [sconcat]. apply free_app. split; [now apply literal_char_free|exact IH].
Qed.
Lemma stop_unique : forall a b r r', free "{" a -> free "{" b -> lit_stops r -> lit_stops r' -> a +++ r = b +++ r' -> a = b /\ r = r'.
Proof.
  induction a as [|x a IH]; intros [|y b] r r' A B R R' E; cbn [append] in E.
  - now split.
  - exfalso. subst r. destruct R as [Z|[q Z]]; [discriminate|]. injection Z as -> _. apply B. now left.
  - exfalso. subst r'. destruct R' as [Z|[q Z]]; [discriminate|]. injection Z as -> _. apply A. now left.
  - injection E as <- E. assert (A' : free "{" a) by (intros Q; apply A; now right). assert (B' : free "{" b) by (intros Q; apply B; now right).
    destruct (IH b r r') as [-> ->]; auto.
Qed.
Lemma stop_cases : forall i, lit_stops i \/ exists a r, i = String a r /\ a <> "{"%char.
Proof. intros [|a i]; [left; now left|]. destruct (Ascii.eqb_spec a "{") as [->|N]; [left; right; now exists i|right; eauto]. Qed.
Lemma literals_good : forall t r acc, literal t -> lit_stops r -> g_literals (t +++ r) acc = Matched r (acc ++ [Literals t])%list.
Proof.
  intros t r acc L K. unfold g_literals, p_sor, p_try_catch, p_change, p_act, r_item. unfold p_seq at 1. unfold p_must at 1. rewrite literals_ok by assumption.
  unfold p_must. rewrite (proj1 (stop_ok r _ K)). now rewrite consumed_app.
Qed.
Lemma literals_bad : forall t r acc, ~ literal t -> t <> "" -> free "{" t -> lit_stops r -> g_literals (t +++ r) acc = Matched r (acc ++ [InvalidPart t])%list.
Proof.
  intros t r acc L N F K. unfold g_literals, p_sor, p_try_catch, p_change, p_act, r_item. unfold p_seq at 1. unfold p_must at 1.
  assert (E : match u_literals (t +++ r) "" with Failed s' => Raised s' | o => o end = Raised "" \/ exists q a z, u_literals (t +++ r) "" = Matched q "" /\ q = String a z /\ a <> "{"%char).
  { destruct (literals_sound (t +++ r) "") as [(t' & q & T & E & P & _)|[P _]]; rewrite P; [|now left]. right.
    destruct (stop_cases q) as [Q|(a & z & Q & A)]; [exfalso|eauto 6].
    destruct (stop_unique t t' r q F (literal_free _ T) K Q E) as [<- _]. now apply L. }
  destruct E as [E|(q & a & z & E & -> & A)].
  - rewrite E. rewrite must_skip_ok by assumption. now rewrite consumed_app.
  - rewrite E. unfold p_must. rewrite (proj1 (stop_no a z "" A)). rewrite must_skip_ok by assumption. now rewrite consumed_app.
Qed.
Lemma literal_dec : forall t, literal t \/ ~ literal t.
Proof.
  intros t. destruct (literals_sound t tt) as [(t' & q & T & E & P & _)|[P _]].
  - destruct (string_dec q "") as [->|N]; [rewrite append_nil_r in E; subst; now left|]. right. intros L.
    pose proof (literals_ok t "" tt L (or_introl eq_refl)) as G. rewrite append_nil_r in G. congruence.
  - right. intros L. pose proof (literals_ok t "" tt L (or_introl eq_refl)) as G. rewrite append_nil_r in G. congruence.
Qed.

(** ** Templates *)
Definition g_part : rule (list part) := p_sor g_literals g_expression.
Lemma operator_keeps : keeps g_operator.
Proof. unfold g_operator, g_op, is_char. auto 20 with peg. Qed.
Lemma literals_shrinks : shrinks g_literals.
Proof.
  unfold g_literals, r_item, r_must_skip, stop, u_open. apply sor_shrinks.
  - apply try_shrinks, change_shrinks, act_shrinks, seq_shrinks; [|auto with peg]. apply must_shrinks, plus_shrinks. exact lit_shrinks.
  - apply change_shrinks, act_shrinks, seq_shrinks; [|auto with peg]. apply plus_shrinks, skip_shrinks.
Qed.
Lemma part_shrinks : shrinks g_part.
Proof.
  apply sor_shrinks; [exact literals_shrinks|]. unfold g_expression, p_if_must, u_open, is_char, g_missing_close, u_close.
  apply change_shrinks, seq_shrinks; [auto with peg|]. apply must_keeps, seq_keeps; [apply opt_keeps, operator_keeps|]. apply seq_keeps; [|unfold is_char; auto with peg].
  unfold g_variables. apply seq_keeps; [apply head_keeps|]. apply seq_keeps; [|auto with peg]. apply star_keeps, shrinks_keeps, more_shrinks.
Qed.
Lemma parts_ok : forall uri segs, cuts uri segs -> forall l acc, Forall2 part_of segs l -> p_star g_part uri acc = Matched "" (acc ++ l)%list.
Proof.
  intros uri segs H. induction H as [|t rest segs N F K C IH|b rest segs B C IH|b B]; intros l acc P.
  - inversion P; subst. rewrite app_nil_r. reflexivity.
  - inversion P as [|? p ? l' P1 P2]; subst. replace (acc ++ p :: l')%list with ((acc ++ [p]) ++ l')%list by now rewrite <- app_assoc.
    rewrite (star_step _ _ acc rest (acc ++ [p])%list part_shrinks); [now apply IH|]. unfold g_part, p_sor.
    inversion P1; subst; [now rewrite literals_good|now rewrite literals_bad].
  - inversion P as [|? p ? l' P1 P2]; subst. replace (acc ++ p :: l')%list with ((acc ++ [p]) ++ l')%list by now rewrite <- app_assoc.
    inversion P1 as [| |? ? o q ps is O Q I]; subst.
    rewrite (star_step _ _ acc rest (acc ++ [Expression (Expr o is false)])%list part_shrinks); [now apply IH|]. unfold g_part, p_sor. rewrite literals_no_brace.
    exact (expression_ok b o q ps is (String "}" rest) acc O Q I B (or_intror (ex_intro _ rest eq_refl))).
  - inversion P as [|? p ? l' P1 P2]; subst. inversion P2; subst. inversion P1 as [| |? ? o q ps is O Q I]; subst.
    rewrite (star_step _ _ acc "" (acc ++ [Expression (Expr o is true)])%list part_shrinks).
    + reflexivity.
    + unfold g_part, p_sor. rewrite literals_no_brace. pose proof (expression_ok b o q ps is "" acc O Q I B (or_introl eq_refl)) as E. rewrite append_nil_r in E. exact E.
Qed.
Lemma template_ok : forall uri segs l, cuts uri segs -> Forall2 part_of segs l -> uri <> "" -> parse_parts uri = Some l.
Proof.
  intros uri segs l C P N. unfold parse_parts, g_template. pose proof (parts_ok uri segs C l [] P) as E. cbn [app] in E. fold g_part. unfold p_plus.
  assert (G : exists r s', g_part uri [] = Matched r s').
  { destruct (g_part uri []) as [r s'| | |] eqn:G; [eauto| | |].
    - rewrite (star_stop _ _ _ _ G) in E. injection E as -> _. congruence.
    - rewrite (star_raise _ _ _ _ G) in E. discriminate.
    - unfold p_star in E. cbn [p_star_from] in E. rewrite G in E. discriminate. }
  destruct G as (r & s' & G). unfold p_seq. rewrite G. rewrite <- (star_step _ _ _ _ _ part_shrinks G), E. reflexivity.
Qed.

(** ** Every text can be cut *)
Lemma break_at : forall c s, exists a r, s = a +++ r /\ free c a /\ (r = "" \/ starts c r).
Proof.
  intros c. induction s as [|x s (a & r & -> & F & K)]; [exists "", ""; repeat split; [intros []|now left]|].
  destruct (Ascii.eqb_spec x c) as [->|N].
  - exists "", (String c (a +++ r)). repeat split; [intros []|right; now eexists].
  - exists (String x a), r. repeat split; [|exact K]. intros [Q|Q]; [congruence|now apply F].
Qed.
Lemma cuts_total' : forall n uri, (String.length uri < n)%nat -> exists segs, cuts uri segs.
Proof.
  induction n as [|n IH]; intros uri H; [lia|]. destruct uri as [|a uri]; [exists []; constructor|]. destruct (Ascii.eqb_spec a "{") as [->|N].
  - destruct (break_at "}" uri) as (b & r & -> & B & [->|[q ->]]).
    + exists [Braces b false]. rewrite append_nil_r. now constructor.
    + cbn in H. rewrite length_append in H. cbn in H. destruct (IH q ltac:(lia)) as [segs C]. exists (Braces b true :: segs). now constructor.
  - destruct (break_at "{" uri) as (t & r & -> & F & K). cbn in H. rewrite length_append in H. destruct (IH r ltac:(lia)) as [segs C].
    exists (Text (String a t) :: segs). apply (cut_text (String a t) r); [discriminate| |exact K|exact C]. intros [Q|Q]; [congruence|now apply F].
Qed.
Lemma cuts_total : forall uri, exists segs, cuts uri segs.
Proof. intros uri. exact (cuts_total' _ uri (Nat.lt_succ_diag_r _)). Qed.
Lemma pieces_total' : forall n s, (String.length s < n)%nat -> exists l, pieces s l.
Proof.
  induction n as [|n IH]; intros s H; [lia|]. destruct (break_at "," s) as (p & r & -> & F & [->|[q ->]]).
  - exists [p]. rewrite append_nil_r. repeat split; [discriminate|now constructor].
  - rewrite length_append in H. cbn in H. destruct (IH q ltac:(lia)) as (l & N & L & ->). exists (p :: l). repeat split; [discriminate|now constructor|].
    destruct l as [|x l]; [congruence|]. reflexivity.
Qed.
Lemma opens_total : forall b, exists o rest, opens b o rest.
Proof.
  intros [|c b]; [exists NoOp, ""; right; repeat split; discriminate|].
  assert (D : (exists o, In (c, o) operators) \/ ~ In c (map fst operators)).
  { destruct (in_dec ascii_dec c (map fst operators)) as [I|I]; [left|now right]. apply in_map_iff in I as ([x o] & <- & I). now exists o. }
  destruct D as [[o O]|O]; [exists o, b; left; eauto|exists NoOp, (String c b); right; repeat split]. intros c' r [= <- _]. exact O.
Qed.
Lemma free_braces : forall uri segs, cuts uri segs -> forall b c, In (Braces b c) segs -> free "}" b.
Proof.
  intros uri segs H. induction H; intros b' c' K; try (destruct K as [K|K]; [try discriminate; injection K as <- <-; assumption|]); eauto; destruct K.
Qed.
Lemma part_total : forall s, (forall b c, s = Braces b c -> free "}" b) -> exists p, part_of s p.
Proof.
  intros [t|b c] H.
  - destruct (literal_dec t); eexists; [now apply part_literal|now apply part_invalid].
  - specialize (H b c eq_refl). destruct (opens_total b) as (o & rest & O). destruct (pieces_total' _ rest (Nat.lt_succ_diag_r _)) as (ps & P).
    pose proof (pieces_clean rest ps P (opens_free _ _ _ O H)) as C.
    assert (exists is, Forall2 item_of ps is) as (is & I).
    { clear P. induction C as [|p ps Hp C (is & IH)]; [exists []; constructor|]. destruct (item_total p Hp) as [i I]. exists (i :: is). now constructor. }
    eexists. eapply part_expression; eassumption.
Qed.
Lemma parts_total : forall uri segs, cuts uri segs -> exists l, Forall2 part_of segs l.
Proof.
  intros uri segs C. pose proof (free_braces uri segs C) as F. clear C. induction segs as [|s segs IH]; [exists []; constructor|].
  destruct (part_total s) as [p P]; [intros b c ->; apply (F b c); now left|]. destruct IH as [l L]; [intros b c K; apply (F b c); now right|]. exists (p :: l). now constructor.
Qed.
