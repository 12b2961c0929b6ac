From Verif Require Import Base Element ElementUtils JsonValue JsonSchema PatternSpec.

Lemma syntax_metachar : forall c, metachar c = syntax_character c.
Proof. intros [[] [] [] [] [] [] [] []]; reflexivity. Qed.

Lemma read_char : forall c r, syntax_character c = false -> read_terms (String c r) = cons_term (TChar c) (read_terms r).
Proof. intros [[] [] [] [] [] [] [] []] r H; try discriminate H; reflexivity. Qed.
Lemma read_escaped : forall c r, syntax_character c = true -> read_terms (String "\" (String c r)) = cons_term (TChar c) (read_terms r).
Proof. intros c r H. cbn [read_terms]. now rewrite H. Qed.

Lemma read_escape : forall k, read_terms (escape_pattern k) = Some (map TChar (list_ascii_of_string k)).
Proof.
  induction k as [|c k IH]; [reflexivity|]. cbn [escape_pattern list_ascii_of_string map]. rewrite syntax_metachar.
  destruct (syntax_character c) eqn:E; [rewrite (read_escaped _ _ E)|rewrite (read_char _ _ E)]; now rewrite IH.
Qed.

Lemma app_assoc_s : forall a b c : string, ((a ++ b) ++ c = a ++ (b ++ c))%string.
Proof. induction a as [|x a IH]; intros; cbn; [reflexivity|now rewrite IH]. Qed.
Lemma app_nil_s : forall a : string, (a ++ "" = a)%string.
Proof. induction a as [|x a IH]; cbn; [reflexivity|now rewrite IH]. Qed.
Lemma length_app_s : forall a b : string, String.length (a ++ b) = String.length a + String.length b.
Proof. induction a as [|x a IH]; intros; cbn; [reflexivity|now rewrite IH]. Qed.

Lemma seq_chars : forall k b r, seq (map TChar (list_ascii_of_string k)) b r <-> exists r', r = (k ++ r')%string.
Proof.
  induction k as [|c k IH]; intros b r; cbn [list_ascii_of_string map].
  - split; [intros _; now exists r|constructor].
  - split.
    + intros H. inversion H as [|? ? ? x ? r' Ex A S]; subst. cbn in A. apply IH in S as (r2 & ->). exists r2. now rewrite A.
    + intros (r' & ->). apply (seq_cons _ _ _ (String c "") _ (k ++ r')); [reflexivity|reflexivity|]. apply IH. now exists r'.
Qed.
Lemma app_same : forall x r : string, (x ++ r = r)%string -> x = ""%string.
Proof.
  intros x r H. apply (f_equal String.length) in H. rewrite length_app_s in H. destruct x; [reflexivity|cbn in H; lia].
Qed.
