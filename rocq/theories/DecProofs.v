(** decimal literals written by std::to_string are JSON numbers *)
From Coq Require Import DecimalString DecimalN DecimalFacts Decimal.
From Verif Require Import Base JsonSpec SourceMap.

Lemma digits0_uint : forall d, digits0 (NilEmpty.string_of_uint d) = EmptyString.
Proof. induction d; cbn; auto. Qed.

Lemma digits_string : forall d, d <> Nil -> NilZero.string_of_uint d = NilEmpty.string_of_uint d.
Proof. destruct d; [congruence|reflexivity..]. Qed.

Lemma number_nonzero : forall d, nzhead d = d -> d <> Nil -> json_number (NilEmpty.string_of_uint d) = true.
Proof.
  intros d H N. destruct d; cbn in *; try congruence;
    try (unfold json_number; cbn; rewrite digits0_uint; reflexivity).
  exfalso. assert (L := nzhead_nonzero d d). congruence.
Qed.

Lemma dec_json_number : forall n, json_number (dec n) = true.
Proof.
  intros n. unfold dec. assert (U : unorm (N.to_uint n) = N.to_uint n).
  { rewrite <- (DecimalN.Unsigned.of_to n) at 2. now rewrite DecimalN.Unsigned.to_of. }
  destruct (N.to_uint n) as [| u|u|u|u|u|u|u|u|u|u] eqn:E; try discriminate U;
    try (rewrite digits_string by discriminate; apply number_nonzero; [exact U|discriminate]).
  unfold unorm in U. cbn [nzhead] in U. destruct (nzhead u) as [|v|v|v|v|v|v|v|v|v|v] eqn:F; try discriminate U.
  - unfold zero in U. injection U as U. subst u. reflexivity.
  - exfalso. assert (L := nzhead_nonzero u v). congruence.
Qed.
