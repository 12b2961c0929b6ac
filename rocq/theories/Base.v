(** Shared helpers about byte strings (std::string is a Coq [string]: a list of
    8-bit [ascii], so all 256 byte values occur). No model of repo code here. *)
From Coq Require Export String Ascii List Bool Arith NArith ZArith Lia.
Export ListNotations.
Open Scope string_scope.
Open Scope list_scope.

Infix "+++" := String.append (at level 60, right associativity) : string_scope.

(** byte value of a char seen as [unsigned char] *)
Definition byte (a : ascii) : N := N_of_ascii a.
Definition chr (n : N) : ascii := ascii_of_N n.
Definition str1 (a : ascii) : string := String a EmptyString.

Lemma append_assoc : forall a b c : string, ((a +++ b) +++ c = a +++ (b +++ c))%string.
Proof. induction a as [|x a IH]; intros b c; cbn; [reflexivity|now rewrite IH]. Qed.
Lemma append_nil_r : forall a : string, (a +++ "" = a)%string.
Proof. induction a as [|x a IH]; cbn; [reflexivity|now rewrite IH]. Qed.
Lemma append_nil_l : forall a : string, ("" +++ a = a)%string.
Proof. reflexivity. Qed.
Lemma append_cons : forall x (a b : string), (String x a +++ b = String x (a +++ b))%string.
Proof. reflexivity. Qed.
Lemma length_append : forall a b : string, String.length (a +++ b) = String.length a + String.length b.
Proof. induction a as [|x a IH]; intros b; cbn; [reflexivity|now rewrite IH]. Qed.

Lemma append_inj_l : forall a b c : string, (a +++ b = a +++ c)%string -> b = c.
Proof. induction a as [|x a IH]; cbn; intros b c H; [exact H|]. injection H as H. now apply IH. Qed.

Lemma byte_lt : forall a, (byte a < 256)%N.
Proof. intros a. apply N_ascii_bounded. Qed.
Lemma chr_byte : forall a, chr (byte a) = a.
Proof. apply ascii_N_embedding. Qed.
Lemma byte_chr : forall n, (n < 256)%N -> byte (chr n) = n.
Proof. apply N_ascii_embedding. Qed.
Lemma byte_inj : forall a b, byte a = byte b -> a = b.
Proof. intros a b H. now rewrite <- (chr_byte a), <- (chr_byte b), H. Qed.

(** every char of [s] satisfies [P] *)
Fixpoint sforall (P : ascii -> bool) (s : string) : bool :=
  match s with
  | EmptyString => true
  | String a r => P a && sforall P r
  end.

Lemma sforall_app : forall P a b, sforall P (a +++ b) = sforall P a && sforall P b.
Proof.
  induction a as [|x a IH]; intros b; cbn; [reflexivity|].
  now rewrite IH, andb_assoc.
Qed.

Lemma sforall_impl : forall (P Q : ascii -> bool) s,
  (forall a, P a = true -> Q a = true) -> sforall P s = true -> sforall Q s = true.
Proof.
  induction s as [|x s IH]; cbn; intros H H0; [reflexivity|].
  apply andb_prop in H0 as [H1 H2]. rewrite (H _ H1). cbn. now apply IH.
Qed.

(** concatenation of a list of strings *)
Fixpoint sconcat (l : list string) : string :=
  match l with
  | [] => EmptyString
  | x :: t => x +++ sconcat t
  end.

Lemma sconcat_app : forall a b, sconcat (a ++ b) = (sconcat a +++ sconcat b)%string.
Proof.
  induction a as [|x a IH]; intros b; cbn; [reflexivity|]. now rewrite IH, append_assoc.
Qed.

(** drop the first [n] bytes (None when fewer are available) *)
Fixpoint sdrop (n : nat) (s : string) : option string :=
  match n, s with
  | O, _ => Some s
  | S m, String _ r => sdrop m r
  | S _, EmptyString => None
  end.

Definition in_range (lo hi n : N) : bool := (N.leb lo n && N.leb n hi)%bool.

Lemma in_range_spec : forall lo hi n, in_range lo hi n = true <-> (lo <= n <= hi)%N.
Proof. intros lo hi n. unfold in_range. rewrite andb_true_iff, !N.leb_le. reflexivity. Qed.

(** disjoint bitwise or is addition *)
Lemma lor_add : forall k a b, (b < 2 ^ k)%N -> N.lor (a * 2 ^ k) b = (a * 2 ^ k + b)%N.
Proof.
  intros k a b Hb. symmetry. rewrite N.add_nocarry_lxor, N.lxor_lor; auto.
  - apply N.bits_inj_0. intros i. rewrite N.land_spec.
    destruct (N.ltb_spec i k) as [Hi|Hi].
    + rewrite N.mul_pow2_bits_low by exact Hi. reflexivity.
    + destruct (N.eq_dec b 0) as [->|Hb0]; [rewrite N.bits_0; apply andb_false_r|].
      rewrite (N.bits_above_log2 b i); [apply andb_false_r|].
      apply N.lt_le_trans with k; [|exact Hi]. now apply N.log2_lt_pow2; [lia|].
  - apply N.bits_inj_0. intros i. rewrite N.land_spec.
    destruct (N.ltb_spec i k) as [Hi|Hi].
    + rewrite N.mul_pow2_bits_low by exact Hi. reflexivity.
    + destruct (N.eq_dec b 0) as [->|Hb0]; [rewrite N.bits_0; apply andb_false_r|].
      rewrite (N.bits_above_log2 b i); [apply andb_false_r|].
      apply N.lt_le_trans with k; [|exact Hi]. now apply N.log2_lt_pow2; [lia|].
Qed.
