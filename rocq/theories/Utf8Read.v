(** Lemmas for C06: malformed bytes are read as if repaired *)
From Verif Require Import Base Utf8Spec Utf8 Utf8Proofs.
Local Open Scope N_scope.

Lemma mod_low : forall k m n, n mod m < m -> m <> 0 -> (k * m + n mod m) mod m = n mod m.
Proof. intros k m n L N. now apply lead_eq. Qed.
Lemma other_byte : forall b, byte (chr (128 + byte b mod 64)) = 128 + byte b mod 64.
Proof. intros b. apply byte_chr. pose proof (ml (byte b) 64 ltac:(lia)). lia. Qed.
Lemma other_low : forall b, byte (chr (128 + byte b mod 64)) mod 64 = byte b mod 64.
Proof. intros b. rewrite other_byte. exact (mod_low 2 64 (byte b) (ml _ 64 ltac:(lia)) ltac:(lia)). Qed.
Lemma other_cont : forall b, contb (chr (128 + byte b mod 64)) = true.
Proof. intros b. unfold contb. apply in_range_spec. rewrite other_byte. pose proof (ml (byte b) 64 ltac:(lia)) as M. revert M. generalize (byte b mod 64). intros. lia. Qed.
Lemma length_1 : forall s, String.length s = 1%nat -> exists b, s = String b EmptyString.
Proof. intros [|b [|]] H; try discriminate. now exists b. Qed.
Lemma length_2 : forall s, String.length s = 2%nat -> exists b c, s = String b (String c EmptyString).
Proof. intros [|b [|c [|]]] H; try discriminate. now exists b, c. Qed.
Lemma length_3 : forall s, String.length s = 3%nat -> exists b c d, s = String b (String c (String d EmptyString)).
Proof. intros [|b [|c [|d [|]]]] H; try discriminate. now exists b, c, d. Qed.

Lemma repaired_same : forall a s rest, S (String.length s) = announced a ->
  shaped (repaired (String a s)) /\ decode_one (String a s +++ rest) = decode_one (repaired (String a s) +++ rest).
Proof.
  intros a s rest L. unfold announced in L. unfold repaired, first_repaired. pose proof (byte_lt a) as B.
  destruct (N.ltb_spec (byte a) 0x80).
  { destruct s; [|discriminate]. split; [exact H|reflexivity]. }
  destruct (N.ltb_spec (byte a) 0xE0).
  { apply Nat.succ_inj, length_1 in L as (b & ->). cbn [others_repaired].
    assert (Lo : byte a mod 32 < 32) by (apply ml; lia).
    assert (Ea : byte (chr (192 + byte a mod 32)) = 192 + byte a mod 32) by (apply byte_chr; clear - Lo; revert Lo; generalize (byte a mod 32); intros; lia). split.
    - cbn [shaped]. split; [apply in_range_spec; rewrite Ea; clear - Lo; revert Lo; generalize (byte a mod 32); intros; lia|apply other_cont].
    - assert (Ml := mod_low 6 32 (byte a) Lo ltac:(lia)). remember (byte a mod 32) as m eqn:Em. cbn [append]. unfold decode_one, rd. cbn [String.get sdrop]. rewrite Ea.
      destruct (N.ltb_spec (byte a) 0x80); [lia|]. destruct (N.ltb_spec (byte a) 0xE0); [|lia]. destruct (N.ltb_spec (192 + m) 0x80); [lia|]. destruct (N.ltb_spec (192 + m) 0xE0); [|lia].
      cbn [String.length Nat.ltb Nat.leb]. rewrite !land_1F, !land_3F, other_low. change 192 with (6 * 32). rewrite Ml, <- Em. reflexivity. }
  destruct (N.ltb_spec (byte a) 0xF0).
  { apply Nat.succ_inj, length_2 in L as (b & c & ->). cbn [others_repaired]. split.
    - cbn [shaped]. split; [apply in_range_spec; clear - H0 H1; lia|]. split; apply other_cont.
    - cbn [append]. unfold decode_one, rd. cbn [String.get sdrop].
      destruct (N.ltb_spec (byte a) 0x80); [lia|]. destruct (N.ltb_spec (byte a) 0xE0); [lia|]. destruct (N.ltb_spec (byte a) 0xF0); [|lia].
      cbn [String.length Nat.ltb Nat.leb]. rewrite !land_3F, !other_low. reflexivity. }
  apply Nat.succ_inj, length_3 in L as (b & c & d & ->). cbn [others_repaired].
  assert (Lo : byte a mod 8 < 8) by (apply ml; lia).
  assert (Ea : byte (chr (240 + byte a mod 8)) = 240 + byte a mod 8) by (apply byte_chr; clear - Lo; revert Lo; generalize (byte a mod 8); intros; lia). split.
  - cbn [shaped]. split; [apply in_range_spec; rewrite Ea; clear - Lo; revert Lo; generalize (byte a mod 8); intros; lia|]. repeat split; apply other_cont.
  - assert (Ml := mod_low 30 8 (byte a) Lo ltac:(lia)). remember (byte a mod 8) as m eqn:Em. cbn [append]. unfold decode_one, rd. cbn [String.get sdrop]. rewrite Ea.
    destruct (N.ltb_spec (byte a) 0x80); [lia|]. destruct (N.ltb_spec (byte a) 0xE0); [lia|]. destruct (N.ltb_spec (byte a) 0xF0); [lia|].
    destruct (N.ltb_spec (240 + m) 0x80); [lia|]. destruct (N.ltb_spec (240 + m) 0xE0); [lia|]. destruct (N.ltb_spec (240 + m) 0xF0); [lia|].
    cbn [String.length Nat.ltb Nat.leb]. rewrite !land_07, !land_3F, !other_low. change 240 with (30 * 8). rewrite Ml, <- Em. reflexivity.
Qed.
Lemma wf_one : forall c, scalar c -> wf_utf8 (utf8 c).
Proof. intros c H. exists [c]. split; [now constructor|]. unfold utf8s. cbn. symmetry. apply append_nil_r. Qed.
Lemma whole_decode : forall a s rest, S (String.length s) = announced a -> exists c, decode_one (String a s +++ rest) = Some (c, rest) /\ scalar c /\
  (repaired (String a s) = utf8 c \/ (c = 0xFFFD /\ forall x, scalar x -> repaired (String a s) <> utf8 x)).
Proof.
  intros a s rest L. destruct (repaired_same a s rest L) as [Sh E]. destruct (shaped_decode _ rest Sh) as (c & D & C). exists c. rewrite E. split; [exact D|]. split.
  - destruct (decode_one_total (repaired (String a s) +++ rest)) as (c' & r & pre & D' & Sc & _); [discriminate|]. rewrite D' in D. injection D as -> _. exact Sc.
  - destruct C as [C|[-> N]]; [now left|right]. split; [reflexivity|]. intros x Sx Ex. apply N. rewrite Ex. now apply wf_one.
Qed.
Lemma cut_decode : forall a s, (S (String.length s) < announced a)%nat -> decode_one (String a s) = Some (0xFFFD, EmptyString).
Proof.
  intros a s H. unfold announced in H. unfold decode_one, rd. cbn [String.get]. destruct (N.ltb_spec (byte a) 0x80); [lia|].
  destruct (N.ltb_spec (byte a) 0xE0). { destruct (Nat.ltb_spec (String.length (String a s)) 2); [reflexivity|]. cbn [String.length] in *. lia. }
  destruct (N.ltb_spec (byte a) 0xF0). { destruct (Nat.ltb_spec (String.length (String a s)) 3); [reflexivity|]. cbn [String.length] in *. lia. }
  destruct (Nat.ltb_spec (String.length (String a s)) 4); [reflexivity|]. cbn [String.length] in *. lia.
Qed.
Lemma split_at : forall n s, (n <= String.length s)%nat -> exists a b, s = (a +++ b)%string /\ String.length a = n.
Proof.
  induction n as [|n IH]; intros s H; [now exists EmptyString, s|]. destruct s as [|c s]; [cbn in H; lia|]. cbn in H. destruct (IH s ltac:(lia)) as (a & b & -> & L). exists (String c a), b. cbn. now rewrite L.
Qed.
Lemma replacement_scalar : scalar 0xFFFD.
Proof. reflexivity. Qed.
Lemma codepoints_next : forall f s c r, decode_one s = Some (c, r) -> scalar c -> codepoints_fuel (S f) s = match codepoints_fuel f r with Some l => Some (c :: l) | None => None end.
Proof. intros f s c r D S. unfold codepoints_fuel at 1. rewrite D. now apply iterate_scalar. Qed.
Lemma read_codepoints : forall s cs, read_as s cs -> forall fuel, (String.length s <= fuel)%nat -> codepoints_fuel fuel s = Some cs.
Proof.
  intros s cs H. induction H as [|a s rest c cs L Sc E H IH|a s rest cs L N H IH|a s L]; intros fuel F.
  - apply codepoints_fuel_nil.
  - rewrite length_append in F. cbn [String.length] in F. destruct fuel as [|f]; [lia|]. destruct (whole_decode a s rest L) as (c' & D & Sc' & C).
    assert (c' = c) as ->. { destruct C as [C|[_ C]]; [|now elim (C c Sc)]. rewrite E in C. pose proof (decode_utf8 c EmptyString Sc) as D1. pose proof (decode_utf8 c' EmptyString Sc') as D2. rewrite <- C in D2. rewrite D2 in D1. congruence. }
    rewrite (codepoints_next f _ _ _ D Sc), IH by lia. reflexivity.
  - rewrite length_append in F. cbn [String.length] in F. destruct fuel as [|f]; [lia|]. destruct (whole_decode a s rest L) as (c' & D & Sc' & C).
    destruct C as [C|[-> _]]; [now elim (N c' Sc')|]. rewrite (codepoints_next f _ _ _ D Sc'), IH by lia. reflexivity.
  - cbn [String.length] in F. destruct fuel as [|f]; [lia|]. rewrite (codepoints_next f _ _ _ (cut_decode a s L) replacement_scalar). now rewrite codepoints_fuel_nil.
Qed.
Lemma read_total : forall n s, (String.length s <= n)%nat -> exists cs, read_as s cs.
Proof.
  induction n as [|n IH]; intros [|a s] H; try (exists []; constructor); [cbn in H; lia|]. cbn [String.length] in H.
  destruct (Nat.lt_ge_cases (S (String.length s)) (announced a)) as [L|L]; [exists [0xFFFD]; now constructor|].
  assert (A : exists k, announced a = S k) by (unfold announced; destruct (byte a <? 0x80), (byte a <? 0xE0), (byte a <? 0xF0); eexists; reflexivity). destruct A as (k & A). rewrite A in L.
  destruct (split_at k s ltac:(lia)) as (g & rest & -> & Lg). rewrite length_append in H. destruct (IH rest ltac:(lia)) as (cs & R).
  assert (La : S (String.length g) = announced a) by (rewrite A; now f_equal).
  destruct (whole_decode a g rest La) as (c & D & Sc & C). change (String a (g +++ rest)) with (String a g +++ rest)%string. destruct C as [C|[-> C]].
  - exists (c :: cs). now apply read_char.
  - exists (0xFFFD :: cs). now apply read_bad.
Qed.
