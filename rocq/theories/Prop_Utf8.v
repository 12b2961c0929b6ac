(** Properties C04, C05, C06: UTF-8 coding (packages/drafter/src/utils/Utf8.h). *)
From Verif Require Import Base Utf8Spec Utf8 Utf8Proofs Utf8Read.
Local Open Scope N_scope.

(** C04: encoding writes the RFC 3629 bytes of every scalar value; decoding them, whatever
    follows, gives the scalar value back and stops right after them. *)
Theorem C04_encode_decode : forall c rest, scalar c ->
  encode c = Some (utf8 c) /\ decode_one (utf8 c +++ rest) = Some (c, rest).
Proof.
  intros c rest H. split; [|exact (decode_utf8 c rest H)].
  apply encode_spec. apply scalar_spec in H. lia.
Qed.

(** C04: the decoding loop over the encoding of any sequence yields the sequence. *)
Theorem C04_decode_sequence : forall cs, Forall scalar cs -> codepoints (utf8s cs) = Some cs.
Proof. exact codepoints_utf8s. Qed.

(** C04: decoding well formed bytes and re-encoding the result gives the same bytes. *)
Theorem C04_reencode : forall s, wf_utf8 s ->
  exists cs, codepoints s = Some cs /\ Forall scalar cs /\ utf8s cs = s.
Proof.
  intros s (cs & F & ->). exists cs. repeat split; [now apply codepoints_utf8s|exact F].
Qed.

Example C04_nonvacuous :
  scalar 0x24 /\ scalar 0xA2 /\ scalar 0x20AC /\ scalar 0x1F600 /\
  codepoints (utf8s [0x24; 0xA2; 0x20AC; 0x1F600]) = Some [0x24; 0xA2; 0x20AC; 0x1F600] /\
  utf8s [0x20AC] = of_bytes [0xE2; 0x82; 0xAC].
Proof. repeat split; vm_compute; reflexivity. Qed.

(** C05: one decoding step on any nonempty byte string is defined (no read past the end),
    consumes at least one byte of it and reports a Unicode scalar value. *)
Theorem C05_step_defined : forall s, s <> EmptyString ->
  exists c r pre, decode_one s = Some (c, r) /\ scalar c /\ s = (pre +++ r)%string /\ pre <> EmptyString.
Proof. exact decode_one_total. Qed.

(** C05: the whole loop terminates within [length s] steps on every byte string and only
    reports scalar values. *)
Theorem C05_loop_total : forall s,
  exists cs, codepoints s = Some cs /\ Forall scalar cs /\ (List.length cs <= String.length s)%nat.
Proof. intros s. exact (codepoints_fuel_total (String.length s) s (String.length s) (le_n _) (le_n _)). Qed.

Example C05_nonvacuous : codepoints (of_bytes [0x61; 0xFF; 0xE2; 0x82]) = Some [0x61; 0xFFFD].
Proof. vm_compute. reflexivity. Qed.

(** C06 is false of the code: these byte strings are not UTF-8 (stray continuation byte as a
    lead byte; lead byte followed by an ASCII byte, which is swallowed; lead byte F8) and
    no U+FFFD is reported. *)
Theorem C06_refuted :
  (~ wf_utf8 (of_bytes [0x82; 0x80]) /\ codepoints (of_bytes [0x82; 0x80]) = Some [0x80]) /\
  (~ wf_utf8 (of_bytes [0xC3; 0x22]) /\ codepoints (of_bytes [0xC3; 0x22]) = Some [0xE2]) /\
  (~ wf_utf8 (of_bytes [0xF9; 0x80; 0x80; 0x80]) /\
   codepoints (of_bytes [0xF9; 0x80; 0x80; 0x80]) = Some [0x40000]).
Proof.
  assert (N : forall s c, codepoints s = Some [c] -> s <> utf8 c -> ~ wf_utf8 s).
  { intros s c D Ns (cs & F & ->). rewrite (codepoints_utf8s _ F) in D. injection D as ->.
    apply Ns. unfold utf8s. cbn. apply append_nil_r. }
  repeat split; try (vm_compute; reflexivity);
  (eapply N; [vm_compute; reflexivity|vm_compute; discriminate]).
Qed.

(** C06, exactly: how every byte string is read. Malformed bytes are accepted iff, with the marks of UTF-8 put where they belong, they
    are the encoding of a scalar value; U+FFFD stands for the others and for a character that is cut off by the end. *)
Theorem C06_exact : forall s cs, codepoints s = Some cs <-> read_as s cs.
Proof.
  intros s cs. split.
  - intros H. destruct (read_total _ s (le_n _)) as (cs' & R). assert (E := read_codepoints _ _ R _ (le_n _)). unfold codepoints in H. rewrite E in H. injection H as ->. exact R.
  - intros R. exact (read_codepoints _ _ R _ (le_n _)).
Qed.

(** C06: which sequences are replaced: a byte string that is no encoding of a scalar value is read as U+FFFD alone iff it is so after the
    repair, too, or cut off *)
Theorem C06_replaced : forall a s, (S (String.length s) <= announced a)%nat -> (forall c, scalar c -> String a s <> utf8 c) ->
  (codepoints (String a s) = Some [0xFFFD] <-> (S (String.length s) < announced a)%nat \/ (forall c, scalar c -> c <> 0xFFFD -> repaired (String a s) <> utf8 c)).
Proof.
  intros a s L N. rewrite C06_exact. destruct (Nat.eq_dec (S (String.length s)) (announced a)) as [E|E].
  - destruct (whole_decode a s EmptyString E) as (c & D & Sc & C). rewrite append_nil_r in D.
    assert (K : codepoints (String a s) = Some [c]) by (unfold codepoints; cbn [String.length]; rewrite (codepoints_next _ _ _ _ D Sc); now rewrite codepoints_fuel_nil).
    rewrite <- C06_exact, K. split.
    + intros H. injection H as ->. right. intros x Sx Nx Ex. destruct C as [C|[_ C]]; [|exact (C x Sx Ex)]. rewrite C in Ex.
      pose proof (decode_utf8 _ EmptyString Sc) as D1. pose proof (decode_utf8 x EmptyString Sx) as D2. rewrite <- Ex, D1 in D2. congruence.
    + intros [H|H]; [lia|]. destruct C as [C|[-> _]]; [|reflexivity]. destruct (N.eq_dec c 0xFFFD) as [->|Nc]; [reflexivity|]. now elim (H c Sc Nc).
  - split; [intros _; left; lia|]. intros _. apply read_cut. lia.
Qed.
Example C06_exact_nonvacuous : read_as (of_bytes [0xC3; 0x22; 0x61; 0xE2]) [0xE2; 0x61; 0xFFFD].
Proof. apply C06_exact. vm_compute. reflexivity. Qed.

(** C06, what does hold: a lead byte C0..F7 followed by the number of continuation bytes it
    announces is decoded as that character when it is one, and as U+FFFD when it is
    overlong, a surrogate or above U+10FFFF. *)
Theorem C06_shaped : forall s rest, shaped s -> exists c,
  decode_one (s +++ rest) = Some (c, rest) /\ (s = utf8 c \/ (c = 0xFFFD /\ ~ wf_utf8 s)).
Proof. exact shaped_decode. Qed.

(** C06, what does hold: a multi-byte sequence cut off by the end of input gives U+FFFD. *)
Theorem C06_truncated : forall a s,
  (in_range 0xC0 0xDF (byte a) = true /\ String.length s = 0%nat) \/
  (in_range 0xE0 0xEF (byte a) = true /\ (String.length s < 2)%nat) \/
  (in_range 0xF0 0xFF (byte a) = true /\ (String.length s < 3)%nat) ->
  decode_one (String a s) = Some (0xFFFD, EmptyString).
Proof. exact truncated_decode. Qed.

Example C06_nonvacuous :
  shaped (of_bytes [0xED; 0xA0; 0x80]) /\ decode_one (of_bytes [0xED; 0xA0; 0x80; 0x41]) = Some (0xFFFD, "A"%string).
Proof. repeat split; vm_compute; reflexivity. Qed.

Print Assumptions C04_encode_decode.
Print Assumptions C04_decode_sequence.
Print Assumptions C04_reencode.
Print Assumptions C05_step_defined.
Print Assumptions C05_loop_total.
Print Assumptions C06_refuted.
Print Assumptions C06_exact.
Print Assumptions C06_replaced.
Print Assumptions C06_shaped.
Print Assumptions C06_truncated.
