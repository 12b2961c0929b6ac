(** Properties C07, C08 and the YAML half of C03 (packages/drafter/src/utils/so/YamlIo.cc). *)
From Verif Require Import Base Utf8Spec Utf8 Utf8Proofs SoValue JsonIo JsonSpec YamlIo YamlSpec YamlIoProofs.
Local Open Scope string_scope.

(** C07: the scalar written for a UTF-8 string is a double-quoted scalar denoting that string
    (whatever follows it), and its characters are YAML-printable and no line breaks. *)
Theorem C07_yaml_scalar_lossless : forall s, wf_utf8 s -> exists body cs,
  yaml_string s = Some (str1 (chr 34) +++ body +++ str1 (chr 34)) /\
  (forall rest, dq_chars (body +++ str1 (chr 34) +++ rest) = Some (s, rest)) /\
  body = utf8s cs /\ Forall scalar cs /\
  Forall (fun c => c_printable c = true /\ line_break c = false) cs.
Proof.
  intros s W. destruct (escape_wf s W) as (t & Et & R).
  destruct (escape_total s) as (t' & cs & Et' & _ & F & Ec). assert (t' = t) by congruence. subst t'.
  destruct (escape_cps_clean cs t F Ec) as (os & Eo & Fo & Go).
  exists t, os. split; [unfold yaml_string; now rewrite Et|]. split; [exact R|]. split; [exact Eo|]. split; [exact Fo|].
  eapply Forall_impl; [|exact Go]. intros c H. unfold yclean in H. apply andb_prop in H as [A B].
  split; [exact A|]. apply negb_true_iff, orb_false_iff in B. apply B.
Qed.

Example C07_nonvacuous :
  let s := utf8s [0x61; 0x22; 0x5C; 0x0A; 0x7F; 0xA0; 0xFEFF; 0x2028; 0x1F600; 0xE9]%N in
  wf_utf8 s /\ match yaml_string s with Some t => dq_chars (match t with String _ r => r | _ => "" end) | None => None end = Some (s, "").
Proof.
  split; [|vm_compute; reflexivity]. eexists. split; [|reflexivity]. repeat constructor.
Qed.

(** C08: reading the document back gives the tree, for UTF-8 strings, JSON numbers and keys that
    are no bare keyword. *)
Theorem C08_yaml_lossless : forall v, yaml_ok v -> exists s, serialize_yaml v = Some s /\ read_yaml s = Some v.
Proof. exact read_yaml_print. Qed.

Definition yaml_doc : value :=
  VObject [("element", VString "category"); ("a b", VArray [VNumber "-1"; VArray [VTrue]; VObject [("x", VNull)]; VArray []]);
           ("m", VObject [("n", VObject [("o", VFalse)])])].
Example C08_nonvacuous : yaml_ok yaml_doc /\
  match serialize_yaml yaml_doc with Some s => read_yaml s | None => None end = Some yaml_doc.
Proof.
  split; [|vm_compute; reflexivity].
  assert (A : forall s, sforall (fun a => byte a <? 128)%N s = true -> wf_utf8 s) by exact JsonIoProofs.wf_ascii.
  cbn. unfold key_ok. cbn [fst snd]. repeat split; try reflexivity; try (apply A; reflexivity).
Qed.

(** C08: the exclusion is needed: an empty key or a key that is a bare keyword is not read back
    as that string. *)
Theorem C08_keyword_keys_refuted : forall k, letter_keyword k = true ->
  exists s, serialize_yaml (VObject [(k, VTrue)]) = Some s /\ read_yaml s <> Some (VObject [(k, VTrue)]).
Proof.
  intros k H. unfold letter_keyword in H. cbn [existsb] in H.
  repeat (apply orb_prop in H as [H|H]; [apply String.eqb_eq in H; subst k; eexists; split; [vm_compute; reflexivity|vm_compute; discriminate]|]).
  discriminate H.
Qed.

(** C03 (YAML): no NUL and no control byte except the newlines between lines is written, for arbitrary - even malformed - strings. *)
Theorem C03_yaml_no_control : forall v, numbers_ok v = true -> exists s, serialize_yaml v = Some s /\
  sforall (fun a => (32 <=? byte a)%N || (byte a =? 10)%N) s = true.
Proof. exact yaml_bytes. Qed.

Print Assumptions C07_yaml_scalar_lossless.
Print Assumptions C08_yaml_lossless.
Print Assumptions C08_keyword_keys_refuted.
Print Assumptions C03_yaml_no_control.
