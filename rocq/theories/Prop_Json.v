(** Properties C01, C02 and the JSON half of C03 (packages/drafter/src/utils/so/JsonIo.cc). *)
From Verif Require Import Base Utf8Spec SoValue JsonIo JsonSpec JsonIoProofs.
Local Open Scope string_scope.

(** C01: the pretty output is a JSON text of RFC 8259 denoting the tree, and an independent
    reader gets exactly the tree back. *)
Theorem C01_json_lossless : forall v, numbers_ok v = true ->
  Json_text v (serialize_json v) /\ read_json (serialize_json v) = Some v.
Proof.
  intros v H. split; [|exact (read_json_print v false 0 H)].
  exists "", (serialize_json v), "". repeat split; [exact (json_grammar v false 0 H)|].
  cbn. now rewrite append_nil_r.
Qed.

(** C01: if all strings are UTF-8 the text is UTF-8, as RFC 8259 section 8.1 demands. *)
Theorem C01_json_is_utf8 : forall v, numbers_ok v = true -> strings_ok wf_utf8 v ->
  wf_utf8 (serialize_json v) /\ wf_utf8 (serialize_json_packed v).
Proof. intros v H S. split; [exact (wf_print v false 0 H S)|exact (wf_print v true 0 H S)]. Qed.

(** C01: distinct trees have distinct texts. *)
Theorem C01_json_injective : forall v w, numbers_ok v = true -> numbers_ok w = true ->
  serialize_json v = serialize_json w -> v = w.
Proof.
  intros v w Hv Hw E. assert (A := read_json_print v false 0 Hv). assert (B := read_json_print w false 0 Hw).
  unfold serialize_json in E. congruence.
Qed.

Definition sample_doc : value :=
  VObject [("a""\" ++ String (chr 10) "z", VArray [VNumber "-1.5e+3"; VTrue; VNull; VObject []]);
           ("", VString (String (chr 0) (String (chr 31) (of_bytes [195; 169]%N))));
           ("k", VArray [])]%string.

Example C01_nonvacuous : numbers_ok sample_doc = true /\ read_json (serialize_json sample_doc) = Some sample_doc.
Proof. split; vm_compute; reflexivity. Qed.

(** C02: the packed output is a JSON text for the same tree, and it is what remains of the
    pretty output when whitespace outside strings is removed. *)
Theorem C02_packed_equals_pretty : forall v, numbers_ok v = true ->
  read_json (serialize_json_packed v) = read_json (serialize_json v) /\
  serialize_json_packed v = minify (serialize_json v) /\
  minify (serialize_json_packed v) = serialize_json_packed v.
Proof.
  intros v H. unfold serialize_json, serialize_json_packed.
  rewrite !read_json_print by exact H. split; [reflexivity|].
  assert (E : minify (json_print false 0 v) = json_print true 0 v).
  { unfold minify. rewrite <- (append_nil_r (json_print false 0 v)).
    rewrite (minify_print v 0 0 "" H). cbn. apply append_nil_r. }
  split; [now rewrite E|]. rewrite <- E.
  generalize (json_print false 0 v). intros s. unfold minify.
  assert (G : forall q e, q = true \/ e = false -> minify_from q e (minify_from q e s) = minify_from q e s).
  { induction s as [|a s IH]; intros q e Hq; [reflexivity|].
    cbn [minify_from]. destruct q.
    - cbn [minify_from]. f_equal. destruct e; [now apply IH; left|].
      destruct (byte a =? 92)%N; [now apply IH; left|]. destruct (byte a =? 34)%N; apply IH; auto.
    - destruct Hq as [Hq|Hq]; [discriminate|]. subst e.
      destruct (is_ws a) eqn:W; [apply IH; auto|]. cbn [minify_from]. rewrite W. f_equal. apply IH; auto. }
  apply G. now right.
Qed.

Example C02_nonvacuous : serialize_json_packed sample_doc <> serialize_json sample_doc.
Proof. vm_compute. discriminate. Qed.

(** C03 (JSON): no byte below 0x20 is written except the newlines of the pretty printer; the
    packed form has none at all. In particular there is no NUL. *)
Theorem C03_json_no_control : forall v, numbers_ok v = true ->
  sforall (fun a => (32 <=? byte a)%N || (byte a =? 10)%N) (serialize_json v) = true /\
  sforall (fun a => 32 <=? byte a)%N (serialize_json_packed v) = true.
Proof.
  intros v H. split.
  - exact (print_bytes v false 0 H).
  - eapply sforall_impl; [|exact (print_bytes v true 0 H)]. intros a Ha. unfold okb in Ha.
    cbn in Ha. now rewrite orb_false_r in Ha.
Qed.

Print Assumptions C01_json_lossless.
Print Assumptions C01_json_is_utf8.
Print Assumptions C01_json_injective.
Print Assumptions C02_packed_equals_pretty.
Print Assumptions C03_json_no_control.
