(** Properties C26, C28, C30 and C47: JSON bodies and JSON Schemas from data structures *)
From Verif Require Import Base Utf8Spec SoValue SoValueSpec JsonIo JsonSpec JsonIoProofs Prop_Json Element ElementSpec MergeSpec Extend Registry Expand
  ExpandProofs ElementUtils JsonValue JsonSchema Depth GenSpec GenConv BodyProofs SchemaProofs.

(** ** C26: arithmetic of cardinals (32-bit, the largest number standing for infinity) *)
Definition reading (c : N) : enat := if (c =? 2 ^ 32 - 1)%N then Inf else Fin c.

Theorem C26_add : forall a b, (a < 2 ^ 32 -> b < 2 ^ 32 -> fits (eadd (reading a) (reading b)) ->
  c_add a b < 2 ^ 32 /\ reading (c_add a b) = eadd (reading a) (reading b))%N.
Proof.
  intros a b Ha Hb F. unfold reading, c_add, c_open, modulus in *. change (2 ^ 32)%N with 4294967296%N in *.
  change (4294967296 - 1)%N with 4294967295%N in *.
  destruct (N.eqb_spec a 4294967295); [split; [cbn; lia|reflexivity]|].
  destruct (N.eqb_spec b 4294967295); [split; [cbn; lia|reflexivity]|].
  cbn [orb] in *. cbn [eadd fits] in *. rewrite N.mod_small by lia. split; [lia|].
  destruct (N.eqb_spec (a + b) 4294967295); [lia|reflexivity].
Qed.
Print Assumptions C26_add.

Theorem C26_mul : forall a b, (a < 2 ^ 32 -> b < 2 ^ 32 -> fits (emul (reading a) (reading b)) ->
  c_mul a b < 2 ^ 32 /\ reading (c_mul a b) = emul (reading a) (reading b))%N.
Proof.
  intros a b Ha Hb F. unfold reading, c_mul, c_open, modulus in *. change (2 ^ 32)%N with 4294967296%N in *.
  change (4294967296 - 1)%N with 4294967295%N in *.
  destruct (N.eqb_spec a 0) as [->|Na]; cbn [orb].
  { split; [lia|]. cbn. destruct (N.eqb_spec b 4294967295); reflexivity. }
  destruct (N.eqb_spec b 0) as [->|Nb]; cbn [orb].
  { split; [lia|]. cbn. destruct (N.eqb_spec a 4294967295); cbn; [reflexivity|]. now rewrite N.mul_0_r. }
  destruct (N.eqb_spec a 4294967295) as [->|A]; cbn [orb].
  { split; [lia|]. cbn [N.eqb]. destruct (N.eqb_spec b 4294967295); cbn; [reflexivity|]. destruct (N.eqb_spec b 0); [lia|reflexivity]. }
  destruct (N.eqb_spec b 4294967295) as [->|B]; cbn [orb].
  { split; [lia|]. cbn. destruct (N.eqb_spec a 0); [lia|reflexivity]. }
  cbn [emul fits] in F. rewrite N.mod_small by lia. split; [lia|].
  destruct (N.eqb_spec (a * b) 4294967295); [lia|reflexivity].
Qed.
Print Assumptions C26_mul.

Example C26_nonvacuous : (reading (c_add 3 (c_mul 5 7)) = Fin 38 /\ reading (c_mul 2 c_open) = Inf /\ reading (c_mul 0 c_open) = Fin 0)%N.
Proof. repeat split; reflexivity. Qed.

(** beyond, results wrap around, and the largest finite number is mistaken for infinity *)
Theorem C26_wraps_refuted : (exists a b, a < 2 ^ 32 /\ b < 2 ^ 32 /\ emul (reading a) (reading b) = Fin (2 ^ 32) /\ reading (c_mul a b) = Fin 0)%N /\
  (exists a b, a < 2 ^ 32 /\ b < 2 ^ 32 /\ eadd (reading a) (reading b) = Fin (2 ^ 32 - 1) /\ reading (c_add a b) = Inf)%N.
Proof.
  split; [exists 65536%N, 65536%N|exists 4294967294%N, 1%N]; repeat split; reflexivity.
Qed.
Print Assumptions C26_wraps_refuted.

(** ** C47: generation terminates *)
Theorem C47_body_terminates : forall e, exists r, computes (fun f => generate_value f e) r.
Proof.
  intros e. destruct (deep_all e) as [d H]. destruct (value_conv d e H) as (V & _ & _). exact (V (VO false false)).
Qed.
Print Assumptions C47_body_terminates.

Theorem C47_schema_terminates : forall e, exists r, computes (fun f => generate_schema f e) r.
Proof.
  intros e. destruct (deep_all e) as [d H]. destruct (schema_conv d e H) as (S & _).
  apply (conv_bind _ _ (fun f => render_schema f e (SO false false false false)) (fun f fs => lift (reduce (f_schema_version :: fs)))).
  - apply S.
  - intros fs. unfold lift. destruct (reduce _); apply conv_const.
Qed.
Print Assumptions C47_schema_terminates.

Theorem C47_size_terminates : forall e inh, exists r, computes (fun f => size_of f e inh) r.
Proof. intros e inh. destruct (deep_all e) as [d H]. exact (size_conv d e inh H). Qed.
Print Assumptions C47_size_terminates.

(** ** C28: bodies *)
Definition body (e : element) (v : value) : Prop := computes (fun f => generate_value f e) (Ok v).
Definition schema (e : element) (fs : list (string * value)) : Prop := computes (fun f => generate_schema f e) (Ok fs).

Lemma allsub_anything : forall (Q : dsd element -> Prop) e, (forall d, Q d) -> allsub Q e.
Proof. intros Q e H x _. apply H. Qed.

(** the members of every object of a body have different names *)
Theorem C28_unique_keys : forall e v, body e v -> unique_keys v.
Proof.
  intros e v [f H]. assert (K : allsub (lit_ok False (fun _ => True)) e).
  { apply allsub_anything. intros []; cbn; auto; now intros []. }
  destruct (body_good False (fun _ => True) I f e K) as (V & _ & _). exact (proj1 (V _ _ (H f (le_n f)))).
Qed.
Print Assumptions C28_unique_keys.

Lemma wf_empty : wf_utf8 "".
Proof. exists []. split; [constructor|reflexivity]. Qed.

(** what the literals of a data structure have to be *)
Definition literal_ok (d : dsd element) : Prop :=
  match d with DNumber s => json_number s = true | DString s => wf_utf8 s | _ => True end.

(** a body whose number literals are JSON numbers and whose strings are UTF-8 prints as a JSON text
    in UTF-8 that denotes it *)
Theorem C28_body_is_json : forall e v, allsub literal_ok e -> body e v ->
  Json_text v (serialize_json v) /\ read_json (serialize_json v) = Some v /\
  wf_utf8 (serialize_json v) /\ wf_utf8 (serialize_json_packed v).
Proof.
  intros e v K [f H]. assert (K' : allsub (lit_ok True wf_utf8) e).
  { intros x Hx. specialize (K x Hx). destruct (edata x); cbn in *; auto. }
  destruct (body_good True wf_utf8 wf_empty f e K') as (V & _ & _).
  destruct (V _ _ (H f (le_n f))) as (_ & N & S). specialize (N I).
  destruct (C01_json_lossless v N) as [A B]. destruct (C01_json_is_utf8 v N S) as [C D]. auto.
Qed.
Print Assumptions C28_body_is_json.

(** a schema is a JSON text, too (its texts and keys come from the data structure and from patterns) *)
Theorem C28_schema_is_json : forall e fs, allsub (fun d => match d with DNumber s => json_number s = true | _ => True end) e -> schema e fs ->
  Json_text (VObject fs) (serialize_json (VObject fs)) /\ read_json (serialize_json (VObject fs)) = Some (VObject fs).
Proof.
  intros e fs K [f H]. assert (K' : allsub (lit_ok True (fun _ => True)) e).
  { intros x Hx. specialize (K x Hx). destruct (edata x); cbn in *; auto. }
  specialize (H f (le_n f)). unfold generate_schema in H.
  destruct (render_schema f e (SO false false false false)) as [[x| |]|] eqn:R; cbn in H; try discriminate.
  assert (A := schema_alone f e (SO false false false false) x R). rewrite (reduce_alone x A) in H. cbn in H. injection H as <-.
  apply C01_json_lossless. apply nums_obj. constructor; [reflexivity|].
  destruct (schema_nums f e K') as [S _]. exact (S _ _ R).
Qed.
Print Assumptions C28_schema_is_json.

(** [computes] by evaluation *)
Ltac evaluates := exists 12; let f := fresh "f" in let H := fresh in intros f H;
  do 12 (destruct f as [|f]; [exfalso; lia|]); vm_compute; reflexivity.

Definition lit (d : dsd element) : element := make_element d.
Definition str (s : string) : element := make_element (DString s).
Definition num (s : string) : element := make_element (DNumber s).
Definition member (k : string) (v : element) : element := make_element (DMember (Some (str k)) (Some v)).
Definition typed (attr : string) (e : element) : element :=
  set_attrs e [("typeAttributes"%string, make_element (DArray [str attr]))].

Ltac ascii_text := match goal with |- wf_utf8 ?s => exists (map byte (list_ascii_of_string s)); split; [repeat constructor|reflexivity] end.
Ltac literals := apply allsub_split; split; [cbn; first [exact I|reflexivity|ascii_text]|];
  let c := fresh "c" in let H := fresh "H" in intros c H; cbn in H; repeat (destruct H as [<-|H]; [literals|]); destruct H.

(** [{ "a": 1.5, "b": [true, "x"], <mixin: { "a": null }> }] *)
Definition sample_structure : element :=
  lit (DObject [member "a" (num "1.5"); member "b" (lit (DArray [lit (DBoolean true); str "x"]));
                lit (DObject [member "a" (lit DNull)])]).
Example C28_nonvacuous : allsub literal_ok sample_structure /\
  body sample_structure (VObject [("a", VNull); ("b", VArray [VTrue; VString "x"])])%string.
Proof.
  split.
  - literals.
  - evaluates.
Qed.

(** Not so for schemas: a member that a mixin repeats is listed twice under "properties", and when
    it is required also twice under "required", which draft-07 (section 6.5.3) does not allow. *)
Theorem C28_schema_duplicates_refuted : exists e fs, schema e fs /\ ~ unique_keys (VObject fs) /\
  exists l, vfind fs "required" = Some (VArray l) /\ ~ NoDup l.
Proof.
  exists (lit (DObject [typed "required" (member "a" (str "x")); lit (DObject [typed "required" (member "a" (str "y"))])])).
  eexists. split; [evaluates|]. split.
  - cbn. intros [_ [_ [_ [[N _] _]]]]. inversion N as [|? ? H]. apply H. now left.
  - eexists. split; [reflexivity|]. intros N. inversion N as [|? ? H]. apply H. now left.
Qed.
Print Assumptions C28_schema_duplicates_refuted.

(** ** C30: the final flattening step changes nothing *)
Theorem C30_reduce_identity : forall e fs, computes (fun f => render_schema f e (SO false false false false)) (Ok fs) ->
  schema e (("$schema", VString "http://json-schema.org/draft-07/schema#") :: fs)%string.
Proof.
  intros e fs [f0 H]. exists f0. intros f L. unfold generate_schema. rewrite (H f L). cbn [bind].
  rewrite (reduce_alone fs); [reflexivity|]. exact (schema_alone f e _ fs (H f L)).
Qed.
Print Assumptions C30_reduce_identity.

(** it would change other schemas: the alternatives overwrite whatever member comes last *)
Theorem C30_reduce_misplaces_refuted : exists s s', reduce s = Some s' /\ vfind s "type" = Some (VString "string") /\
  vfind s' "type" <> Some (VString "string").
Proof.
  exists [("anyOf", VArray [null_schema]); ("type", VString "string")]%string. eexists. split; [reflexivity|]. split; [reflexivity|discriminate].
Qed.
Print Assumptions C30_reduce_misplaces_refuted.

Example C30_nonvacuous : exists fs, computes (fun f => render_schema f (typed "nullable" sample_structure) (SO false false false false)) (Ok fs) /\
  vfind fs "anyOf" <> None.
Proof. eexists. split; [evaluates|discriminate]. Qed.

(** generation may end in an undefined state (a member without a value), or with a merge error *)
Example C47_outcomes :
  (exists e, computes (fun f => generate_value f e) Undefined) /\
  (exists e t, computes (fun f => generate_schema f e) (Throws t)).
Proof.
  split.
  - exists (lit (DObject [make_element (DMember (Some (str "a")) None)])). evaluates.
  - exists (lit (DExtend [str "a"; num "1"])). eexists. evaluates.
Qed.
