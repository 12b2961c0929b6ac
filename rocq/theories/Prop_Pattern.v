(** Property C31: the patterns of patternProperties (packages/drafter/src/refract/JsonSchema.cc) *)
From Verif Require Import Base Element ElementUtils Extend Registry Expand JsonValue JsonSchema PatternSpec PatternProofs.

(** C31. The pattern emitted for a variable property whose key is fixed and has the text [k] is found
    in exactly the names that contain [k] literally. *)
Theorem C31_fixed_key : forall n m a k o p name,
  s_fixed o = true \/ has_type_attr (Elem n m a true (DString k)) "fixed" = Some true ->
  render_pattern (Elem n m a true (DString k)) o = Some (Ok p) -> (found p name <-> contains name k).
Proof.
  intros n m a k o p name F R. unfold render_pattern in R. cbn [ehas edata] in R.
  assert (E : p = escape_pattern k).
  { destruct (s_fixed o); cbn [bind] in R; [now injection R|]. destruct F as [F|F]; [discriminate|].
    rewrite F in R. cbn in R. now injection R. }
  subst p. clear. unfold found. rewrite read_escape. split.
  - intros (ts & b & r & E & -> & S). injection E as <-. apply seq_chars in S as (r' & ->). now exists b, r'.
  - intros (b & r & ->). eexists _, b, (k ++ r)%string. split; [reflexivity|]. split; [reflexivity|]. apply seq_chars. now exists r.
Qed.
Print Assumptions C31_fixed_key.

(** ... so every name matches itself and no metacharacter of the key is live *)
Theorem C31_self : forall k, found (escape_pattern k) k.
Proof.
  intros k. exists (map TChar (list_ascii_of_string k)), ""%string, k. split; [apply read_escape|]. split; [reflexivity|].
  apply seq_chars. exists ""%string. now rewrite app_nil_s.
Qed.
Print Assumptions C31_self.

(** C31. A fixed key without a value only matches the empty name, a key that is not fixed matches every name. *)
Theorem C31_empty_fixed_key : forall n m a d o p name,
  s_fixed o = true \/ has_type_attr (Elem n m a false d) "fixed" = Some true ->
  render_pattern (Elem n m a false d) o = Some (Ok p) -> (found p name <-> name = ""%string).
Proof.
  intros n m a d o p name F R. unfold render_pattern in R. cbn [ehas edata] in R.
  assert (E : p = "^(?![\s\S])"%string).
  { destruct (s_fixed o); cbn [bind ret] in R; [now injection R as <-|]. destruct F as [F|F]; [discriminate|].
    rewrite F in R. cbn in R. now injection R as <-. }
  subst p. clear. unfold found. split.
  - intros (ts & b & r & E & -> & S). injection E as <-.
    inversion S as [|? ? ? x ? r' Ex A S']. cbn [at_] in A. destruct A as [Bs A]. subst b. rewrite A in Ex. symmetry in Ex. apply app_same in Ex. subst x r'.
    inversion S' as [|? ? ? y ? r2 Ex2 A2 S2]. destruct A2 as [_ A2]. cbn [at_] in A2.
    destruct r as [|c z]; [reflexivity|]. exfalso. apply (A2 z). now exists c.
  - intros ->. eexists _, ""%string, ""%string. split; [reflexivity|]. split; [reflexivity|].
    apply (seq_cons _ _ _ "" _ ""); [reflexivity|split; reflexivity|].
    apply (seq_cons _ _ _ "" _ ""); [reflexivity|split; [reflexivity|intros r [c H]; discriminate]|constructor].
Qed.
Print Assumptions C31_empty_fixed_key.

Theorem C31_open_key : forall e o p name,
  s_fixed o = false -> has_type_attr e "fixed" = Some false ->
  render_pattern e o = Some (Ok p) -> found p name.
Proof.
  intros e o p name F G R. unfold render_pattern in R. rewrite F, G in R. injection R as <-.
  exists [TEmpty], ""%string, name. split; [reflexivity|]. split; [reflexivity|].
  apply (seq_cons _ _ _ "" _ name); [reflexivity|reflexivity|constructor].
Qed.
Print Assumptions C31_open_key.

(** the metacharacters of a key only match themselves *)
Definition odd_key : element := Elem "string" [] [] true (DString "a.b*").
Example C31_nonvacuous : exists p, render_pattern odd_key (SO true false false false) = Some (Ok p) /\ p = "a\.b\*"%string /\ found p "xa.b*y" /\ ~ found p "aXbb".
Proof.
  eexists. split; [reflexivity|]. split; [reflexivity|].
  assert (C := fun name => C31_fixed_key "string" [] [] "a.b*" (SO true false false false) _ name (or_introl eq_refl) eq_refl).
  split; [apply C; now exists "x"%string, "y"%string|]. intros H. apply C in H as (a & b & E).
  destruct a as [|? [|? [|? [|? [|? ?]]]]]; cbn in E; try discriminate.
Qed.
