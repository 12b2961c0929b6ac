(** Proofs about the conversion of MSON: the monad, literals, and what every converted element satisfies *)
From Verif Require Import Base Element ElementSpec ElementProofs InfoProofs Extend Registry Expand ElementUtils SourceMap SourceMapProofs
  DecProofs JsonSpec JsonIoProofs SerializeSpec TypeTables StringUtility StringProofs Mson MsonSpec.

(** * The monad *)
Lemma bind_ret : forall A B (m : run A) (f : A -> run B) b, bind m f = ret b -> exists a, m = ret a /\ f a = ret b.
Proof. intros A B [[a|w|]|] f b H; cbn in H; try discriminate. now exists a. Qed.
Lemma mbind_ret : forall A B (m : M A) (f : A -> M B) b w, mbind m f = ret (b, w) ->
  exists a w1 w2, m = ret (a, w1) /\ f a = ret (b, w2) /\ w = (w1 ++ w2)%list.
Proof.
  intros A B m f b w H. unfold mbind in H. apply bind_ret in H as ([a w1] & E & H). cbn [fst snd] in H.
  apply bind_ret in H as ([b' w2] & E' & H). injection H as <- <-. now exists a, w1, w2.
Qed.
Lemma mret_ret : forall A (a b : A) w, mret a = ret (b, w) -> a = b /\ w = [].
Proof. intros A a b w H. injection H as <- <-. now split. Qed.
Lemma quiet_ret : forall A (m : run A) a w, quiet m = ret (a, w) -> m = ret a /\ w = [].
Proof. intros A m a w H. apply bind_ret in H as (x & E & H). injection H as <- <-. now split. Qed.
Lemma lift_ret : forall A (o : option A) a, lift o = ret a -> o = Some a.
Proof. intros A [x|] a H; [injection H as <-; reflexivity|discriminate]. Qed.

Ltac minv H :=
  lazymatch type of H with
  | mbind _ _ = ret _ =>
      let a := fresh "a" in let w1 := fresh "w" in let w2 := fresh "w" in let H1 := fresh "H" in let E := fresh "E" in
      apply mbind_ret in H as (a & w1 & w2 & H1 & H & E)
  | mret _ = ret _ => let E := fresh "E" in apply mret_ret in H as [H E]
  | quiet _ = ret _ => let E := fresh "E" in apply quiet_ret in H as [H E]
  | lift _ = ret _ => apply lift_ret in H
  | bind _ _ = ret _ => let a := fresh "a" in let H1 := fresh "H" in apply bind_ret in H as (a & H1 & H)
  end.

Lemma mapM_ret : forall A B (f : A -> M B) l bs w, mapM f l = ret (bs, w) ->
  exists rs, Forall2 (fun x r => f x = ret r) l rs /\ bs = map fst rs /\ w = concat (map snd rs).
Proof.
  intros A B f. induction l as [|x l IH]; intros bs w H; cbn in H.
  - minv H. subst. exists []. now split; [constructor|].
  - minv H. minv H. minv H. subst. destruct (IH _ _ H1) as (rs & F & -> & ->). exists ((a, w0) :: rs). cbn.
    split; [now constructor|]. rewrite !app_nil_r. split; reflexivity.
Qed.
Lemma mapM_ok : forall A B (f : A -> M B) l rs, Forall2 (fun x r => f x = ret r) l rs ->
  mapM f l = ret (map fst rs, concat (map snd rs)).
Proof. intros A B f l rs F. induction F as [|x [b w] l rs E F IH]; cbn; [reflexivity|]. rewrite E, IH. cbn. now rewrite app_nil_r. Qed.
Lemma mapR_ret : forall A B (f : A -> run B) l bs, mapR f l = ret bs -> Forall2 (fun x b => f x = ret b) l bs.
Proof.
  intros A B f. induction l as [|x l IH]; intros bs H; cbn in H.
  - injection H as <-. constructor.
  - minv H. minv H. injection H as <-. constructor; auto.
Qed.
Lemma foldW_ind : forall A B (f : A -> B -> M A) (P : A -> Prop) l a0 a w, foldW f a0 l = ret (a, w) -> P a0 ->
  (forall a x a' w, In x l -> P a -> f a x = ret (a', w) -> P a') -> P a.
Proof.
  intros A B f P. induction l as [|x l IH]; intros a0 a w H P0 S; cbn in H.
  - minv H. now subst.
  - minv H. apply (IH _ _ _ H); [now apply (S a0 x _ w0); [left| |]|]. intros. apply (S a2 x0 a' w2); auto. now right.
Qed.

(** * Literals *)
Lemma digit_is : forall a, digit a = is_digit a.
Proof. intros a. reflexivity. Qed.
Lemma many_digits0 : forall s, many_digits s = digits0 s.
Proof. induction s as [|a s IH]; [reflexivity|]. cbn [many_digits digits0]. now rewrite digit_is, IH. Qed.
Lemma byte_char : forall a c, (byte a =? byte c)%N = Ascii.eqb a c.
Proof.
  intros a c. destruct (Ascii.eqb_spec a c) as [->|N]; [apply N.eqb_refl|]. apply N.eqb_neq. intros H. now apply N, byte_inj.
Qed.
Lemma exponent_spec : forall s, s <> ""%string -> number_exponent s = match exp_part s with Some EmptyString => true | _ => false end.
Proof.
  intros [|c s] N; [easy|]. cbn [number_exponent exp_part].
  change 101%N with (byte "e"%char). change 69%N with (byte "E"%char). rewrite !byte_char.
  destruct (Ascii.eqb c "e" || Ascii.eqb c "E")%bool; [|reflexivity].
  destruct s as [|b t]; [reflexivity|]. cbn [skip_if].
  change 43%N with (byte "+"%char). change 45%N with (byte "-"%char). rewrite !byte_char.
  destruct (Ascii.eqb b "+" || Ascii.eqb b "-")%bool.
  - destruct t as [|d t]; [reflexivity|]. unfold digits1. rewrite digit_is. destruct (is_digit d) eqn:D; [|reflexivity].
    rewrite many_digits0. cbn [digits0]. rewrite D. now destruct (digits0 t).
  - unfold digits1. rewrite digit_is. destruct (is_digit b) eqn:D; [|reflexivity].
    rewrite many_digits0. cbn [digits0]. rewrite D. now destruct (digits0 t).
Qed.
Lemma fraction_spec : forall s, s <> ""%string ->
  number_fraction s = match frac_part s with None => false | Some t => match exp_part t with Some EmptyString => true | _ => false end end.
Proof.
  intros [|c s] N; [easy|]. unfold number_fraction, frac_part. change 46%N with (byte "."%char). rewrite byte_char.
  destruct (Ascii.eqb c ".").
  - destruct s as [|d t]; [reflexivity|]. unfold digits1. rewrite digit_is. destruct (is_digit d) eqn:D; [|reflexivity].
    rewrite many_digits0. cbn [digits0]. rewrite D. destruct (digits0 t) eqn:E; [reflexivity|]. rewrite exponent_spec by easy. reflexivity.
  - now apply exponent_spec.
Qed.
Lemma valid_number_spec : forall s, is_valid_number s = json_number s.
Proof.
  intros s. unfold is_valid_number, json_number. change 45%N with (byte "-"%char).
  set (t := match s with String a r => if Ascii.eqb a "-" then r else s | EmptyString => s end).
  replace (skip_if (fun a => (byte a =? byte "-")%N) s) with t.
  2:{ unfold t, skip_if. destruct s as [|a s]; [reflexivity|]. now rewrite byte_char. }
  clearbody t. destruct t as [|c t]; [reflexivity|]. cbn [int_part]. change 48%N with (byte "0"%char). rewrite byte_char.
  destruct (Ascii.eqb c "0").
  - destruct t as [|d t]; [reflexivity|]. now apply fraction_spec.
  - unfold digits1. rewrite digit_is. destruct (is_digit c); [|reflexivity]. rewrite many_digits0.
    destruct (digits0 t) eqn:E; [reflexivity|]. now apply fraction_spec.
Qed.

(** spaces to the right *)
Lemma trailing_split : forall s, exists w, s = (without_trailing_space s +++ w)%string /\ sforall is_space w = true.
Proof.
  induction s as [|a s (w & E & A)]; [now exists ""%string|]. cbn [without_trailing_space].
  destruct (without_trailing_space s) eqn:T.
  - destruct (is_space a) eqn:Sp.
    + exists (String a s). split; [reflexivity|]. cbn. rewrite Sp. cbn in E. now rewrite E.
    + exists s. split; [reflexivity|]. cbn in E. now rewrite E.
  - exists w. split; [|exact A]. cbn. f_equal. exact E.
Qed.
Definition ends_in_space (s : string) : Prop := exists p a, s = (p +++ String a EmptyString)%string /\ is_space a = true.
Lemma trailing_app : forall n w, sforall is_space w = true -> (n = ""%string \/ ~ ends_in_space n) -> without_trailing_space (n +++ w) = n.
Proof.
  induction n as [|a n IH]; intros w A H.
  - clear H. cbn. induction w as [|b w IH]; [reflexivity|]. cbn in A |- *. apply andb_prop in A as [S A]. rewrite IH by exact A. now rewrite S.
  - destruct H as [H|H]; [discriminate|]. cbn. destruct n as [|b n].
    + cbn. assert (T : without_trailing_space w = ""%string).
      { clear H IH. induction w as [|b w IH]; [reflexivity|]. cbn in A |- *. apply andb_prop in A as [S A]. rewrite IH by exact A. now rewrite S. }
      cbn in T. rewrite T. destruct (is_space a) eqn:S; [|reflexivity]. destruct H. now exists ""%string, a.
    + rewrite IH; [reflexivity|exact A|]. right. intros (p & c & E & S). apply H. exists (String a p), c. split; [cbn; now f_equal|exact S].
Qed.
Lemma number_no_space : forall n, json_number n = true -> ~ ends_in_space n.
Proof.
  intros n J (p & a & -> & S). destruct (JsonIoProofs.json_number_chars _ J) as [C _].
  assert (T : num_char a = true).
  { revert C. clear. induction p as [|b p IH]; cbn; intros C; apply andb_prop in C as [C1 C2]; auto. }
  revert T S. clear. destruct a as [[|] [|] [|] [|] [|] [|] [|] [|]]; cbn; discriminate.
Qed.
Lemma literal_number_spec : forall s n, literal_number s = Some n <->
  json_number n = true /\ exists w, s = (n +++ w)%string /\ sforall is_space w = true.
Proof.
  intros s n. unfold literal_number. rewrite valid_number_spec. split.
  - destruct (json_number _) eqn:J; [|discriminate]. intros H. injection H as <-. split; [exact J|]. apply trailing_split.
  - intros (J & w & -> & A). rewrite trailing_app; [|exact A|right; now apply number_no_space]. now rewrite J.
Qed.
