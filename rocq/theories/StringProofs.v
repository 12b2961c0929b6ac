(** Lemmas for C40-C43 *)
From Verif Require Import Base ByteBuffer StringUtility StringSpec.
Local Open Scope string_scope.

Lemma sub_app : forall a b, substring 0 (String.length a) (a +++ b) = a.
Proof. induction a as [|x a IH]; intros b; cbn; [destruct b; reflexivity|now rewrite IH]. Qed.
Lemma sub_all : forall a, substring 0 (String.length a) a = a.
Proof. intros a. rewrite <- (append_nil_r a) at 2. apply sub_app. Qed.
Lemma sub_shift : forall a b m, substring (String.length a) m (a +++ b) = substring 0 m b.
Proof. induction a as [|x a IH]; intros b m; cbn; [reflexivity|apply IH]. Qed.
Lemma sub_mid : forall a p b, substring (String.length a) (String.length p) (a +++ p +++ b) = p.
Proof. intros a p b. now rewrite sub_shift, sub_app. Qed.
Lemma from_app : forall a b n, n = String.length a -> from (a +++ b) n = b.
Proof.
  intros a b n ->. unfold from. rewrite length_append, sub_shift.
  replace (String.length a + String.length b - String.length a) with (String.length b) by lia. apply sub_all.
Qed.
Lemma sub_len : forall s n, n <= String.length s -> String.length (substring 0 n s) = n.
Proof. induction s as [|x s IH]; intros [|n] H; cbn in *; try lia; try reflexivity. now rewrite IH by lia. Qed.
Lemma sub_at : forall s m k, substring m k s = substring 0 k (from s m).
Proof.
  unfold from. induction s as [|x s IH]; intros m k; cbn.
  - now destruct m, k.
  - destruct m as [|m]; cbn.
    + now rewrite sub_all.
    + apply IH.
Qed.
Lemma split_at : forall s n, n <= String.length s -> s = substring 0 n s +++ from s n.
Proof.
  unfold from. induction s as [|x s IH]; intros [|n] H; cbn in *; try lia; try reflexivity.
  - now rewrite sub_all.
  - now rewrite <- IH by lia.
Qed.
Lemma sub_is : forall s m p, p <> "" -> substring m (String.length p) s = p ->
  exists a b, s = a +++ p +++ b /\ String.length a = m.
Proof.
  induction s as [|x s IH]; intros m p Hp H.
  - cbn in H. destruct m, (String.length p); now subst.
  - destruct m as [|m].
    + assert (Hl : String.length p <= String.length (String x s)).
      { rewrite <- H at 1. generalize (String x s) (String.length p). clear. intros s n. revert n.
        induction s as [|x s IH]; intros [|n]; cbn; try lia. specialize (IH n). lia. }
      exists "", (from (String x s) (String.length p)). split; [|reflexivity].
      rewrite append_nil_l. rewrite <- H at 1. now apply split_at.
    + destruct (IH m p Hp H) as (a & b & -> & <-). exists (String x a), b. now split.
Qed.

Lemma index_some : forall n p s m, p <> "" -> index n p s = Some m ->
  exists a b, s = a +++ p +++ b /\ String.length a = m /\ n <= m /\
    (forall a' b', s = a' +++ p +++ b' -> n <= String.length a' -> m <= String.length a').
Proof.
  intros n p s m Hp H.
  destruct (sub_is s m p Hp (index_correct1 n m p s H)) as (a & b & E & L).
  exists a, b. split; [exact E|]. split; [exact L|]. split.
  - clear -H. revert n m H. induction s as [|x s IH]; intros n m H.
    + cbn in H. destruct n, p; try discriminate. lia.
    + cbn in H. destruct n; [lia|]. destruct (index n p s) eqn:E; [|discriminate]. injection H as <-.
      specialize (IH _ _ E). lia.
  - intros a' b' E' Hn. destruct (le_lt_dec m (String.length a')) as [?|Hlt]; [assumption|exfalso].
    apply (index_correct2 n m p s H (String.length a') Hn Hlt). rewrite E'. apply sub_mid.
Qed.
Lemma index_none : forall n p s, p <> "" -> index n p s = None ->
  forall a b, s = a +++ p +++ b -> String.length a < n.
Proof.
  intros n p s Hp H a b E. destruct (le_lt_dec n (String.length a)) as [Hle|?]; [exfalso|assumption].
  apply (index_correct3 n (String.length a) p s H Hp Hle). rewrite E. apply sub_mid.
Qed.
Lemma app_cut : forall a b c d : string, a +++ b = c +++ d -> String.length a = String.length c -> a = c /\ b = d.
Proof.
  induction a as [|x a IH]; intros b [|y c] d H L; cbn in *; try discriminate; [now split|].
  injection H as -> H. destruct (IH _ _ _ H) as [-> ->]; [lia|now split].
Qed.
Lemma app_over : forall a b c d : string, a +++ b = c +++ d -> String.length a <= String.length c ->
  exists m, c = a +++ m /\ b = m +++ d.
Proof.
  induction a as [|x a IH]; intros b c d H L.
  - exists c. now split.
  - destruct c as [|y c]; cbn in *; [lia|]. injection H as -> H.
    destruct (IH _ _ _ H) as (m & -> & ->); [lia|]. now exists m.
Qed.

(** trimming *)
Lemma is_space_spec : forall a, is_space a = true <-> white a.
Proof.
  intros a. unfold is_space, white. rewrite !orb_true_iff, !Ascii.eqb_eq. cbn [In]. split.
  - intros [[[[[H|H]|H]|H]|H]|H]; subst; cbn; auto 10.
  - intros H. assert (E : forall n, n = byte a -> a = chr n) by (intros n ->; symmetry; apply chr_byte).
    destruct H as [H|[H|[H|[H|[H|[H|[]]]]]]]; rewrite (E _ H); cbn; auto 10.
Qed.
Lemma is_space_not : forall a, is_space a = false <-> ~ white a.
Proof. intros a. rewrite <- is_space_spec. destruct (is_space a); split; congruence. Qed.
Lemma all_app : forall P a b, all P (a +++ b) <-> all P a /\ all P b.
Proof.
  unfold all. intros P. induction a as [|x a IH]; intros b; cbn.
  - split; [intros H; split; [constructor|exact H]|tauto].
  - split.
    + intros H. inversion H; subst. apply IH in H3 as [? ?]. split; [now constructor|assumption].
    + intros [H1 H2]. inversion H1; subst. constructor; [assumption|]. apply IH. now split.
Qed.
Lemma all_cons : forall (P : ascii -> Prop) x a, all P (String x a) <-> P x /\ all P a.
Proof. intros P x a. unfold all. cbn. split; [intros H; inversion H; now split|intros [? ?]; now constructor]. Qed.
Lemma snoc_inj : forall a b c d, a +++ String c "" = b +++ String d "" -> a = b /\ c = d.
Proof.
  intros a b c d H. assert (L := f_equal String.length H). rewrite !length_append in L. cbn in L.
  destruct (app_cut _ _ _ _ H) as [-> E]; [lia|]. now injection E as ->.
Qed.

Lemma spaces_split : forall s, exists a t, s = a +++ t /\ String.length a = spaces s /\ all white a /\
  (forall c r, t = String c r -> ~ white c).
Proof.
  induction s as [|x s (a & t & E & L & W & H)].
  - exists "", "". repeat split; try constructor. discriminate.
  - cbn. destruct (is_space x) eqn:X.
    + exists (String x a), t. rewrite E, append_cons. split; [reflexivity|]. cbn. rewrite L, <- E. split; [reflexivity|].
      split; [|exact H]. apply all_cons. split; [now apply is_space_spec|exact W].
    + exists "", (String x s). split; [reflexivity|]. split; [reflexivity|]. split; [constructor|].
      intros c r Hc. injection Hc as <- _. now apply is_space_not.
Qed.
Lemma last_split : forall s, exists t b, s = t +++ b /\ String.length t = last_base s /\ all white b /\
  (forall r c, t = r +++ String c "" -> ~ white c).
Proof.
  induction s as [|x s (t & b & E & L & W & H)].
  - exists "", "". repeat split; try constructor. intros r c Hc. now destruct r.
  - cbn [last_base]. destruct (Nat.eqb_spec (last_base s) 0) as [Z|Z].
    + destruct t as [|y t]; [|cbn in L; lia]. destruct (is_space x) eqn:X.
      * exists "", (String x s). split; [reflexivity|]. split; [reflexivity|]. split.
        -- apply all_cons. split; [now apply is_space_spec|]. now rewrite E.
        -- intros r c Hc. now destruct r.
      * exists (String x ""), s. split; [reflexivity|]. split; [reflexivity|]. split; [now rewrite E|].
        intros r c Hc. destruct r as [|y r]; [injection Hc as <-; now apply is_space_not|]. cbn in Hc. injection Hc as _ Hc.
        now destruct r.
    + exists (String x t), b. split; [now rewrite E|]. split; [cbn; now rewrite L|]. split; [exact W|].
      intros r c Hc. destruct r as [|y r].
      * cbn in Hc. injection Hc as <- ->. cbn in L. lia.
      * cbn in Hc. injection Hc as _ Hc. now apply (H r).
Qed.
Lemma last_char : forall c r, exists r' c', String c r = r' +++ String c' "".
Proof.
  intros c r. revert c. induction r as [|x r IH]; intros c.
  - now exists "", c.
  - destruct (IH x) as (r' & c' & ->). now exists (String c r'), c'.
Qed.
Lemma trim_end_spec : forall s, exists b, s = trim_end s +++ b /\ all white b /\
  (forall r c, trim_end s = r +++ String c "" -> ~ white c).
Proof.
  intros s. destruct (last_split s) as (t & b & E & L & W & H).
  assert (X : trim_end s = t) by (unfold trim_end; rewrite <- L, E; apply sub_app).
  rewrite X. exists b. now repeat split.
Qed.
Lemma trim_start_spec : forall s, exists a, s = a +++ trim_start s /\ all white a /\ String.length a = spaces s /\
  (forall c r, trim_start s = String c r -> ~ white c).
Proof.
  intros s. destruct (spaces_split s) as (a & t & E & L & W & H).
  assert (X : trim_start s = t) by (unfold trim_start; rewrite <- L, E; now apply from_app).
  rewrite X. exists a. now repeat split.
Qed.
Lemma trim_spec : forall s, exists a b, trimmed a s (trim s) b.
Proof.
  intros s. unfold trimmed, trim.
  destruct (trim_end_spec s) as (b & E1 & W1 & H1). destruct (trim_start_spec (trim_end s)) as (a & E2 & W2 & _ & H2).
  exists a, b. rewrite E1 at 1. rewrite E2 at 1. rewrite append_assoc. split; [reflexivity|]. split; [exact W2|].
  split; [exact W1|]. split; [exact H2|].
  intros r c Hc. rewrite E2, Hc in H1. apply (H1 (a +++ r) c). now rewrite append_assoc.
Qed.
Lemma all_white_spaces : forall s, all white s -> spaces s = String.length s /\ last_base s = 0.
Proof.
  induction s as [|x s IH]; intros H; [now split|]. apply all_cons in H as [Hx Hs]. apply is_space_spec in Hx.
  destruct (IH Hs) as [A B]. cbn. now rewrite Hx, A, B.
Qed.
Lemma spaces_app : forall a t, all white a -> (forall c r, t = String c r -> ~ white c) -> spaces (a +++ t) = String.length a.
Proof.
  induction a as [|x a IH]; intros t W H.
  - cbn. destruct t as [|c r]; [reflexivity|]. cbn. specialize (H c r eq_refl). apply is_space_not in H. now rewrite H.
  - apply all_cons in W as [Wx Wa]. apply is_space_spec in Wx. cbn. now rewrite Wx, (IH _ Wa H).
Qed.
Lemma last_base_app : forall t b, all white b -> (forall r c, t = r +++ String c "" -> ~ white c) ->
  last_base (t +++ b) = String.length t.
Proof.
  intros t b W H. destruct (last_split (t +++ b)) as (t' & b' & E & L & W' & H'). rewrite <- L. f_equal.
  destruct (le_ge_dec (String.length t') (String.length t)) as [Hl|Hl].
  - destruct (app_over _ _ _ _ (eq_sym E) Hl) as (m & -> & Eb).
    destruct m as [|x m]; [now rewrite append_nil_r|exfalso].
    destruct (last_char x m) as (r & c & Em). rewrite Em in *. apply (H (t' +++ r) c); [now rewrite append_assoc|].
    rewrite Eb in W'. apply all_app in W' as [W' _]. apply all_app in W' as [_ W']. now apply all_cons in W' as [W' _].
  - destruct (app_over _ _ _ _ E Hl) as (m & -> & Eb).
    destruct m as [|x m]; [now rewrite append_nil_r|exfalso].
    destruct (last_char x m) as (r & c & Em). rewrite Em in *. apply (H' (t +++ r) c); [now rewrite append_assoc|].
    rewrite Eb in W. apply all_app in W as [W _]. apply all_app in W as [_ W]. now apply all_cons in W as [W _].
Qed.
Lemma trimmed_unique : forall a s t b, trimmed a s t b -> trim s = t.
Proof.
  intros a s t b (E & Wa & Wb & H1 & H2). unfold trim, trim_end, trim_start.
  destruct t as [|x t].
  - rewrite append_nil_l in E. assert (W : all white s) by (rewrite E; apply all_app; now split).
    destruct (all_white_spaces s W) as [_ ->]. now destruct s.
  - assert (Hat : forall r c, a +++ String x t = r +++ String c "" -> ~ white c).
    { intros r c Hc. destruct (last_char x t) as (r' & c' & Et). rewrite Et, <- append_assoc in Hc.
      apply snoc_inj in Hc as [_ <-]. now apply (H2 r'). }
    rewrite E, <- append_assoc, (last_base_app _ _ Wb Hat), sub_app.
    rewrite (spaces_app _ _ Wa H1). now apply from_app.
Qed.

(** splitting *)
Lemma has_cons : forall d x s, ~ has d (String x s) -> d <> x /\ ~ has d s.
Proof. unfold has. cbn. intros d x s H. split; intros ?; apply H; auto. Qed.
Lemma getlines_piece : forall p d q r, ~ has d p ->
  getlines (p +++ String d r) d (Some q) = (q +++ p) :: getlines r d None.
Proof.
  induction p as [|x p IH]; intros d q r H; cbn.
  - now rewrite Ascii.eqb_refl, append_nil_r.
  - apply has_cons in H as [Hx Hp]. destruct (Ascii.eqb_spec x d) as [->|_]; [congruence|].
    rewrite (IH _ _ _ Hp). now rewrite append_assoc.
Qed.
Lemma getlines_first : forall p d r, ~ has d p -> getlines (p +++ String d r) d None = p :: getlines r d None.
Proof.
  intros [|x p] d r H; cbn.
  - now rewrite Ascii.eqb_refl.
  - apply has_cons in H as [Hx Hp]. destruct (Ascii.eqb_spec x d) as [->|_]; [congruence|].
    now rewrite (getlines_piece _ _ _ _ Hp).
Qed.
Lemma getlines_end : forall p d q, ~ has d p -> getlines p d (Some q) = [q +++ p].
Proof.
  induction p as [|x p IH]; intros d q H; cbn; [now rewrite append_nil_r|].
  apply has_cons in H as [Hx Hp]. destruct (Ascii.eqb_spec x d) as [->|_]; [congruence|].
  rewrite (IH _ _ Hp). now rewrite append_assoc.
Qed.
Lemma split_terminated : forall d ps tail, Forall (fun p => ~ has d p) ps -> ~ has d tail ->
  split (terminated d ps +++ tail) d = app ps (if String.eqb tail "" then [] else [tail]).
Proof.
  unfold split, terminated. intros d ps tail H T. induction H as [|p ps Hp H IH]; cbn.
  - destruct tail as [|x t]; [reflexivity|]. cbn. apply has_cons in T as [Hx Ht].
    destruct (Ascii.eqb_spec x d) as [->|_]; [congruence|]. now rewrite (getlines_end _ _ _ Ht).
  - rewrite !append_assoc. cbn. rewrite (getlines_first _ _ _ Hp). now rewrite IH.
Qed.
Lemma pieces_of : forall d s, exists ps tail, Forall (fun p => ~ has d p) ps /\ ~ has d tail /\ s = terminated d ps +++ tail.
Proof.
  intros d. induction s as [|x s (ps & tail & F & T & E)].
  - exists [], "". repeat split; [constructor|intros []].
  - destruct (Ascii.eqb_spec x d) as [->|N].
    + exists ("" :: ps), tail. split; [constructor; [intros []|exact F]|]. split; [exact T|]. cbn. now rewrite E.
    + destruct ps as [|p ps].
      * exists [], (String x tail). cbn in E. split; [constructor|]. split; [|cbn; now rewrite E].
        unfold has. cbn. intros [?|?]; [congruence|now apply T].
      * exists (String x p :: ps), tail. inversion F; subst. split; [|split; [exact T|reflexivity]].
        constructor; [|assumption]. unfold has. cbn. intros [?|?]; [congruence|now apply H1].
Qed.
Lemma occurs_char : forall d s, occurs (String d "") s -> has d s.
Proof.
  intros d s (a & b & ->). unfold has. clear. induction a as [|x a IH]; cbn; [now left|now right].
Qed.
Lemma has_split : forall d s, has d s -> exists a b, s = a +++ String d b /\ ~ has d a.
Proof.
  unfold has. induction s as [|x s IH]; cbn; intros H; [easy|].
  destruct (Ascii.eqb_spec x d) as [->|N].
  - exists "", s. split; [reflexivity|]. intros [].
  - destruct H as [H|H]; [congruence|]. destruct (IH H) as (a & b & -> & Ha). exists (String x a), b.
    split; [reflexivity|]. cbn. intros [?|?]; [congruence|now apply Ha].
Qed.
Lemma has_app : forall d a b, has d (a +++ b) <-> has d a \/ has d b.
Proof.
  unfold has. intros d a b. induction a as [|x a IH]; cbn; [tauto|]. rewrite IH. tauto.
Qed.
Lemma find_char : forall d a b, ~ has d a -> index 0 (String d "") (a +++ String d b) = Some (String.length a).
Proof.
  intros d a b H. destruct (index 0 (String d "") (a +++ String d b)) as [m|] eqn:E.
  - apply index_some in E as (a' & b' & Ea & L & _ & M); [|discriminate]. f_equal. subst m.
    specialize (M a b eq_refl ltac:(lia)).
    destruct (Nat.eq_dec (String.length a') (String.length a)) as [?|N]; [assumption|exfalso].
    symmetry in Ea. destruct (app_over _ _ _ _ Ea M) as (m & -> & Em). destruct m as [|x m].
    + rewrite append_nil_r in N. lia.
    + cbn in Em. injection Em as -> _. apply H. apply has_app. right. now left.
  - exfalso. assert (D : String d "" <> "") by discriminate. assert (X := index_none _ _ _ D E a b eq_refl). lia.
Qed.
Lemma find_no_char : forall d s, ~ has d s -> index 0 (String d "") s = None.
Proof.
  intros d s H. destruct (index 0 (String d "") s) as [m|] eqn:E; [|reflexivity].
  apply index_some in E as (a' & b' & Ea & _); [|discriminate]. exfalso. apply H, occurs_char. now exists a', b'.
Qed.
Lemma split_first_some : forall d a b, ~ has d a -> split_on_first (a +++ String d b) d = [a; b].
Proof.
  intros d a b H. unfold split_on_first. rewrite (find_char _ _ _ H), sub_app.
  replace (a +++ String d b) with ((a +++ String d "") +++ b) by now rewrite append_assoc.
  rewrite from_app; [reflexivity|]. rewrite length_append. reflexivity.
Qed.
Lemma split_first_none : forall d s, ~ has d s -> split_on_first s d = [s].
Proof. intros d s H. unfold split_on_first. now rewrite (find_no_char _ _ H). Qed.

(** replacing *)
Lemma occurs_dec : forall p s, p <> "" -> {occurs p s} + {~ occurs p s}.
Proof.
  intros p s Hp. destruct (index 0 p s) as [m|] eqn:E.
  - left. apply index_some in E as (a & b & Ea & _); [|assumption]. now exists a, b.
  - right. intros (a & b & Ea). assert (X := index_none _ _ _ Hp E a b Ea). lia.
Qed.
Lemma index_offset : forall t s p, index (String.length t) p (t +++ s) = option_map (fun m => String.length t + m) (index 0 p s).
Proof.
  intros t s p. induction t as [|x t IH].
  - cbn. now destruct (index 0 p s).
  - cbn. rewrite IH. now destruct (index 0 p s).
Qed.
Lemma replace_loop_spec : forall f r, f <> "" -> forall fuel t s,
  String.length s < fuel ->
  exists n u, replaced f r n s u /\ replace_loop fuel (t +++ s) f r (String.length t) = Val (t +++ u).
Proof.
  intros f r Hf. induction fuel as [|fuel IH]; intros t s H; [lia|]. cbn [replace_loop]. rewrite index_offset.
  destruct (index 0 f s) as [m|] eqn:E; cbn [option_map].
  - apply index_some in E as (a & b & -> & <- & _ & M); [|assumption].
    assert (Lf : 1 <= String.length f) by (destruct f; [congruence|cbn; lia]).
    rewrite !length_append in H.
    destruct (IH (t +++ a +++ r) b ltac:(lia)) as (n & u & R & L).
    exists (S n), (a +++ r +++ u). split.
    + constructor; [|exact R]. intros a' b' Ea. now apply (M a' b'); [symmetry|lia].
    + replace (substring 0 (String.length t + String.length a) (t +++ a +++ f +++ b)) with (t +++ a).
      2:{ rewrite <- (append_assoc t a), <- (length_append t a). symmetry. apply sub_app. }
      replace (from (t +++ a +++ f +++ b) (String.length t + String.length a + String.length f)) with b.
      2:{ rewrite <- (append_assoc a f b), <- (append_assoc t). symmetry. apply from_app. rewrite !length_append. lia. }
      replace (String.length t + String.length a + String.length r) with (String.length (t +++ a +++ r))
        by (rewrite !length_append; lia).
      rewrite !append_assoc in *. exact L.
  - exists 0, s. split; [|reflexivity]. constructor. intros (a & b & Ea).
    assert (X := index_none _ _ _ Hf E a b Ea). lia.
Qed.
Lemma replace_more_fuel : forall f r fuel fuel' t pos u, replace_loop fuel t f r pos = Val u -> fuel <= fuel' ->
  replace_loop fuel' t f r pos = Val u.
Proof.
  intros f r. induction fuel as [|fuel IH]; intros fuel' t pos u H L; [discriminate|].
  destruct fuel' as [|fuel']; [lia|]. cbn [replace_loop] in *.
  destruct (index pos f t); [|exact H]. apply IH; [exact H|lia].
Qed.
Lemma index_empty : forall s n, n <= String.length s -> index n "" s = Some n.
Proof.
  induction s as [|x s IH]; intros [|n] H; cbn in *; try lia; try reflexivity.
  rewrite IH by lia. reflexivity.
Qed.
Lemma replace_empty : forall r fuel t pos, pos <= String.length t -> replace_loop fuel t "" r pos = Endless.
Proof.
  intros r. induction fuel as [|fuel IH]; intros t pos H; [reflexivity|]. cbn [replace_loop].
  rewrite index_empty by assumption. apply IH. cbn [String.length].
  rewrite !length_append, sub_len by assumption. lia.
Qed.
Lemma replaced_length : forall f r n s u, replaced f r n s u ->
  String.length u + n * String.length f = String.length s + n * String.length r.
Proof.
  intros f r n s u H. induction H as [|n a b t _ _ IH]; [lia|]. rewrite !length_append. lia.
Qed.
Lemma replaced_functional : forall f r n s u, replaced f r n s u -> f <> "" -> forall n' u', replaced f r n' s u' -> n = n' /\ u = u'.
Proof.
  intros f r n s u H Hf. induction H as [s N|n a b t L R IH]; intros n' u' H'.
  - inversion H'; subst; [now split|]. exfalso. apply N. now exists a, b.
  - remember (a +++ f +++ b) as s eqn:Es. destruct H' as [s N|n' a' b' t' L' R'].
    + exfalso. apply N. exists a, b. exact Es.
    + assert (X1 := L a' b' Es). assert (X2 := L' a b (eq_sym Es)).
      destruct (app_cut _ _ _ _ Es ltac:(lia)) as [-> E2]. apply append_inj_l in E2. subst b'.
      destruct (IH _ _ R') as [-> ->]. now split.
Qed.
(** an occurrence of [p] in [a +++ b] lies in [a], in [b], or covers the boundary *)
Lemma occurs_apart : forall f r, f <> "" -> r <> "" -> (forall c, has c f -> ~ has c r) ->
  forall a b, ~ occurs f a -> ~ occurs f b -> ~ occurs f (a +++ r +++ b).
Proof.
  intros f r Hf Hr D a b Na Nb (x & y & E).
  destruct (le_ge_dec (String.length (x +++ f)) (String.length a)) as [L|L].
  - rewrite <- (append_assoc x f y) in E. symmetry in E. destruct (app_over _ _ _ _ E L) as (m & -> & _).
    apply Na. exists x, m. now rewrite append_assoc.
  - destruct (le_ge_dec (String.length (a +++ r)) (String.length x)) as [L'|L'].
    + rewrite <- (append_assoc a r b) in E. destruct (app_over _ _ _ _ E L') as (m & -> & ->). apply Nb. now exists m, y.
    + (* some char belongs to both *)
      destruct (Nat.eq_dec (String.length (x +++ f)) (String.length a)) as [Q|Q].
      { rewrite <- (append_assoc x f y) in E. destruct (app_cut _ _ _ _ E (eq_sym Q)) as [-> _]. apply Na. exists x, "". now rewrite append_nil_r. }
      destruct (Nat.eq_dec (String.length (a +++ r)) (String.length x)) as [Q'|Q'].
      { rewrite <- (append_assoc a r b) in E. destruct (app_cut _ _ _ _ E Q') as [<- ->]. apply Nb. now exists "", y. }
      destruct (le_ge_dec (String.length x) (String.length a)) as [La|La].
      * destruct (app_over _ _ _ _ (eq_sym E) La) as (m & -> & Em).
        rewrite !length_append in *. assert (Lm : String.length m <= String.length f) by lia.
        destruct (app_over _ _ _ _ (eq_sym Em) Lm) as (m' & -> & Em').
        destruct r as [|c r]; [congruence|]. destruct m' as [|c' m']; [rewrite append_nil_r in Q; lia|].
        cbn in Em'. injection Em' as -> _. apply (D c'); [apply has_app; right; now left|now left].
      * destruct (app_over _ _ _ _ E La) as (m & -> & Em).
        rewrite !length_append in *. assert (Lm : String.length m <= String.length r) by lia.
        destruct (app_over _ _ _ _ (eq_sym Em) Lm) as (m' & -> & Em').
        destruct f as [|c f]; [congruence|]. destruct m' as [|c' m']; [rewrite append_nil_r in Q'; lia|].
        cbn in Em'. injection Em' as -> _. apply (D c'); [now left|apply has_app; right; now left].
Qed.
Lemma leftmost_free : forall a f b, f <> "" -> leftmost a f b -> ~ occurs f a.
Proof.
  intros a f b Hf L (x & y & ->). specialize (L x (y +++ f +++ b)). rewrite !append_assoc in L. specialize (L eq_refl).
  rewrite !length_append in L. destruct f; [congruence|]. cbn in L. lia.
Qed.
Lemma none_left : forall f r n s u, f <> "" -> r <> "" -> (forall c, has c f -> ~ has c r) -> replaced f r n s u -> ~ occurs f u.
Proof.
  intros f r n s u Hf Hr D H. induction H as [s N|n a b t L _ IH]; [exact N|].
  apply occurs_apart; auto. now apply leftmost_free in L.
Qed.

(** escaped literals *)
Lemma get_app : forall a c b, String.get (String.length a) (a +++ String c b) = Some c.
Proof. induction a as [|x a IH]; intros c b; cbn; [reflexivity|apply IH]. Qed.
Lemma get_end : forall a, String.get (String.length a) a = None.
Proof. induction a as [|x a IH]; cbn; [reflexivity|exact IH]. Qed.
Lemma at_char : forall a c b n, n = String.length a -> at_ (a +++ String c b) n = Val c.
Proof. intros a c b n ->. unfold at_. now rewrite get_app. Qed.
Lemma at_end : forall a n, n = String.length a -> at_ a n = Val NUL.
Proof. intros a n ->. unfold at_. now rewrite get_end, Nat.eqb_refl. Qed.
Lemma run_length : forall n c, String.length (run_of n c) = n.
Proof. induction n as [|n IH]; intros c; cbn; [reflexivity|now rewrite IH]. Qed.
Lemma run_add : forall n m c, run_of (n + m) c = run_of n c +++ run_of m c.
Proof. induction n as [|n IH]; intros m c; cbn; [reflexivity|now rewrite IH]. Qed.
Lemma levels_spec : forall c, c <> NUL -> forall k fuel pre n after, k < fuel ->
  (forall r, after <> String c r) ->
  levels_loop fuel (pre +++ run_of (n + k) c +++ after) (String.length pre) c n = Val (n + k).
Proof.
  intros c Hc. induction k as [|k IH]; intros fuel pre n after L H; (destruct fuel as [|fuel]; [lia|]); cbn [levels_loop].
  - rewrite Nat.add_0_r.
    assert (X : at_ (pre +++ run_of n c +++ after) (n + String.length pre) <> Val c /\
                exists a, at_ (pre +++ run_of n c +++ after) (n + String.length pre) = Val a).
    { rewrite <- append_assoc. destruct after as [|x r].
      - rewrite append_nil_r, at_end by (rewrite length_append, run_length; lia). split; [congruence|now exists NUL].
      - rewrite at_char by (rewrite length_append, run_length; lia). split; [|now exists x].
        intros E. injection E as ->. now apply (H r). }
    destruct X as [X [a A]]. rewrite A in *. cbn [andthen]. destruct (Ascii.eqb_spec a c) as [->|_]; [congruence|reflexivity].
  - rewrite run_add. cbn [run_of]. rewrite !append_assoc.
    replace (pre +++ run_of n c +++ String c (run_of k c) +++ after) with ((pre +++ run_of n c) +++ String c (run_of k c +++ after))
      by now rewrite append_assoc.
    rewrite at_char by (rewrite length_append, run_length; lia). cbn [andthen]. rewrite Ascii.eqb_refl.
    replace ((pre +++ run_of n c) +++ String c (run_of k c +++ after)) with (pre +++ run_of (S n + k) c +++ after).
    + replace (n + S k) with (S n + k) by lia. apply IH; [lia|exact H].
    + replace (S n + k) with (n + S k) by lia. rewrite run_add. cbn [run_of]. now rewrite !append_assoc.
Qed.
Lemma retrieve_levels : forall c n pre after strip, c <> NUL -> 0 < n -> (forall r, after <> String c r) ->
  retrieve_escaped (pre +++ run_of n c +++ after) (String.length pre) strip =
  match String.index 0 (run_of n c) after with
  | None => Val ("", pre +++ run_of n c +++ after)
  | Some e =>
    let begin' := if strip then String.length pre + n else String.length pre in
    let e := if strip then e + begin' else e + 2 * n + String.length pre in
    Val (substring begin' (e - begin') (pre +++ run_of n c +++ after), from (pre +++ run_of n c +++ after) e)
  end.
Proof.
  intros c n pre after strip Hc Hn H. unfold retrieve_escaped.
  assert (A : at_ (pre +++ run_of n c +++ after) (String.length pre) = Val c).
  { destruct n as [|n]; [lia|]. cbn [run_of]. rewrite append_cons. now apply at_char. }
  rewrite A. cbn [andthen].
  assert (L := levels_spec c Hc n (S (S (String.length (pre +++ run_of n c +++ after)))) pre 0 after).
  rewrite !Nat.add_0_l in L. rewrite L; [|rewrite !length_append, run_length; lia|exact H]. cbn [andthen].
  replace (substring (String.length pre) n (pre +++ run_of n c +++ after)) with (run_of n c).
  2:{ rewrite <- (run_length n c) at 2. now rewrite sub_mid. }
  replace (from (pre +++ run_of n c +++ after) (n + String.length pre)) with after.
  2:{ rewrite <- append_assoc. symmetry. apply from_app. rewrite length_append, run_length. lia. }
  reflexivity.
Qed.
Lemma find_leftmost : forall p a b, p <> "" -> leftmost a p b -> index 0 p (a +++ p +++ b) = Some (String.length a).
Proof.
  intros p a b Hp L. destruct (index 0 p (a +++ p +++ b)) as [m|] eqn:E.
  - apply index_some in E as (x & y & Ex & <- & _ & M); [|assumption]. f_equal.
    specialize (L x y (eq_sym Ex)). specialize (M a b eq_refl ltac:(lia)). lia.
  - assert (X := index_none _ _ _ Hp E a b eq_refl). lia.
Qed.
Lemma find_absent : forall p s, p <> "" -> ~ occurs p s -> index 0 p s = None.
Proof.
  intros p s Hp N. destruct (index 0 p s) as [m|] eqn:E; [|reflexivity].
  apply index_some in E as (x & y & Ex & _); [|assumption]. exfalso. apply N. now exists x, y.
Qed.
Lemma run_nonempty : forall n c, 0 < n -> run_of n c <> "".
Proof. intros [|n] c H; [lia|discriminate]. Qed.
Lemma retrieve_closed : forall c n pre body rest strip, c <> NUL -> 0 < n -> (forall r, body +++ run_of n c +++ rest <> String c r) ->
  leftmost body (run_of n c) rest ->
  retrieve_escaped (pre +++ run_of n c +++ body +++ run_of n c +++ rest) (String.length pre) strip =
  Val (if strip then (body, run_of n c +++ rest) else (run_of n c +++ body +++ run_of n c, rest)).
Proof.
  intros c n pre body rest strip Hc Hn H L. rewrite retrieve_levels by assumption.
  rewrite (find_leftmost _ _ _ (run_nonempty n c Hn) L). destruct strip; cbv zeta; f_equal; f_equal.
  - rewrite <- (append_assoc pre). replace (String.length pre + n) with (String.length (pre +++ run_of n c)) by (rewrite length_append, run_length; lia).
    replace (String.length body + String.length (pre +++ run_of n c) - String.length (pre +++ run_of n c)) with (String.length body) by lia.
    apply sub_mid.
  - rewrite <- (append_assoc pre), <- (append_assoc (pre +++ run_of n c)). apply from_app. rewrite !length_append, run_length. lia.
  - replace (String.length body + 2 * n + String.length pre - String.length pre) with (String.length (run_of n c +++ body +++ run_of n c))
      by (rewrite !length_append, run_length; lia).
    replace (pre +++ run_of n c +++ body +++ run_of n c +++ rest) with (pre +++ (run_of n c +++ body +++ run_of n c) +++ rest)
      by now rewrite !append_assoc.
    apply sub_mid.
  - replace (pre +++ run_of n c +++ body +++ run_of n c +++ rest) with ((pre +++ run_of n c +++ body +++ run_of n c) +++ rest)
      by now rewrite !append_assoc.
    apply from_app. rewrite !length_append, run_length. lia.
Qed.
Lemma retrieve_open : forall c n pre after strip, c <> NUL -> 0 < n -> (forall r, after <> String c r) ->
  ~ occurs (run_of n c) after ->
  retrieve_escaped (pre +++ run_of n c +++ after) (String.length pre) strip = Val ("", pre +++ run_of n c +++ after).
Proof.
  intros c n pre after strip Hc Hn H N. rewrite retrieve_levels by assumption.
  now rewrite (find_absent _ _ (run_nonempty n c Hn) N).
Qed.
Lemma run_all : forall n c x a b, run_of n c = a +++ String x b -> x = c.
Proof.
  induction n as [|n IH]; intros c x a b H; destruct a as [|y a]; cbn in H; try discriminate.
  - now injection H as ->.
  - injection H as _ H. now apply IH in H.
Qed.
Lemma leftmost_run : forall c n body rest, ~ occurs (run_of n c) body -> (forall r, body <> r +++ String c "") ->
  leftmost body (run_of n c) rest.
Proof.
  intros c n body rest N E a' b' Ea. destruct (le_lt_dec (String.length body) (String.length a')) as [?|L]; [assumption|exfalso].
  destruct (le_ge_dec (String.length (a' +++ run_of n c)) (String.length body)) as [L'|L'].
  - rewrite <- append_assoc in Ea. destruct (app_over _ _ _ _ Ea L') as (m & -> & _). apply N. exists a', m.
    now rewrite append_assoc.
  - destruct (app_over _ _ _ _ Ea) as (m & Em & Er); [lia|]. subst body. destruct m as [|x m]; [rewrite append_nil_r in L; lia|].
    destruct (last_char x m) as (r & z & Ez). rewrite Ez in *. rewrite !length_append in L'.
    assert (Q : exists k, run_of n c = (r +++ String z "") +++ k).
    { destruct (app_over _ _ _ _ (eq_sym Er)) as (k & Ek & _); [rewrite length_append; lia|]. now exists k. }
    destruct Q as [k Q]. rewrite append_assoc in Q. apply run_all in Q as ->.
    apply (E (a' +++ r)). now rewrite append_assoc.
Qed.
(** every position inside a text begins a run *)
Lemma run_at : forall s, s <> "" -> exists c n after, s = run_of n c +++ after /\ 0 < n /\ (forall r, after <> String c r).
Proof.
  induction s as [|x s IH]; intros Hs; [congruence|].
  destruct s as [|y s].
  - exists x, 1, "". now repeat split; auto.
  - destruct IH as (c & n & after & E & Hn & H); [discriminate|]. destruct (Ascii.eqb_spec x c) as [->|N].
    + exists c, (S n), after. rewrite E. split; [reflexivity|]. split; [lia|exact H].
    + exists x, 1, (String y s). split; [reflexivity|]. split; [lia|]. intros r Er. injection Er as -> ->.
      destruct n as [|n]; [lia|]. cbn in E. injection E as -> _. congruence.
Qed.

(** case *)
Lemma lower_spec : forall a b, lower a = lower b <-> same_letter a b.
Proof.
  intros a b. unfold lower, same_letter. assert (Ba := byte_lt a). assert (Bb := byte_lt b).
  destruct (in_range 65 90 (byte a)) eqn:A; destruct (in_range 65 90 (byte b)) eqn:B;
    (apply in_range_spec in A || apply not_true_iff_false in A; try rewrite in_range_spec in A);
    (apply in_range_spec in B || apply not_true_iff_false in B; try rewrite in_range_spec in B).
  - split.
    + intros H. apply (f_equal byte) in H. rewrite !byte_chr in H by lia. left. apply byte_inj. lia.
    + intros [->|(k & Hk & Ha & Hb)]; [reflexivity|]. f_equal. lia.
  - split.
    + intros H. apply (f_equal byte) in H. rewrite byte_chr in H by lia. right. exists (byte a - 65)%N. lia.
    + intros [->|(k & Hk & Ha & Hb)]; [tauto|]. apply byte_inj. rewrite byte_chr by lia. lia.
  - split.
    + intros H. apply (f_equal byte) in H. rewrite byte_chr in H by lia. right. exists (byte b - 65)%N. lia.
    + intros [->|(k & Hk & Ha & Hb)]; [tauto|]. apply byte_inj. rewrite byte_chr by lia. lia.
  - split; [now left|]. intros [->|(k & Hk & Ha & Hb)]; [reflexivity|]. apply byte_inj. lia.
Qed.
Lemma iequal_spec : forall a b, iequal a b = true <-> same_but_case a b.
Proof.
  unfold same_but_case. induction a as [|x a IH]; intros [|y b]; cbn; split; intros H; try discriminate; try constructor;
    try (now inversion H).
  - apply andb_prop in H as [H _]. apply Ascii.eqb_eq in H. now apply lower_spec.
  - apply andb_prop in H as [_ H]. now apply IH.
  - inversion H; subst. rewrite (proj2 (Ascii.eqb_eq _ _) (proj2 (lower_spec _ _) H3)). now apply IH.
Qed.

(** two line ends *)
Lemma at_minus : forall a c b k, k = S (String.length b) ->
  (if (String.length (a +++ String c b) <? k)%nat then Wild else at_ (a +++ String c b) (String.length (a +++ String c b) - k)) = Val c.
Proof.
  intros a c b k ->. rewrite length_append. cbn [String.length].
  destruct (Nat.ltb_spec (String.length a + S (String.length b)) (S (String.length b))) as [?|_]; [lia|].
  apply at_char. lia.
Qed.
