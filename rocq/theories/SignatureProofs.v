From Verif Require Import Base ByteBuffer StringUtility StringSpec StringProofs Signature SignatureSpec.
Local Open Scope string_scope.
Local Open Scope nat_scope.

Lemma trim_trims : forall s, trims s (trim s).
Proof. intros s. exact (trim_spec s). Qed.
Lemma trims_trim : forall s t, trims s t -> trim s = t.
Proof. intros s t (a & b & H). now apply trimmed_unique in H. Qed.
Lemma trims_iff : forall s t, trims s t <-> t = trim s.
Proof. intros s t. split; [intros H; symmetry; now apply trims_trim|intros ->; apply trim_trims]. Qed.

(** pieces *)
Lemma piece_total : forall esc c s, exists p r, piece esc (String c s) p r.
Proof.
  intros esc c s. destruct (in_dec ascii_dec c esc) as [I|I]; [|now exists (String c ""), s; constructor].
  destruct (run_at (String c s)) as (x & n & after & E & Hn & A); [discriminate|]. destruct n as [|n]; [lia|].
  cbn [run_of append] in E. injection E as <- E. subst s.
  change (String c (run_of n c +++ after)) with (run_of (S n) c +++ after).
  destruct (occurs_dec (run_of (S n) c) after) as [O|O]; [discriminate| |].
  - destruct (index 0 (run_of (S n) c) after) as [m|] eqn:F.
    + apply index_some in F as (body & rest & Eb & Lm & _ & M); [|discriminate]. subst after m.
      exists (run_of (S n) c +++ body +++ run_of (S n) c), rest. apply piece_quoted; auto.
      intros a' b' E'. apply (M a' b'); [now symmetry|lia].
    + exfalso. destruct O as (a & b & O). assert (X := index_none 0 (run_of (S n) c) after ltac:(discriminate) F a b O). lia.
  - exists (String c ""), (run_of n c +++ after). now apply piece_open.
Qed.
Lemma piece_cases : forall esc c s p r, piece esc (String c s) p r ->
  (~ In c esc /\ p = String c "" /\ r = s) \/
  (In c esc /\ p = String c "" /\ r = s /\
    (c <> NUL -> forall d, retrieve_escaped (d +++ String c s) (String.length d) false = Val ("", d +++ String c s))) \/
  (In c esc /\ 1 < String.length p /\ String c s = p +++ r /\
    (c <> NUL -> forall d, retrieve_escaped (d +++ String c s) (String.length d) false = Val (p, r))).
Proof.
  intros esc c s p r H. remember (String c s) as t eqn:Et. destruct H as [x r N|x n body rest I A L|x n after I A O].
  - injection Et as -> ->. now left.
  - right. right. assert (x = c /\ True) as [-> _] by (cbn in Et; injection Et as -> _; now split).
    split; [assumption|]. split.
    + rewrite !length_append, run_length. lia.
    + split; [rewrite !append_assoc; reflexivity|]. intros Hc d.
      rewrite (retrieve_closed c (S n) d body rest false); auto. lia.
  - right. left. cbn [run_of append] in Et. injection Et as -> Es. subst s. repeat split; auto.
    intros Hc d. apply retrieve_open; auto. lia.
Qed.
Lemma piece_split : forall esc c s p r, piece esc (String c s) p r -> String c s = p +++ r /\ p <> "".
Proof.
  intros esc c s p r H. destruct (piece_cases _ _ _ _ _ H) as [(_ & -> & ->)|[(_ & -> & -> & _)|(_ & L & E & _)]].
  - now split. - now split. - split; [exact E|]. now intros ->.
Qed.
Lemma piece_shorter : forall esc c s p r, piece esc (String c s) p r -> String.length r <= String.length s.
Proof.
  intros esc c s p r H. destruct (piece_split _ _ _ _ _ H) as [E N]. apply (f_equal String.length) in E.
  rewrite length_append in E. cbn in E. destruct p; [congruence|]. cbn in E. lia.
Qed.

Lemma length_split : forall a b, String.length (a +++ b) <=? String.length a = match b with EmptyString => true | _ => false end.
Proof.
  intros a [|c b]; rewrite length_append; cbn [String.length]; [apply Nat.leb_le|apply Nat.leb_gt]; lia.
Qed.
Lemma snoc_length : forall d c, String.length (d +++ String c "") = S (String.length d).
Proof. intros d c. rewrite length_append. cbn. lia. Qed.
Lemma snoc_app : forall d c s, d +++ String c s = (d +++ String c "") +++ s.
Proof. intros d c s. now rewrite append_assoc. Qed.

Lemma taken_split : forall esc stop s p r, taken esc stop s p r -> s = p +++ r.
Proof.
  intros esc stop s p r H. induction H as [|c s N S'|c s p r p' r' P _ _ IH]; auto.
  apply piece_split in P as [E _]. now rewrite E, IH, append_assoc.
Qed.
Lemma taken_total : forall esc stop, (forall s, {stop s} + {~ stop s}) -> forall s, exists p r, taken esc stop s p r.
Proof.
  intros esc stop D s. remember (String.length s) as n eqn:E. revert s E.
  induction n as [n IH] using (well_founded_induction lt_wf). intros [|c s] ->; [exists "", ""; constructor|].
  destruct (piece_total esc c s) as (p & r & P). assert (L := piece_shorter _ _ _ _ _ P).
  destruct (IH (String.length r) ltac:(cbn; lia) r eq_refl) as (p' & r' & T).
  destruct (in_dec ascii_dec c esc) as [I|I].
  - exists (p +++ p'), r'. eapply taken_step; eauto.
  - destruct (D (String c s)) as [S'|S'].
    + exists "", (String c s). now constructor.
    + exists (p +++ p'), r'. eapply taken_step; eauto.
Qed.

(** traits *)
Definition shape_of (tr : traits) : shape :=
  Shape (has_identifier tr) (has_values tr) (has_attributes tr) (has_content tr) (values_delimiter tr) (content_delimiter tr).
Lemma starts_char : forall x c s, starts (String x "") (String c s) <-> c = x.
Proof.
  intros x c s. split.
  - intros (r & E). now injection E.
  - intros ->. now exists s.
Qed.
Lemma at_content_starts : forall tr d s, at_content tr (d +++ s) (String.length d) = true <-> starts (content_delimiter tr) s.
Proof.
  intros tr d s. unfold at_content. rewrite String.eqb_eq, sub_shift. split.
  - intros E. destruct (content_delimiter tr) as [|c p] eqn:P; [now exists s|].
    apply sub_is in E as (a & b & E & L); [|discriminate]. destruct a; [|discriminate]. now exists b.
  - intros (r & ->). apply sub_app.
Qed.
Lemma starts_dec : forall p s, {starts p s} + {~ starts p s}.
Proof.
  intros p s. destruct (string_dec (substring 0 (String.length p) s) p) as [E|N].
  - left. destruct p as [|c p]; [now exists s|]. apply sub_is in E as (a & b & E & L); [|discriminate].
    destruct a; [|discriminate]. now exists b.
  - right. intros (r & ->). apply N, sub_app.
Qed.
Lemma opens_dec : forall (b : bool) p s, {b = true /\ starts p s} + {~ (b = true /\ starts p s)}.
Proof. intros [|] p s; [|right; intros [? _]; discriminate]. destruct (starts_dec p s); [now left|right; tauto]. Qed.

Definition id_stop (tr : traits) (s : string) : Prop :=
  opens_values (shape_of tr) s \/ opens_attributes (shape_of tr) s \/ opens_content (shape_of tr) s.
Definition value_stop (tr : traits) (s : string) : Prop := opens_attributes (shape_of tr) s \/ opens_content (shape_of tr) s.
Lemma id_stop_test : forall tr d c s,
  (has_values tr && Ascii.eqb c (values_delimiter tr) || has_attributes tr && Ascii.eqb c "(" || has_content tr && at_content tr (d +++ String c s) (String.length d))%bool = true
  <-> id_stop tr (String c s).
Proof.
  intros tr d c s. unfold id_stop, opens_values, opens_attributes, opens_content, shape_of.
  cbn [with_values with_attributes with_content before_values before_content].
  rewrite !orb_true_iff, !andb_true_iff, !Ascii.eqb_eq, at_content_starts, !starts_char. tauto.
Qed.
Lemma value_stop_test : forall tr d c s,
  (has_attributes tr && Ascii.eqb c "(" || has_content tr && at_content tr (d +++ String c s) (String.length d))%bool = true
  <-> value_stop tr (String c s).
Proof.
  intros tr d c s. unfold value_stop, opens_attributes, opens_content, shape_of.
  cbn [with_attributes with_content before_content].
  rewrite !orb_true_iff, !andb_true_iff, !Ascii.eqb_eq, at_content_starts, !starts_char. tauto.
Qed.
Lemma id_stop_dec : forall tr s, {id_stop tr s} + {~ id_stop tr s}.
Proof.
  intros tr s. unfold id_stop. destruct (opens_dec (has_values tr) (String (values_delimiter tr) "") s); [left; now left|].
  destruct (opens_dec (has_attributes tr) "(" s); [left; right; now left|].
  destruct (opens_dec (has_content tr) (content_delimiter tr) s); [left; right; now right|]. right. intros [?|[?|?]]; tauto.
Qed.
Lemma value_stop_dec : forall tr s, {starts "," s \/ value_stop tr s} + {~ (starts "," s \/ value_stop tr s)}.
Proof.
  intros tr s. unfold value_stop. destruct (starts_dec "," s); [left; now left|].
  destruct (opens_dec (has_attributes tr) "(" s); [left; right; now left|].
  destruct (opens_dec (has_content tr) (content_delimiter tr) s); [left; right; now right|]. right. intros [?|[?|?]]; tauto.
Qed.

(** the identifier *)
Definition id_esc : list ascii := ["*"; "_"; "`"]%char.
Lemma id_esc_test : forall c, (Ascii.eqb c "*" || Ascii.eqb c "_" || Ascii.eqb c "`")%bool = true <-> In c id_esc.
Proof.
  intros c. rewrite !orb_true_iff, !Ascii.eqb_eq. cbn [In id_esc]. intuition congruence.
Qed.
Lemma id_esc_nul : forall c, In c id_esc -> c <> NUL.
Proof. intros c H ->. cbn in H. intuition discriminate. Qed.
Lemma tick_esc_nul : forall c, In c [backtick] -> c = backtick /\ c <> NUL.
Proof. intros c [<-|[]]. now split. Qed.

Lemma identifier_loop_ok : forall tr s p r, taken id_esc (id_stop tr) s p r -> forall fuel d id, String.length s < fuel ->
  exists d' i, identifier_loop fuel tr (d +++ s) (String.length d) id = Val (id +++ p, d', i) /\ (if i =? String.length d' then "" else d') = r.
Proof.
  intros tr s p r H. induction H as [|c s N Hs|c s p r p' r' P Hn _ IH]; intros fuel d id L; (destruct fuel as [|fuel]; [lia|]);
    cbn [identifier_loop]; rewrite length_split.
  - exists (d +++ ""), (String.length d). rewrite !append_nil_r. split; [reflexivity|]. now rewrite Nat.eqb_refl.
  - rewrite (at_char d c s _ eq_refl). cbn [andthen].
    destruct (_ || _ || _)%bool eqn:E; [now apply id_esc_test in E|]. clear E.
    apply (id_stop_test tr d) in Hs. rewrite Hs, from_app by reflexivity. exists (String c s), 0. now rewrite append_nil_r.
  - rewrite (at_char d c s _ eq_refl). cbn [andthen]. cbn [String.length] in L. assert (Lr := piece_shorter _ _ _ _ _ P).
    destruct (piece_cases _ _ _ _ _ P) as [(I & -> & ->)|[(I & -> & -> & R)|(I & Lp & E & R)]].
    + destruct (_ || _ || _)%bool eqn:E; [now apply id_esc_test in E|]. clear E.
      destruct (_ || _ || _)%bool eqn:E; [apply id_stop_test in E; tauto|]. clear E.
      rewrite (snoc_app d c s), <- (snoc_length d c), <- (append_assoc id (String c "") p'). apply IH. lia.
    + rewrite (proj2 (id_esc_test c) I), (R (id_esc_nul _ I) d). cbn [andthen fst snd String.eqb].
      rewrite (at_char d c s _ eq_refl). cbn [andthen].
      rewrite (snoc_app d c s), <- (snoc_length d c), <- (append_assoc id (String c "") p'). apply IH. lia.
    + rewrite (proj2 (id_esc_test c) I), (R (id_esc_nul _ I) d). cbn [andthen fst snd].
      destruct (String.eqb_spec p "") as [->|_]; [cbn in Lp; lia|].
      destruct (IH fuel "" (id +++ p) ltac:(lia)) as (d' & i & X). exists d', i. now rewrite <- (append_assoc id).
Qed.

(** one piece only *)
Lemma piece_unique : forall esc, (forall c, In c esc -> c <> NUL) -> forall c s p r p' r', piece esc (String c s) p r ->
  piece esc (String c s) p' r' -> p = p' /\ r = r'.
Proof.
  intros esc Z c s p r p' r' H H'.
  destruct (piece_cases _ _ _ _ _ H) as [(I & -> & ->)|[(I & -> & -> & R)|(I & Lp & E & R)]];
    destruct (piece_cases _ _ _ _ _ H') as [(I' & -> & ->)|[(I' & -> & -> & R')|(I' & Lp' & E' & R')]]; try tauto.
  - specialize (R (Z _ I) ""). specialize (R' (Z _ I) ""). rewrite R in R'. injection R' as <- _. cbn in Lp'. lia.
  - specialize (R (Z _ I) ""). specialize (R' (Z _ I) ""). rewrite R in R'. injection R' as -> _. cbn in Lp. lia.
  - specialize (R (Z _ I) ""). specialize (R' (Z _ I) ""). rewrite R in R'. injection R' as -> ->. now split.
Qed.
Lemma taken_inv : forall esc stop c s p r, taken esc stop (String c s) p r ->
  (~ In c esc /\ stop (String c s) /\ p = "" /\ r = String c s) \/
  (exists q t p', piece esc (String c s) q t /\ (In c esc \/ ~ stop (String c s)) /\ taken esc stop t p' r /\ p = q +++ p').
Proof.
  intros esc stop c s p r H. remember (String c s) as t eqn:Et. destruct H as [|x y N Hs|x y q u q' u' P N T]; [discriminate|..];
    injection Et as -> ->; [left|right]; eauto 8.
Qed.
Lemma taken_nil : forall esc stop p r, taken esc stop "" p r -> p = "" /\ r = "".
Proof. intros esc stop p r H. remember "" as t eqn:Et. destruct H; try discriminate; now split. Qed.
Lemma taken_unique : forall esc stop, (forall c, In c esc -> c <> NUL) -> forall s p r, taken esc stop s p r ->
  forall p' r', taken esc stop s p' r' -> p = p' /\ r = r'.
Proof.
  intros esc stop Z s p r H. induction H as [|c s N Hs|c s p r p1 r1 P N T IH]; intros p' r' H'.
  - apply taken_nil in H' as [-> ->]. now split.
  - apply taken_inv in H' as [(_ & _ & -> & ->)|(q & t & u & _ & [?|?] & _)]; [now split|tauto|tauto].
  - apply taken_inv in H' as [(A & B & -> & ->)|(q & t & u & P' & _ & T' & ->)]; [tauto|].
    destruct (piece_unique _ Z _ _ _ _ _ _ P P') as [<- <-]. destruct (IH _ _ T') as [<- <-]. now split.
Qed.

(** bare values *)
Lemma at_last : forall s c, at_ (s +++ String c "") (String.length (s +++ String c "") - 1) = Val c.
Proof. intros s c. apply at_char. rewrite snoc_length. lia. Qed.
Lemma last_not_zero : forall s c, (String.length (s +++ String c "") =? 0) = false.
Proof. intros s c. rewrite snoc_length. reflexivity. Qed.
Lemma strip_step : forall s r q, s = String backtick r -> s = q +++ String backtick "" ->
  strip_backticks s = andthen (retrieve_escaped s 0 true) (fun r => if String.eqb (fst r) "" then Val (snd r, snd r) else Val (trim (fst r), snd r)).
Proof.
  intros s r q E Q. unfold strip_backticks.
  assert (B : at_ s 0 = Val backtick) by (rewrite E; reflexivity). rewrite B. cbn [andthen].
  change (negb (Ascii.eqb backtick "`")) with false. cbn iota.
  assert (Z : (String.length s =? 0) = false) by (rewrite E; reflexivity). rewrite Z.
  assert (A : at_ s (String.length s - 1) = Val backtick) by (rewrite Q; apply at_last). rewrite A. reflexivity.
Qed.
Lemma strip_bare : forall v w, bare v w -> exists left, strip_backticks v = Val (w, left).
Proof.
  intros v w H. destruct H as [s H|n after A O [q Q]|n body rest w A L [q Q] T].
  - exists s. unfold strip_backticks. destruct s as [|x s]; [reflexivity|].
    assert (B : at_ (String x s) 0 = Val x) by reflexivity. rewrite B. cbn [andthen].
    destruct (Ascii.eqb_spec x "`") as [->|_]; [|reflexivity]. cbn [negb].
    destruct H as [H|H]; [now destruct (H s)|]. destruct (last_char "`" s) as (q & z & E). rewrite E in *.
    rewrite last_not_zero, at_last. cbn [andthen]. destruct (Ascii.eqb_spec z "`") as [->|_]; [now destruct (H q)|reflexivity].
  - exists (run_of (S n) backtick +++ after). erewrite strip_step by (eauto; reflexivity).
    assert (R := retrieve_open backtick (S n) "" after true ltac:(discriminate) ltac:(lia) A O). change (String.length "") with 0 in R.
    change ("" +++ run_of (S n) backtick +++ after) with (run_of (S n) backtick +++ after) in R. rewrite R. reflexivity.
  - exists (run_of (S n) backtick +++ rest). erewrite strip_step; [|reflexivity|].
    2:{ rewrite Q. rewrite <- !append_assoc. reflexivity. }
    assert (R := retrieve_closed backtick (S n) "" body rest true ltac:(discriminate) ltac:(lia) A L). change (String.length "") with 0 in R.
    change ("" +++ run_of (S n) backtick +++ body +++ run_of (S n) backtick +++ rest) with (run_of (S n) backtick +++ body +++ run_of (S n) backtick +++ rest) in R.
    rewrite R. cbn [andthen fst snd].
    destruct (String.eqb_spec body "") as [->|_]; [now destruct (A (run_of n backtick +++ rest))|]. now rewrite (trims_trim _ _ T).
Qed.
Lemma bare_total : forall v, exists w, bare v w.
Proof.
  intros [|c s]; [exists ""; apply bare_other; now left|].
  destruct (Ascii.eqb_spec c backtick) as [->|N].
  2:{ exists (String c s). apply bare_other. left. intros r E. now injection E. }
  destruct (last_char backtick s) as (q & z & E). destruct (Ascii.eqb_spec z backtick) as [->|N].
  2:{ exists (String backtick s). apply bare_other. right. intros r X. rewrite E in X. now apply snoc_inj in X as [_ ?]. }
  destruct (piece_total [backtick] backtick s) as (p & r & P). remember (String backtick s) as t eqn:Et.
  destruct P as [x r NI|x n body rest I A L|x n after I A O].
  - injection Et as -> _. exfalso. apply NI. now left.
  - destruct (tick_esc_nul _ I) as [-> _]. exists (trim body). eapply bare_quoted; eauto; [|apply trim_trims].
    destruct (last_char backtick (run_of n backtick +++ rest)) as (q' & z & E').
    change (String backtick (run_of n backtick +++ rest)) with (run_of (S n) backtick +++ rest) in E'. exists q'. rewrite E'.
    assert (X : (run_of (S n) backtick +++ body +++ q') +++ String z "" = q +++ String backtick "") by (rewrite <- E, !append_assoc, <- E'; reflexivity).
    now apply snoc_inj in X as [_ ->].
  - destruct (tick_esc_nul _ I) as [-> _]. exists (run_of (S n) backtick +++ after). apply bare_open; auto. now exists q.
Qed.
Lemma bare_unique : forall v w w', bare v w -> bare v w' -> w = w'.
Proof. intros v w w' H H'. destruct (strip_bare _ _ H) as [l E]. destruct (strip_bare _ _ H') as [l' E']. congruence. Qed.

(** the values *)
Lemma values_loop_part : forall tr s p r, taken [backtick] (fun s => starts "," s \/ value_stop tr s) s p r ->
  forall fuel d v vs, String.length s < fuel ->
  (~ starts "," r -> exists d' i, values_loop fuel tr (d +++ s) (String.length d) v vs = Val (vs, v +++ p, d', i) /\ (if i =? String.length d' then "" else d') = r) /\
  (forall r1, r = String "," r1 -> exists fuel', String.length r1 < fuel' /\
     values_loop fuel tr (d +++ s) (String.length d) v vs = andthen (strip_backticks (trim (v +++ p))) (fun x => values_loop fuel' tr (trim r1) 0 "" (vs ++ [fst x])%list)).
Proof.
  intros tr s p r H. induction H as [|c s N Hs|c s p r p' r' P Hn _ IH]; intros fuel d v vs L; (destruct fuel as [|fuel]; [lia|]);
    cbn [values_loop]; rewrite length_split.
  - split; [|discriminate]. intros _. exists (d +++ ""), (String.length d). rewrite !append_nil_r. split; [reflexivity|]. now rewrite Nat.eqb_refl.
  - rewrite (at_char d c s _ eq_refl). cbn [andthen].
    destruct (Ascii.eqb_spec c EscapeCharacter) as [->|_]; [exfalso; apply N; now left|]. cbn [String.length] in L.
    destruct (Ascii.eqb_spec c ",") as [->|Hc].
    + split; [intros X; exfalso; apply X; now exists s|]. intros r1 E. injection E as <-. exists fuel. split; [lia|].
      rewrite append_nil_r. replace (d +++ String "," s) with ((d +++ ",") +++ s) by now rewrite append_assoc.
      rewrite from_app by now rewrite snoc_length. reflexivity.
    + split; [|intros r1 E; injection E; congruence]. intros _.
      assert (V : value_stop tr (String c s)). { destruct Hs as [X|X]; [|exact X]. now apply starts_char in X. }
      apply (value_stop_test tr d) in V. rewrite V, from_app by reflexivity. exists (String c s), 0. now rewrite append_nil_r.
  - rewrite (at_char d c s _ eq_refl). cbn [andthen]. cbn [String.length] in L. assert (Lr := piece_shorter _ _ _ _ _ P).
    destruct (piece_cases _ _ _ _ _ P) as [(I & -> & ->)|[(I & -> & -> & R)|(I & Lp & E & R)]].
    + destruct (Ascii.eqb_spec c EscapeCharacter) as [->|_]; [exfalso; apply I; now left|].
      destruct Hn as [?|Hn]; [tauto|]. destruct (Ascii.eqb_spec c ",") as [->|Hc]; [exfalso; apply Hn; left; now apply starts_char|].
      destruct (_ || _)%bool eqn:E; [apply value_stop_test in E; tauto|]. clear E.
      rewrite (snoc_app d c s), <- (snoc_length d c), <- (append_assoc v (String c "") p'). apply IH. lia.
    + destruct (tick_esc_nul _ I) as [-> Z]. change (Ascii.eqb backtick EscapeCharacter) with true. cbn iota.
      rewrite (R Z d). cbn [andthen fst snd String.eqb]. rewrite (at_char d backtick s _ eq_refl). cbn [andthen].
      rewrite (snoc_app d backtick s), <- (snoc_length d backtick), <- (append_assoc v (String backtick "") p'). apply IH. lia.
    + destruct (tick_esc_nul _ I) as [-> Z]. change (Ascii.eqb backtick EscapeCharacter) with true. cbn iota.
      rewrite (R Z d). cbn [andthen fst snd]. destruct (String.eqb_spec p "") as [->|_]; [cbn in Lp; lia|].
      rewrite <- (append_assoc v p p'). apply (IH fuel "" (v +++ p) vs). lia.
Qed.
Lemma values_loop_ok : forall tr s l r, listed (value_stop tr) s l r -> forall fuel vs, String.length s < fuel ->
  exists vs' v d' i, values_loop fuel tr s 0 "" vs = Val ((vs ++ vs')%list, v, d', i) /\ l = (vs' ++ kept (trim v))%list /\
    (if i =? String.length d' then "" else d') = r.
Proof.
  intros tr s l r H. induction H as [s p r v T N Tv|s p r v w r1 vs' r' T Tv B Tr _ IH]; intros fuel vs L;
    destruct (values_loop_part tr _ _ _ T fuel "" "" vs L) as [A1 A2]; clear T.
  - destruct (A1 N) as (d' & i & E & X). exists [], p, d', i. rewrite app_nil_r. split; [exact E|]. split; [|exact X].
    now rewrite (trims_trim _ _ Tv).
  - destruct (A2 _ eq_refl) as (fuel' & L' & E). cbn [String.length] in E. change ("" +++ s) with s in E. change ("" +++ p) with p in E. rewrite E.
    rewrite (trims_trim _ _ Tv). destruct (strip_bare _ _ B) as [left X]. rewrite X. cbn [andthen fst].
    rewrite (trims_trim _ _ Tr). destruct (IH fuel' (vs ++ [w])%list) as (vs2 & v2 & d' & i & E2 & -> & X2).
    { destruct Tr as (a & b & Tr & _). apply (f_equal String.length) in Tr. rewrite !length_append in Tr. lia. }
    exists (w :: vs2), v2, d', i. rewrite E2, <- app_assoc. now repeat split.
Qed.
Lemma trims_shorter : forall s t, trims s t -> String.length t <= String.length s.
Proof. intros s t (a & b & E & _). rewrite E, !length_append. lia. Qed.
Lemma trim_shorter : forall s, String.length (trim s) <= String.length s.
Proof. intros s. apply trims_shorter, trim_trims. Qed.
Lemma listed_total : forall tr s, exists l r, listed (value_stop tr) s l r.
Proof.
  intros tr s. remember (String.length s) as n eqn:E. revert s E.
  induction n as [n IH] using (well_founded_induction lt_wf). intros s ->.
  destruct (taken_total [backtick] (fun s => starts "," s \/ value_stop tr s) (value_stop_dec tr) s) as (p & r & T).
  destruct (starts_dec "," r) as [[r1 ->]|N].
  - assert (X := taken_split _ _ _ _ _ T). apply (f_equal String.length) in X. rewrite !length_append in X. cbn in X.
    destruct (IH (String.length (trim r1)) ltac:(assert (Y := trim_shorter r1); lia) _ eq_refl) as (l & r & Ht).
    destruct (bare_total (trim p)) as [w B]. exists (w :: l), r. eapply listed_more; eauto using trim_trims.
  - exists (kept (trim p)), r. econstructor; eauto using trim_trims.
Qed.
Lemma listed_unique : forall tr s l r, listed (value_stop tr) s l r -> forall l' r', listed (value_stop tr) s l' r' -> l = l' /\ r = r'.
Proof.
  intros tr s l r H l' r' H'.
  destruct (values_loop_ok _ _ _ _ H (S (String.length s)) [] ltac:(lia)) as (a & b & c & d & E & -> & <-).
  destruct (values_loop_ok _ _ _ _ H' (S (String.length s)) [] ltac:(lia)) as (a' & b' & c' & d' & E' & -> & <-).
  rewrite E in E'. cbn [app] in E'. injection E' as <- <- <- <-. now split.
Qed.
