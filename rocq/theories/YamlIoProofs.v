From Verif Require Import Base Utf8Spec Utf8 Utf8Proofs SoValue SoValueProofs JsonIo JsonSpec JsonIoProofs YamlIo YamlSpec.
Local Open Scope string_scope.

(** *** hexadecimal escapes *)
Lemma hexval_U : forall x, (x < 16)%N -> hexval (hexdigitU x) = Some x.
Proof.
  intros x H. assert (In x (map N.of_nat (List.seq 0 16))).
  { apply in_map_iff. exists (N.to_nat x). split; [apply N2Nat.id|]. apply in_seq. lia. }
  cbn in H0. repeat (destruct H0 as [<-|H0]; [reflexivity|]). destruct H0.
Qed.

Lemma hexes_step : forall acc x l, (x < 16)%N -> hexes acc (hexdigitU x :: l) = hexes (acc * 16 + x) l.
Proof. intros acc x l H. cbn [hexes]. unfold hexN. now rewrite hexval_U. Qed.

Lemma divmod16 : forall c k, (c / 16 ^ (k + 1) * 16 + (c / 16 ^ k) mod 16 = c / 16 ^ k)%N.
Proof.
  intros c k. rewrite N.pow_add_r, N.pow_1_r, <- N.div_div by (try apply N.pow_nonzero; lia).
  rewrite (N.mul_comm _ 16). symmetry. apply N.div_mod. lia.
Qed.

Lemma M16 : forall x, (x mod 16 < 16)%N.
Proof. intros x. apply N.mod_lt. lia. Qed.

Lemma consN_eq : forall n t rest, consN (Some n) (Some (t, rest)) = Some (utf8 n +++ t, rest).
Proof. reflexivity. Qed.

Lemma dq_escaped : forall c s, (c < 0x10000)%N -> dq_chars (serialize_escaped c +++ s) = consN (Some c) (dq_chars s).
Proof.
  intros c s H. unfold serialize_escaped.
  assert (Z0 : (c / 16 ^ 0 = c)%N) by (rewrite N.pow_0_r; apply N.div_1_r).
  destruct (N.ltb_spec c 0x100) as [L|L].
  - cbn [append str1 dq_chars]. change (byte "\" =? 34)%N with false. change (byte "\" =? 92)%N with true.
    change (byte "x" =? 120)%N with true. cbn iota.
    rewrite !hexes_step by apply M16. cbn [hexes].
    assert (E1 := divmod16 c 1). assert (E0 := divmod16 c 0). change (1 + 1)%N with 2%N in E1. change (0 + 1)%N with 1%N in E0.
    rewrite Z0 in E0. rewrite (N.div_small c (16 ^ 2)) in E1 by exact L. rewrite E1, Z0, E0. reflexivity.
  - destruct (N.ltb_spec c 0x10000) as [L2|L2]; [|lia].
    cbn [append str1 dq_chars]. change (byte "\" =? 34)%N with false. change (byte "\" =? 92)%N with true.
    change (byte "u" =? 120)%N with false. change (byte "u" =? 117)%N with true. cbn iota.
    rewrite !hexes_step by apply M16. cbn [hexes].
    assert (E1 := divmod16 c 1). assert (E0 := divmod16 c 0). assert (E2 := divmod16 c 2). assert (E3 := divmod16 c 3).
    change (1 + 1)%N with 2%N in E1. change (0 + 1)%N with 1%N in E0. change (2 + 1)%N with 3%N in E2. change (3 + 1)%N with 4%N in E3.
    rewrite Z0 in E0. rewrite (N.div_small c (16 ^ 4)) in E3 by exact L2. rewrite E3, E2, E1, Z0, E0. reflexivity.
Qed.

(** *** one code point *)
Lemma dq_high : forall l s, Forall (fun n => 128 <= n < 256)%N l ->
  dq_chars (of_bytes l +++ s) = match dq_chars s with Some (t, rest) => Some (of_bytes l +++ t, rest) | None => None end.
Proof.
  intros l s F. induction F as [|n l H F IH].
  - cbn. destruct (dq_chars s) as [[t rest]|]; reflexivity.
  - cbn [of_bytes append dq_chars]. rewrite byte_chr by lia.
    repeat match goal with |- context[N.eqb n ?k] => destruct (N.eqb_spec n k); [lia|] end.
    destruct (N.ltb_spec n 32); [lia|]. rewrite IH. destruct (dq_chars s) as [[t rest]|]; reflexivity.
Qed.

Lemma consN_utf8 : forall n r, consN (Some n) r = match r with Some (t, rest) => Some (utf8 n +++ t, rest) | None => None end.
Proof. reflexivity. Qed.

Ltac neqs := repeat match goal with |- context[N.eqb ?c ?k] =>
  match c with _ => is_var c end; destruct (N.eqb_spec c k) as [->|?] end.

Lemma printable_low : forall c, (c < 32)%N -> is_yaml_printable c = true -> (c = 9 \/ c = 10 \/ c = 13)%N.
Proof.
  intros c H P. unfold is_yaml_printable in P.
  repeat (apply orb_prop in P as [P|P]); repeat (apply andb_prop in P as [P ?]);
    try (apply N.eqb_eq in P; lia); try (apply N.leb_le in P; lia).
Qed.

Lemma nonprintable_small : forall c, scalar c -> is_yaml_printable c = false -> (c < 0x10000)%N.
Proof.
  intros c S P. destruct (N.ltb_spec c 0x10000) as [L|L]; [exact L|exfalso].
  apply scalar_spec in S. unfold is_yaml_printable in P.
  apply orb_false_iff in P as [_ P]. apply andb_false_iff in P as [P|P]; apply N.leb_gt in P; lia.
Qed.

(** the escape of a scalar value is defined and read back as it *)
Lemma escape_cp_ok : forall c, scalar c -> exists t, escape_yaml_cp c = Some t /\
  forall s, dq_chars (t +++ s) = consN (Some c) (dq_chars s).
Proof.
  intros c S. unfold escape_yaml_cp.
  repeat match goal with |- context[N.eqb c ?k] =>
    destruct (N.eqb_spec c k) as [->|?]; [eexists; split; [reflexivity|intros s; reflexivity]|] end.
  destruct (is_yaml_printable c) eqn:P.
  - assert (Hc := S). apply scalar_spec in Hc. rewrite encode_spec by lia. exists (utf8 c). split; [reflexivity|].
    intros s. destruct (N.ltb_spec c 0x80) as [L|L].
    + unfold utf8 at 1. unfold utf8_bytes. destruct (N.leb_spec c 0x7F); [|lia]. cbn [of_bytes append dq_chars].
      rewrite byte_chr by lia.
      destruct (N.eqb_spec c 34); [lia|]. destruct (N.eqb_spec c 92); [lia|].
      destruct (N.ltb_spec c 32) as [L2|L2].
      { apply printable_low in P; [|exact L2]. lia. }
      rewrite consN_utf8. replace (utf8 c) with (str1 (chr c)).
      2:{ unfold utf8, utf8_bytes. destruct (N.leb_spec c 0x7F); [reflexivity|lia]. }
      reflexivity.
    + unfold utf8 at 1. rewrite dq_high by (apply utf8_bytes_high; lia). reflexivity.
  - exists (serialize_escaped c). split; [reflexivity|]. intros s. apply dq_escaped. now apply nonprintable_small.
Qed.

Lemma escape_cps_ok : forall cs, Forall scalar cs -> exists t, escape_yaml_cps cs = Some t /\
  forall rest, dq_chars (t +++ String dquote rest) = Some (utf8s cs, rest).
Proof.
  induction 1 as [|c cs Hc F (t & E & R)].
  - exists "". split; reflexivity.
  - destruct (escape_cp_ok c Hc) as (u & Eu & Ru). exists (u +++ t). cbn [escape_yaml_cps]. rewrite Eu, E.
    split; [reflexivity|]. intros rest. rewrite append_assoc, Ru, R. reflexivity.
Qed.

(** every string has an escaped form; for UTF-8 strings it denotes the string *)
Lemma escape_total : forall s, exists t cs, escape_yaml_string s = Some t /\ codepoints s = Some cs /\ Forall scalar cs /\
  escape_yaml_cps cs = Some t.
Proof.
  intros s. destruct (codepoints_fuel_total (String.length s) s (String.length s) (le_n _) (le_n _)) as (cs & E & F & _).
  destruct (escape_cps_ok cs F) as (t & Et & _). exists t, cs.
  unfold escape_yaml_string. fold (codepoints s) in E. rewrite E. auto.
Qed.

Lemma escape_wf : forall s, wf_utf8 s -> exists t, escape_yaml_string s = Some t /\
  forall rest, dq_chars (t +++ String dquote rest) = Some (s, rest).
Proof.
  intros s (cs & F & ->). unfold escape_yaml_string. rewrite codepoints_utf8s by exact F. now apply escape_cps_ok.
Qed.

(** *** the characters written *)
Definition yclean (c : N) : bool := c_printable c && negb (line_break c || (c =? 9)%N).

Lemma ascii_clean : forall s, sforall (fun a => in_range 0x20 0x7E (byte a)) s = true ->
  exists cs, s = utf8s cs /\ Forall scalar cs /\ Forall (fun c => yclean c = true) cs.
Proof.
  induction s as [|a s IH]; intros H. { exists []. repeat split; constructor. }
  cbn in H. apply andb_prop in H as [A B]. destruct (IH B) as (cs & -> & F & G).
  apply in_range_spec in A. exists (byte a :: cs). split; [|split].
  - change (utf8s (byte a :: cs)) with (utf8 (byte a) +++ utf8s cs). rewrite utf8_ascii by lia. reflexivity.
  - constructor; [apply scalar_spec; lia|exact F].
  - constructor; [|exact G]. unfold yclean, c_printable, line_break.
    replace (in_range 0x20 0x7E (byte a)) with true by (symmetry; apply in_range_spec; exact A).
    repeat match goal with |- context[N.eqb (byte a) ?k] => destruct (N.eqb_spec (byte a) k); [lia|] end. reflexivity.
Qed.

Lemma hexU_vis : forall x, in_range 0x20 0x7E (byte (hexdigitU (x mod 16))) = true.
Proof.
  intros x. assert (H := M16 x). revert H. generalize (x mod 16)%N. clear. intros x H. apply in_range_spec.
  unfold hexdigitU. destruct (N.ltb_spec x 10); rewrite byte_chr by lia; lia.
Qed.

Lemma escaped_vis : forall c, sforall (fun a => in_range 0x20 0x7E (byte a)) (serialize_escaped c) = true.
Proof.
  intros c. unfold serialize_escaped. destruct (c <? 0x100)%N; [|destruct (c <? 0x10000)%N];
  cbn [sforall str1]; rewrite !hexU_vis; reflexivity.
Qed.

Lemma escape_cp_clean : forall c t, scalar c -> escape_yaml_cp c = Some t ->
  exists cs, t = utf8s cs /\ Forall scalar cs /\ Forall (fun c => yclean c = true) cs.
Proof.
  intros c t S E. unfold escape_yaml_cp in E.
  repeat match type of E with context[N.eqb c ?k] =>
    destruct (N.eqb_spec c k) as [->|?]; [injection E as <-; apply ascii_clean; reflexivity|] end.
  destruct (is_yaml_printable c) eqn:P.
  - assert (Hc := S). apply scalar_spec in Hc. rewrite encode_spec in E by lia. injection E as <-.
    exists [c]. split; [unfold utf8s; cbn; now rewrite append_nil_r|]. split; [now constructor|].
    constructor; [|constructor]. unfold yclean. apply andb_true_iff. split.
    + unfold is_yaml_printable in P. unfold c_printable, in_range.
      repeat (apply orb_prop in P as [P|P]); rewrite ?P, ?orb_true_r; try reflexivity.
      apply andb_prop in P as [P _]. rewrite P, !orb_true_r. reflexivity.
    + unfold line_break.
      repeat match goal with |- context[N.eqb c ?k] => destruct (N.eqb_spec c k); [lia|] end. reflexivity.
  - injection E as <-. apply ascii_clean, escaped_vis.
Qed.

Lemma escape_cps_clean : forall cs t, Forall scalar cs -> escape_yaml_cps cs = Some t ->
  exists os, t = utf8s os /\ Forall scalar os /\ Forall (fun c => yclean c = true) os.
Proof.
  intros cs t F. revert t. induction F as [|c cs Hc F IH]; intros t E.
  - injection E as <-. exists []. repeat split; constructor.
  - cbn [escape_yaml_cps] in E. destruct (escape_yaml_cp c) as [a|] eqn:Ea; [|discriminate].
    destruct (escape_yaml_cps cs) as [b|]; [|discriminate]. injection E as <-.
    destruct (escape_cp_clean c a Hc Ea) as (o1 & -> & F1 & G1). destruct (IH b eq_refl) as (o2 & -> & F2 & G2).
    exists (o1 ++ o2)%list. rewrite utf8s_app. repeat split; now apply Forall_app.
Qed.

(** bytes of clean text: none below 0x20 *)
Lemma clean_bytes : forall os, Forall scalar os -> Forall (fun c => yclean c = true) os ->
  sforall (fun a => 32 <=? byte a)%N (utf8s os) = true.
Proof.
  intros os F G. induction F as [|c os Hc F IH]; [reflexivity|].
  apply Forall_cons_iff in G as [Gc G]. change (utf8s (c :: os)) with (utf8 c +++ utf8s os).
  rewrite sforall_app, IH by exact G. rewrite andb_true_r.
  apply scalar_spec in Hc. destruct (N.ltb_spec c 0x80) as [L|L].
  - unfold utf8, utf8_bytes. destruct (N.leb_spec c 0x7F); [|lia]. cbn [of_bytes sforall].
    rewrite byte_chr by lia. unfold yclean in Gc. apply andb_prop in Gc as [A B].
    destruct (N.leb_spec 32 c); [reflexivity|]. unfold c_printable, in_range in A. unfold line_break in B.
    destruct (N.eqb_spec c 9) as [->|?]; [discriminate B|].
    destruct (N.eqb_spec c 10) as [->|?]; [discriminate B|].
    destruct (N.eqb_spec c 13) as [->|?]; [discriminate B|].
    exfalso. repeat match type of A with context[N.eqb c ?k] => destruct (N.eqb_spec c k); [lia|] end.
    repeat match type of A with context[N.leb ?k c] => destruct (N.leb_spec k c); [lia|] end. discriminate A.
  - unfold utf8. assert (H := utf8_bytes_high c ltac:(lia)). induction H as [|n l Hn Hl IHl]; [reflexivity|].
    cbn [of_bytes sforall]. rewrite byte_chr, IHl by lia. destruct (N.leb_spec 32 n); [reflexivity|lia].
Qed.

(** *** the block structure: lines *)
Definition ytext (s : string) : string := match yaml_string s with Some t => t | None => "" end.
Definition ykey (k : string) : string := match yaml_key k with Some t => t | None => "" end.

Lemma yaml_string_total : forall s, yaml_string s = Some (ytext s).
Proof.
  intros s. unfold ytext. destruct (yaml_string s) eqn:E; [reflexivity|exfalso].
  unfold yaml_string in E. destruct (escape_total s) as (t & cs & Et & _). rewrite Et in E. discriminate.
Qed.
Lemma yaml_key_total : forall s, yaml_key s = Some (ykey s).
Proof.
  intros s. unfold ykey. destruct (yaml_key s) eqn:E; [reflexivity|exfalso].
  unfold yaml_key in E. destruct (is_alphanum_dash s); [discriminate|]. rewrite yaml_string_total in E. discriminate.
Qed.

(** text of a value printed on one line, if it is *)
Definition inl (v : value) : option string :=
  match v with
  | VNull => Some "null" | VTrue => Some "true" | VFalse => Some "false"
  | VString s => Some (ytext s) | VNumber s => Some s
  | VObject [] => Some "{}" | VArray [] => Some "[]"
  | _ => None
  end.

Fixpoint ylines (n : nat) (v : value) : list line :=
  match v with
  | VObject ms => (fix go (l : list (string * value)) : list line :=
      match l with
      | [] => []
      | (k, x) :: r =>
        (match inl x with
         | Some t => [(2 * n, ykey k +++ ":" +++ " " +++ t)]
         | None => (2 * n, ykey k +++ ":") :: ylines (S n) x
         end) ++ go r
      end)%list ms
  | VArray vs => (fix go (l : list value) : list line :=
      match l with
      | [] => []
      | x :: r =>
        (match inl x with
         | Some t => [(2 * n, "-" +++ " " +++ t)]
         | None => (2 * n, "-") :: ylines (S n) x
         end) ++ go r
      end)%list vs
  | _ => []
  end.
Definition mentry (n : nat) (k : string) (x : value) : list line :=
  match inl x with
  | Some t => [(2 * n, ykey k +++ ":" +++ " " +++ t)]
  | None => (2 * n, ykey k +++ ":") :: ylines (S n) x
  end.
Definition sentry (n : nat) (x : value) : list line :=
  match inl x with
  | Some t => [(2 * n, "-" +++ " " +++ t)]
  | None => (2 * n, "-") :: ylines (S n) x
  end.
Fixpoint mlines (n : nat) (l : list (string * value)) : list line :=
  match l with [] => [] | (k, x) :: r => (mentry n k x ++ mlines n r)%list end.
Fixpoint slines (n : nat) (l : list value) : list line :=
  match l with [] => [] | x :: r => (sentry n x ++ slines n r)%list end.
Lemma ylines_obj : forall n ms, ylines n (VObject ms) = mlines n ms.
Proof. intros n ms. cbn [ylines]. induction ms as [|[k x] r IH]; [reflexivity|]. cbn [mlines]. rewrite <- IH. reflexivity. Qed.
Lemma ylines_arr : forall n vs, ylines n (VArray vs) = slines n vs.
Proof. intros n vs. cbn [ylines]. induction vs as [|x r IH]; [reflexivity|]. cbn [slines]. rewrite <- IH. reflexivity. Qed.

Fixpoint blanks (n : nat) : string := match n with O => "" | S m => String " " (blanks m) end.
Lemma spaces2_blanks : forall n, spaces2 n = blanks (2 * n).
Proof.
  induction n as [|n IH]; [reflexivity|]. cbn [spaces2]. rewrite IH. replace (2 * S n) with (S (S (2 * n))) by lia. reflexivity.
Qed.
Definition render (l : line) : string := blanks (fst l) +++ snd l.
Fixpoint join_lines (ls : list string) : string :=
  match ls with
  | [] => ""
  | l :: r => l +++ match r with [] => "" | _ => nl +++ join_lines r end
  end.

Lemma join_lines_app : forall a b, a <> [] -> b <> [] -> join_lines (a ++ b) = join_lines a +++ nl +++ join_lines b.
Proof.
  induction a as [|x a IH]; intros b Ha Hb; [congruence|]. destruct a as [|y a].
  - cbn [app join_lines]. destruct b as [|z b]; [congruence|]. now rewrite append_nil_r.
  - cbn [app]. cbn [app] in IH. cbn [join_lines]. cbn [join_lines] in IH. rewrite IH by (try assumption; congruence).
    rewrite !append_assoc. reflexivity.
Qed.

Lemma mentry_ne : forall n k x, mentry n k x <> [].
Proof. intros n k x. unfold mentry. destruct (inl x); discriminate. Qed.
Lemma sentry_ne : forall n x, sentry n x <> [].
Proof. intros n x. unfold sentry. destruct (inl x); discriminate. Qed.
Lemma mlines_ne : forall n l, l <> [] -> mlines n l <> [].
Proof. intros n [|[k x] r] H; [congruence|]. cbn [mlines]. intros E. apply app_eq_nil in E as [E _]. now apply mentry_ne in E. Qed.
Lemma slines_ne : forall n l, l <> [] -> slines n l <> [].
Proof. intros n [|x r] H; [congruence|]. cbn [slines]. intros E. apply app_eq_nil in E as [E _]. now apply sentry_ne in E. Qed.

Definition ybody (n : nat) (v : value) : string :=
  match inl v with
  | Some t => yaml_sp n +++ t
  | None => yaml_nl n +++ join_lines (map render (ylines n v))
  end.

Lemma join_mentry : forall n k x, join_lines (map render (mentry n k x)) = spaces2 n +++ ykey k +++ ":" +++ ybody (S n) x.
Proof.
  intros n k x. unfold mentry, ybody. destruct (inl x) as [t|] eqn:E.
  - cbn [map join_lines]. unfold render. cbn [fst snd]. rewrite append_nil_r, spaces2_blanks. reflexivity.
  - assert (N : ylines (S n) x <> []).
    { destruct x as [ | | |s|s|[|a l]|[|a l]]; try discriminate E.
      - rewrite ylines_obj. apply mlines_ne. discriminate.
      - rewrite ylines_arr. apply slines_ne. discriminate. }
    cbn [map join_lines]. destruct (map render (ylines (S n) x)) eqn:M.
    { apply map_eq_nil in M. contradiction. }
    unfold render at 1. cbn [fst snd]. rewrite spaces2_blanks, !append_assoc. reflexivity.
Qed.
Lemma join_sentry : forall n x, join_lines (map render (sentry n x)) = spaces2 n +++ "-" +++ ybody (S n) x.
Proof.
  intros n x. unfold sentry, ybody. destruct (inl x) as [t|] eqn:E.
  - cbn [map join_lines]. unfold render. cbn [fst snd]. rewrite append_nil_r, spaces2_blanks. reflexivity.
  - assert (N : ylines (S n) x <> []).
    { destruct x as [ | | |s|s|[|a l]|[|a l]]; try discriminate E.
      - rewrite ylines_obj. apply mlines_ne. discriminate.
      - rewrite ylines_arr. apply slines_ne. discriminate. }
    cbn [map join_lines]. destruct (map render (ylines (S n) x)) eqn:M.
    { apply map_eq_nil in M. contradiction. }
    unfold render at 1. cbn [fst snd]. rewrite spaces2_blanks, !append_assoc. reflexivity.
Qed.

Definition ymem_go (n : nat) := fix go (newlines : Z) (l : list (string * value)) {struct l} : option string :=
         match l with
         | [] => Some ""
         | (k, x) :: r =>
           match yaml_key k, yaml_print (S n) x,
                 go (if (0 <? newlines)%Z then newlines - 1 else newlines)%Z r with
           | Some k', Some x', Some r' =>
               Some (spaces2 n +++ k' +++ ":" +++ x' +++
                     (if (0 <? newlines)%Z then nl else "") +++ r')
           | _, _, _ => None
           end
         end.
Definition yarr_go (n : nat) := fix go (newlines : Z) (l : list value) {struct l} : option string :=
         match l with
         | [] => Some ""
         | x :: r =>
           match yaml_print (S n) x,
                 go (if (0 <? newlines)%Z then newlines - 1 else newlines)%Z r with
           | Some x', Some r' =>
               Some (spaces2 n +++ "-" +++ x' +++
                     (if (0 <? newlines)%Z then nl else "") +++ r')
           | _, _ => None
           end
         end.
Lemma yaml_print_obj : forall n m ms, yaml_print n (VObject (m :: ms)) =
  match ymem_go n (Z.of_nat (List.length (m :: ms)) - 1)%Z (m :: ms) with Some t => Some (yaml_nl n +++ t) | None => None end.
Proof. reflexivity. Qed.
Lemma yaml_print_arr : forall n m ms, yaml_print n (VArray (m :: ms)) =
  match yarr_go n (Z.of_nat (List.length (m :: ms)) - 1)%Z (m :: ms) with Some t => Some (yaml_nl n +++ t) | None => None end.
Proof. reflexivity. Qed.

Lemma yaml_print_lines : forall v n, yaml_print n v = Some (ybody n v).
Proof.
  induction v as [ | | |s|s|ms IH|vs IH] using value_ind'; intros n; try reflexivity.
  - cbn [yaml_print]. rewrite yaml_string_total. reflexivity.
  - destruct ms as [|m0 r0]; [reflexivity|]. rewrite yaml_print_obj. unfold ybody. cbn [inl]. rewrite ylines_obj.
    set (l := m0 :: r0) in *.
    enough (E : ymem_go n (Z.of_nat (List.length l) - 1)%Z l = Some (join_lines (map render (mlines n l)))) by now rewrite E.
    clearbody l. clear m0 r0. induction l as [|[k x] r IHr]; [reflexivity|].
    apply Forall_cons_iff in IH as [Ix IH]. cbn [ymem_go]. fold (ymem_go n). cbn [snd] in Ix. rewrite Ix, yaml_key_total.
    cbn [mlines]. destruct r as [|y r'].
    + cbn. rewrite !append_nil_r, app_nil_r, join_mentry. reflexivity.
    + replace (Z.of_nat (List.length ((k, x) :: y :: r')) - 1)%Z with (Z.of_nat (List.length (y :: r')))
        by (cbn [List.length]; lia).
      destruct (Z.ltb_spec 0 (Z.of_nat (List.length (y :: r')))) as [L|L]; [|cbn [List.length] in L; lia].
      rewrite (IHr IH). rewrite map_app, join_lines_app, join_mentry.
      * rewrite !append_assoc. reflexivity.
      * intros E. apply map_eq_nil in E. now apply mentry_ne in E.
      * intros E. apply map_eq_nil in E. apply mlines_ne in E; [exact E|discriminate].
  - destruct vs as [|m0 r0]; [reflexivity|]. rewrite yaml_print_arr. unfold ybody. cbn [inl]. rewrite ylines_arr.
    set (l := m0 :: r0) in *.
    enough (E : yarr_go n (Z.of_nat (List.length l) - 1)%Z l = Some (join_lines (map render (slines n l)))) by now rewrite E.
    clearbody l. clear m0 r0. induction l as [|x r IHr]; [reflexivity|].
    apply Forall_cons_iff in IH as [Ix IH]. cbn [yarr_go]. fold (yarr_go n). rewrite Ix.
    cbn [slines]. destruct r as [|y r'].
    + cbn. rewrite !append_nil_r, app_nil_r, join_sentry. reflexivity.
    + replace (Z.of_nat (List.length (x :: y :: r')) - 1)%Z with (Z.of_nat (List.length (y :: r')))
        by (cbn [List.length]; lia).
      destruct (Z.ltb_spec 0 (Z.of_nat (List.length (y :: r')))) as [L|L]; [|cbn [List.length] in L; lia].
      rewrite (IHr IH). rewrite map_app, join_lines_app, join_sentry.
      * rewrite !append_assoc. reflexivity.
      * intros E. apply map_eq_nil in E. now apply sentry_ne in E.
      * intros E. apply map_eq_nil in E. apply slines_ne in E; [exact E|discriminate].
Qed.

(** *** no newline inside lines *)
Definition no_nl (s : string) : Prop := sforall (fun a => negb (byte a =? 10)%N) s = true.
Lemma no_nl_app : forall a b, no_nl a -> no_nl b -> no_nl (a +++ b).
Proof. intros a b A B. unfold no_nl in *. now rewrite sforall_app, A, B. Qed.

Lemma split_nonempty : forall s, split_lines s <> [].
Proof. induction s as [|a s IH]; cbn; [discriminate|]. destruct (byte a =? 10)%N; [discriminate|]. destruct (split_lines s); discriminate. Qed.

Lemma split_one : forall s, no_nl s -> split_lines s = [s].
Proof.
  induction s as [|a s IH]; intros H; [reflexivity|]. unfold no_nl in *. cbn in *. apply andb_prop in H as [A B].
  apply negb_true_iff in A. rewrite A, IH by exact B. reflexivity.
Qed.
Lemma split_app : forall s t, no_nl s -> split_lines (s +++ nl +++ t) = s :: split_lines t.
Proof.
  induction s as [|a s IH]; intros t H; [reflexivity|]. unfold no_nl in *. cbn in H. apply andb_prop in H as [A B].
  apply negb_true_iff in A. cbn [append split_lines]. rewrite A, IH by exact B. reflexivity.
Qed.
Lemma split_join : forall ls, ls <> [] -> Forall no_nl ls -> split_lines (join_lines ls) = ls.
Proof.
  induction ls as [|l r IH]; intros N F; [congruence|]. apply Forall_cons_iff in F as [Hl F].
  cbn [join_lines]. destruct r as [|y r']; [rewrite append_nil_r; now apply split_one|].
  rewrite split_app by exact Hl. f_equal. apply IH; [discriminate|exact F].
Qed.

Lemma ytext_no_nl : forall s, no_nl (ytext s).
Proof.
  intros s. unfold ytext, yaml_string. destruct (escape_total s) as (t & cs & Et & _ & F & Ec). rewrite Et.
  destruct (escape_cps_clean cs t F Ec) as (os & -> & Fo & Go).
  repeat apply no_nl_app; try reflexivity. unfold no_nl. eapply sforall_impl; [|exact (clean_bytes os Fo Go)].
  intros a Ha. cbn beta in Ha |- *. destruct (N.eqb_spec (byte a) 10) as [E|]; [|reflexivity]. rewrite E in Ha. discriminate Ha.
Qed.

Lemma letter_eq : forall a, is_alphanum_dash_char a = letter a.
Proof. intros a. destruct a as [[|] [|] [|] [|] [|] [|] [|] [|]]; reflexivity. Qed.
Lemma alphanum_letters : forall k, is_alphanum_dash k = sforall letter k.
Proof. induction k as [|a k IH]; [reflexivity|]. cbn. unfold is_alphanum_dash in IH. now rewrite letter_eq, IH. Qed.

Lemma ykey_no_nl : forall k, no_nl (ykey k).
Proof.
  intros k. unfold ykey, yaml_key. destruct (is_alphanum_dash k) eqn:E.
  - rewrite alphanum_letters in E. unfold no_nl. eapply sforall_impl; [|exact E]. intros a H. cbn beta in H |- *.
    destruct (N.eqb_spec (byte a) 10) as [E1|]; [|reflexivity]. unfold letter in H. rewrite E1 in H. discriminate H.
  - rewrite yaml_string_total. apply ytext_no_nl.
Qed.

Lemma num_no_nl : forall s, json_number s = true -> no_nl s.
Proof.
  intros s H. apply json_number_chars in H as [H _]. unfold no_nl. eapply sforall_impl; [|exact H].
  intros a Ha. destruct a as [[|] [|] [|] [|] [|] [|] [|] [|]]; vm_compute in Ha; try discriminate Ha; reflexivity.
Qed.

Lemma yaml_ok_obj : forall ms, yaml_ok (VObject ms) <-> Forall (fun kv => key_ok (fst kv) /\ yaml_ok (snd kv)) ms.
Proof.
  intros ms. cbn [yaml_ok]. induction ms as [|kv r IH]; [split; constructor|]. rewrite IH, Forall_cons_iff. tauto.
Qed.
Lemma yaml_ok_arr : forall vs, yaml_ok (VArray vs) <-> Forall yaml_ok vs.
Proof.
  intros vs. cbn [yaml_ok]. induction vs as [|kv r IH]; [split; constructor|]. rewrite IH, Forall_cons_iff. tauto.
Qed.

Lemma inl_no_nl : forall v t, numbers_ok v = true -> inl v = Some t -> no_nl t.
Proof.
  intros v t H E. destruct v as [ | | |s|s|[|a l]|[|a l]]; try discriminate E; injection E as <-; try reflexivity.
  - apply ytext_no_nl.
  - now apply num_no_nl.
Qed.

Lemma yaml_ok_numbers : forall v, yaml_ok v -> numbers_ok v = true.
Proof.
  induction v as [ | | |s|s|ms IH|vs IH] using value_ind'; intros H; try reflexivity.
  - exact H.
  - apply yaml_ok_obj in H. rewrite numbers_ok_obj. apply forallb_forall. rewrite Forall_forall in *.
    intros kv Hin. apply IH; [exact Hin|]. now apply H.
  - apply yaml_ok_arr in H. rewrite numbers_ok_arr. apply forallb_forall. rewrite Forall_forall in *.
    intros kv Hin. apply IH; [exact Hin|]. now apply H.
Qed.

Lemma ylines_no_nl : forall v n, numbers_ok v = true -> Forall (fun l => no_nl (snd l)) (ylines n v).
Proof.
  induction v as [ | | |s|s|ms IH|vs IH] using value_ind'; intros n H; try constructor.
  - rewrite ylines_obj. rewrite numbers_ok_obj in H. induction ms as [|[k x] r IHr]; [constructor|].
    apply Forall_cons_iff in IH as [Ix IH]. cbn [forallb snd] in *. apply andb_prop in H as [Nx Nr].
    cbn [mlines]. apply Forall_app. split; [|now apply IHr]. unfold mentry.
    destruct (inl x) as [t|] eqn:E.
    + constructor; [|constructor]. cbn [snd]. repeat apply no_nl_app; try reflexivity; [apply ykey_no_nl|].
      eapply inl_no_nl; eassumption.
    + constructor; [|now apply Ix]. cbn [snd]. apply no_nl_app; [apply ykey_no_nl|reflexivity].
  - rewrite ylines_arr. rewrite numbers_ok_arr in H. induction vs as [|x r IHr]; [constructor|].
    apply Forall_cons_iff in IH as [Ix IH]. cbn [forallb] in *. apply andb_prop in H as [Nx Nr].
    cbn [slines]. apply Forall_app. split; [|now apply IHr]. unfold sentry.
    destruct (inl x) as [t|] eqn:E.
    + constructor; [|constructor]. cbn [snd]. repeat apply no_nl_app; try reflexivity.
      eapply inl_no_nl; eassumption.
    + constructor; [|now apply Ix]. reflexivity.
Qed.

(** *** heads of lines *)
Definition head_ok (l : line) : Prop := match snd l with String a _ => (byte a =? 32)%N = false | EmptyString => True end.
Lemma indent_render : forall l, head_ok l -> indent_of (render l) = l.
Proof.
  intros [m c] H. unfold render. cbn [fst snd] in *. induction m as [|m IH].
  - cbn [blanks append]. destruct c as [|a c]; [reflexivity|]. cbn in H. cbn [indent_of]. now rewrite H.
  - cbn [blanks append indent_of]. change (byte " " =? 32)%N with true. cbn iota. now rewrite IH.
Qed.

Lemma ytext_dq : forall s, exists t, ytext s = String dquote (t +++ str1 dquote) /\ escape_yaml_string s = Some t.
Proof.
  intros s. destruct (escape_total s) as (t & cs & Et & _). exists t. split; [|exact Et].
  unfold ytext, yaml_string. rewrite Et. reflexivity.
Qed.

(** shape of a key: quoted, or letters *)
Lemma ykey_cases : forall k, (exists t, ykey k = String dquote (t +++ str1 dquote) /\ escape_yaml_string k = Some t) \/
  (ykey k = k /\ sforall letter k = true).
Proof.
  intros k. unfold ykey, yaml_key. destruct (is_alphanum_dash k) eqn:E.
  - right. now rewrite alphanum_letters in E.
  - left. rewrite yaml_string_total. apply ytext_dq.
Qed.

Lemma ykey_head : forall k z, exists a r, ykey k +++ ":" +++ z = String a r /\
  (byte a =? 32)%N = false /\ (byte a =? 45)%N = false /\ (byte a =? 123)%N = false /\ (byte a =? 91)%N = false.
Proof.
  intros k z. destruct (ykey_cases k) as [(t & E & _)|[E L]]; rewrite E.
  - eexists _, _. repeat split; reflexivity.
  - destruct k as [|a k]; [eexists _, _; repeat split; reflexivity|]. cbn in L. apply andb_prop in L as [L _].
    eexists _, _. cbn [append]. split; [reflexivity|].
    unfold letter in L. apply orb_prop in L as [L|L]; apply in_range_spec in L;
    repeat split; apply N.eqb_neq; lia.
Qed.

Lemma span_letters_app : forall k z, sforall letter k = true -> match z with String a _ => letter a = false | _ => True end ->
  span_letters (k +++ z) = (k, z).
Proof.
  induction k as [|a k IH]; intros z H Z.
  - destruct z as [|a z]; [reflexivity|]. cbn. now rewrite Z.
  - cbn in *. apply andb_prop in H as [A B]. rewrite A, IH by assumption. reflexivity.
Qed.

Lemma letter_not_core : forall k, sforall letter k = true -> letter_keyword k = false -> core_keyword k = false.
Proof.
  intros k L K. unfold core_keyword, letter_keyword in *. cbn [existsb] in *.
  repeat (apply orb_false_iff in K as [? K]).
  repeat match goal with H : String.eqb k _ = false |- _ => rewrite H; clear H end.
  destruct (String.eqb_spec k "~") as [->|]; [discriminate L|reflexivity].
Qed.

Lemma read_key_ok : forall k tail, key_ok k -> (tail = "" \/ exists r, tail = String " " r) ->
  read_key (ykey k +++ ":" +++ tail) = KKey k tail.
Proof.
  intros k tail [W K] T.
  assert (A : forall kk, after_key (KKey kk (":" +++ tail)) = KKey kk tail).
  { intros kk. destruct T as [->|[r ->]]; reflexivity. }
  destruct (ykey_cases k) as [(t & E & Et)|[E L]]; rewrite E.
  - destruct (escape_wf k W) as (t' & Et' & R). assert (t' = t) by congruence. subst t'.
    rewrite append_cons. cbn [read_key]. change (byte dquote =? 34)%N with true. cbn iota.
    rewrite append_assoc. unfold str1. cbn [append]. rewrite R. exact (A k).
  - destruct k as [|a k]; [discriminate K|].
    assert (Ha : (byte a =? 34)%N = false).
    { cbn in L. apply andb_prop in L as [L _]. unfold letter in L. apply N.eqb_neq. intros E2. rewrite E2 in L. discriminate L. }
    rewrite append_cons. unfold read_key. rewrite Ha. rewrite <- append_cons.
    rewrite span_letters_app; [|exact L|reflexivity]. rewrite A.
    rewrite letter_not_core by assumption. reflexivity.
Qed.

(** *** inline values *)
Lemma plain_number : forall s, json_number s = true -> inline_value s = Some (VNumber s).
Proof.
  intros s H. destruct (json_number_chars s H) as [_ Hn]. destruct s as [|a s]; [congruence|].
  assert (Hh := num_head_byte _ (json_number_head _ _ H)).
  assert (Q : forall c t, (byte c =? 45)%N || in_range 48 57 (byte c) = false -> String.eqb (String a s) (String c t) = false).
  { intros c t Hc. cbn. destruct (Ascii.eqb_spec a c) as [->|]; [|reflexivity]. exfalso.
    apply orb_false_iff in Hc as [H1 H2]. destruct Hh as [Hh|Hh]; [now apply N.eqb_neq in H1|].
    apply in_range_spec in Hh. congruence. }
  unfold inline_value, plain_value. cbn [existsb].
  rewrite !Q by reflexivity.
  change (String.eqb (String a s) "") with false. rewrite !orb_false_r.
  destruct (N.eqb_spec (byte a) 34); [lia|]. now rewrite H.
Qed.

Lemma inline_ok : forall v t, yaml_ok v -> inl v = Some t -> inline_value t = Some v.
Proof.
  intros v t H E. destruct v as [ | | |s|s|[|a l]|[|a l]]; try discriminate E; injection E as <-; try reflexivity.
  - destruct (ytext_dq s) as (t & -> & Et). destruct (escape_wf s H) as (t' & Et' & R).
    assert (t' = t) by congruence. subst t'. unfold inline_value. cbn [String.eqb].
    change (Ascii.eqb dquote "{") with false. change (Ascii.eqb dquote "[") with false. cbn iota.
    change (byte dquote =? 34)%N with true. cbn iota. unfold str1. rewrite R. reflexivity.
  - now apply plain_number.
Qed.

(** *** the block reader *)
Fixpoint yfuel (v : value) : nat :=
  match v with
  | VObject ms => S (S ((fix sum (l : list (string * value)) : nat :=
      match l with [] => 0 | kv :: r => S (yfuel (snd kv)) + sum r end) ms))
  | VArray vs => S (S ((fix sum (l : list value) : nat :=
      match l with [] => 0 | x :: r => S (yfuel x) + sum r end) vs))
  | _ => 0
  end.
Fixpoint ymf (l : list (string * value)) : nat := match l with [] => 0 | kv :: r => S (yfuel (snd kv)) + ymf r end.
Fixpoint yaf (l : list value) : nat := match l with [] => 0 | x :: r => S (yfuel x) + yaf r end.
Lemma yfuel_obj : forall ms, yfuel (VObject ms) = S (S (ymf ms)).
Proof. reflexivity. Qed.
Lemma yfuel_arr : forall ms, yfuel (VArray ms) = S (S (yaf ms)).
Proof. reflexivity. Qed.

Definition dedent (n : nat) (rest : list line) : Prop := match rest with [] => True | (m, _) :: _ => m < n end.

Lemma dedent_mlines : forall n l rest, dedent (2 * n) rest -> dedent (2 * S n) (mlines n l ++ rest).
Proof.
  intros n [|[k x] r] rest D; cbn [mlines app].
  - destruct rest as [|[m c] q]; [exact I|]. cbn in *. lia.
  - unfold mentry. destruct (inl x); cbn; lia.
Qed.
Lemma dedent_slines : forall n l rest, dedent (2 * n) rest -> dedent (2 * S n) (slines n l ++ rest).
Proof.
  intros n [|x r] rest D; cbn [slines app].
  - destruct rest as [|[m c] q]; [exact I|]. cbn in *. lia.
  - unfold sentry. destruct (inl x); cbn; lia.
Qed.

Definition block_ok (v : value) : Prop := forall n parent f rest, yaml_ok v -> inl v = None -> yfuel v <= f ->
  parent <= 2 * n -> dedent (2 * n) rest -> block f parent (ylines n v ++ rest) = Some (v, rest).

Lemma seq_entry_key : forall k z, seq_entry (ykey k +++ ":" +++ z) = None.
Proof.
  intros k z. destruct (ykey_head k z) as (a & r & E & _ & D & _). rewrite E. unfold seq_entry. rewrite D. now destruct r.
Qed.

Lemma mapping_ok : forall n ms f rest, Forall (fun kv => block_ok (snd kv)) ms ->
  Forall (fun kv => key_ok (fst kv) /\ yaml_ok (snd kv)) ms -> S (ymf ms) <= f -> dedent (2 * n) rest ->
  mapping f (2 * n) (mlines n ms ++ rest) = Some (ms, rest).
Proof.
  intros n ms f rest. revert f. induction ms as [|[k x] r IHr]; intros f B Y Hf D.
  - destruct f as [|f]; [lia|]. cbn [mlines app mapping]. destruct rest as [|[m c] q]; [reflexivity|].
    cbn in D. destruct (Nat.eqb_spec m (2 * n)); [lia|]. destruct (Nat.ltb_spec m (2 * n)); [reflexivity|lia].
  - apply Forall_cons_iff in B as [Bx B]. apply Forall_cons_iff in Y as [[Yk Yx] Y]. cbn [fst snd] in *.
    cbn [ymf snd] in Hf. destruct f as [|f]; [lia|]. cbn [mlines]. unfold mentry.
    destruct (inl x) as [t|] eqn:E.
    + cbn [app mapping]. rewrite Nat.eqb_refl.
      change (" " +++ t) with (String " " t).
      rewrite read_key_ok by (try assumption; right; eauto). cbn [tail_inline].
      rewrite (inline_ok x t Yx E). rewrite IHr by (try assumption; lia). reflexivity.
    + cbn [app mapping]. rewrite Nat.eqb_refl.
      rewrite <- (append_nil_r (ykey k +++ ":")), append_assoc. rewrite read_key_ok by (try assumption; now left).
      cbn [tail_inline]. rewrite <- app_assoc.
      rewrite (Bx (S n) (S (2 * n)) f _ Yx E); [|lia|lia|now apply dedent_mlines].
      rewrite IHr by (try assumption; lia). reflexivity.
Qed.

Lemma blockseq_ok : forall n vs f rest, Forall block_ok vs ->
  Forall yaml_ok vs -> S (yaf vs) <= f -> dedent (2 * n) rest ->
  blockseq f (2 * n) (slines n vs ++ rest) = Some (vs, rest).
Proof.
  intros n vs f rest. revert f. induction vs as [|x r IHr]; intros f B Y Hf D.
  - destruct f as [|f]; [lia|]. cbn [slines app blockseq]. destruct rest as [|[m c] q]; [reflexivity|].
    cbn in D. destruct (Nat.eqb_spec m (2 * n)); [lia|]. destruct (Nat.ltb_spec m (2 * n)); [reflexivity|lia].
  - apply Forall_cons_iff in B as [Bx B]. apply Forall_cons_iff in Y as [Yx Y].
    cbn [yaf] in Hf. destruct f as [|f]; [lia|]. cbn [slines]. unfold sentry.
    destruct (inl x) as [t|] eqn:E.
    + cbn [app blockseq]. rewrite Nat.eqb_refl.
      change (seq_entry ("-" +++ " " +++ t)) with (Some (String " " t)). cbn [tail_inline].
      rewrite (inline_ok x t Yx E). rewrite IHr by (try assumption; lia). reflexivity.
    + cbn [app blockseq]. rewrite Nat.eqb_refl.
      change (seq_entry "-") with (Some ""). cbn [tail_inline]. rewrite <- app_assoc.
      rewrite (Bx (S n) (S (2 * n)) f _ Yx E); [|lia|lia|now apply dedent_slines].
      rewrite IHr by (try assumption; lia). reflexivity.
Qed.

Lemma all_block_ok : forall v, block_ok v.
Proof.
  induction v as [ | | |s|s|ms IH|vs IH] using value_ind'; intros n parent f rest Y E Hf Hp D; try discriminate E.
  - destruct ms as [|[k x] r]; [discriminate E|]. rewrite yfuel_obj in Hf. destruct f as [|f]; [lia|].
    rewrite ylines_obj. set (l := (k, x) :: r) in *. apply yaml_ok_obj in Y.
    assert (M : mapping f (2 * n) (mlines n l ++ rest) = Some (l, rest)) by (apply mapping_ok; auto; lia).
    assert (H : exists z q, (mlines n l ++ rest)%list = (2 * n, ykey k +++ ":" +++ z) :: q /\ (z = "" \/ exists r, z = String " " r)).
    { cbn [mlines l]. unfold mentry. destruct (inl x) as [t|].
      - exists (" " +++ t), (mlines n r ++ rest)%list. split; [reflexivity|]. right. now exists t.
      - exists "", (ylines (S n) x ++ mlines n r ++ rest)%list. cbn. rewrite <- app_assoc. split; [reflexivity|now left]. }
    destruct H as (z & q & H & Hz). cbn [block]. rewrite H. rewrite H in M.
    destruct (Nat.ltb_spec (2 * n) parent); [lia|]. rewrite seq_entry_key.
    assert (Yk : key_ok k) by (apply Forall_inv in Y; apply Y).
    rewrite read_key_ok by assumption. rewrite M. reflexivity.
  - destruct vs as [|x r]; [discriminate E|]. rewrite yfuel_arr in Hf. destruct f as [|f]; [lia|].
    rewrite ylines_arr. set (l := x :: r) in *. apply yaml_ok_arr in Y.
    assert (M : blockseq f (2 * n) (slines n l ++ rest) = Some (l, rest)) by (apply blockseq_ok; auto; lia).
    assert (H : exists c q, (slines n l ++ rest)%list = (2 * n, c) :: q /\ seq_entry c <> None).
    { cbn [slines l]. unfold sentry. destruct (inl x) as [t|].
      - eexists _, _. split; [reflexivity|]. discriminate.
      - eexists _, _. split; [reflexivity|]. discriminate. }
    destruct H as (c & q & H & Hc). cbn [block]. rewrite H. rewrite H in M.
    destruct (Nat.ltb_spec (2 * n) parent); [lia|]. destruct (seq_entry c); [|congruence]. rewrite M. reflexivity.
Qed.

(** *** fuel bound *)
Lemma ybody_len : forall v n, yaml_ok v -> yfuel v <= 2 * String.length (ybody (S n) v).
Proof.
  assert (JM : forall n l, l <> [] -> Forall (fun kv : string * value => yaml_ok (snd kv) -> yfuel (snd kv) <= 2 * String.length (ybody (S n) (snd kv))) l ->
     Forall (fun kv => yaml_ok (snd kv)) l -> ymf l <= 2 * String.length (join_lines (map render (mlines n l)))).
  { intros n l. induction l as [|[k x] r IH]; intros Hne F Y; [congruence|].
    apply Forall_cons_iff in F as [Fx F]. apply Forall_cons_iff in Y as [Yx Y]. cbn [fst snd] in *. specialize (Fx Yx).
    cbn [ymf mlines snd]. destruct r as [|y r'].
    - cbn [mlines ymf]. rewrite app_nil_r, join_mentry, !length_append. cbn [String.length]. lia.
    - rewrite map_app, join_lines_app, join_mentry, !length_append.
      2:{ intros E. apply map_eq_nil in E. now apply mentry_ne in E. }
      2:{ intros E. apply map_eq_nil in E. apply mlines_ne in E; [exact E|discriminate]. }
      specialize (IH ltac:(discriminate) F Y). cbn [String.length nl str1] in *. lia. }
  assert (JS : forall n l, l <> [] -> Forall (fun v => yaml_ok v -> yfuel v <= 2 * String.length (ybody (S n) v)) l ->
     Forall yaml_ok l -> yaf l <= 2 * String.length (join_lines (map render (slines n l)))).
  { intros n l. induction l as [|x r IH]; intros Hne F Y; [congruence|].
    apply Forall_cons_iff in F as [Fx F]. apply Forall_cons_iff in Y as [Yx Y]. specialize (Fx Yx).
    cbn [yaf slines]. destruct r as [|y r'].
    - cbn [slines yaf]. rewrite app_nil_r, join_sentry, !length_append. cbn [String.length]. lia.
    - rewrite map_app, join_lines_app, join_sentry, !length_append.
      2:{ intros E. apply map_eq_nil in E. now apply sentry_ne in E. }
      2:{ intros E. apply map_eq_nil in E. apply slines_ne in E; [exact E|discriminate]. }
      specialize (IH ltac:(discriminate) F Y). cbn [String.length nl str1] in *. lia. }
  induction v as [ | | |s|s|ms IH|vs IH] using value_ind'; intros n Y; try (cbn [yfuel]; lia).
  - destruct ms as [|m0 r0]; [cbn; lia|]. apply yaml_ok_obj in Y. rewrite yfuel_obj. unfold ybody. cbn [inl].
    rewrite ylines_obj. rewrite length_append. cbn [yaml_nl nl str1 String.length].
    assert (ymf (m0 :: r0) <= 2 * String.length (join_lines (map render (mlines (S n) (m0 :: r0))))); [|lia].
    apply JM; [discriminate| |].
    + eapply Forall_impl; [|exact IH]. intros kv H Hy. now apply H.
    + eapply Forall_impl; [|exact Y]. intros kv [_ H]. exact H.
  - destruct vs as [|m0 r0]; [cbn; lia|]. apply yaml_ok_arr in Y. rewrite yfuel_arr. unfold ybody. cbn [inl].
    rewrite ylines_arr. rewrite length_append. cbn [yaml_nl nl str1 String.length].
    assert (yaf (m0 :: r0) <= 2 * String.length (join_lines (map render (slines (S n) (m0 :: r0))))); [|lia].
    apply JS; [discriminate| |exact Y].
    eapply Forall_impl; [|exact IH]. intros kv H Hy. now apply H.
Qed.

Lemma ylines_heads : forall v n, Forall head_ok (ylines n v).
Proof.
  induction v as [ | | |s|s|ms IH|vs IH] using value_ind'; intros n; try constructor.
  - rewrite ylines_obj. induction ms as [|[k x] r IHr]; [constructor|].
    apply Forall_cons_iff in IH as [Ix IH]. cbn [mlines]. apply Forall_app. split; [|now apply IHr]. unfold mentry.
    destruct (inl x) as [t|].
    + constructor; [|constructor]. unfold head_ok. cbn [snd].
      destruct (ykey_head k (" " +++ t)) as (a & q & E & A & _). rewrite E. exact A.
    + constructor; [|apply Ix]. unfold head_ok. cbn [snd].
      destruct (ykey_head k "") as (a & q & E & A & _). rewrite append_nil_r in E. rewrite E. exact A.
  - rewrite ylines_arr. induction vs as [|x r IHr]; [constructor|].
    apply Forall_cons_iff in IH as [Ix IH]. cbn [slines]. apply Forall_app. split; [|now apply IHr]. unfold sentry.
    destruct (inl x) as [t|].
    + constructor; [|constructor]. reflexivity.
    + constructor; [|apply Ix]. reflexivity.
Qed.

Definition plainish (a : ascii) : bool := (letter a || num_char a || Ascii.eqb a "~")%bool.
Lemma plain_value_chars : forall s v, plain_value s = Some v -> sforall plainish s = true.
Proof.
  intros s v H. unfold plain_value in H. cbn [existsb] in H. rewrite !orb_false_r in H.
  repeat match type of H with context[String.eqb s ?k] =>
    destruct (String.eqb_spec s k) as [->|?]; [reflexivity|] end. cbn in H.
  destruct (json_number s) eqn:J; [|discriminate]. apply json_number_chars in J as [J _].
  eapply sforall_impl; [|exact J]. intros a Ha. unfold plainish. rewrite Ha, orb_true_r. reflexivity.
Qed.

(** a line of a block collection is no inline value *)
Lemma entry_not_inline : forall k z, wf_utf8 k -> inline_value (ykey k +++ ":" +++ z) = None.
Proof.
  intros k z W. destruct (ykey_head k z) as (a & q & E & _ & _ & B1 & B2).
  unfold inline_value.
  assert (N1 : String.eqb (ykey k +++ ":" +++ z) "{}" = false).
  { rewrite E. cbn. destruct (Ascii.eqb_spec a "{") as [->|]; [discriminate B1|reflexivity]. }
  assert (N2 : String.eqb (ykey k +++ ":" +++ z) "[]" = false).
  { rewrite E. cbn. destruct (Ascii.eqb_spec a "[") as [->|]; [discriminate B2|reflexivity]. }
  rewrite N1, N2.
  assert (P : plain_value (ykey k +++ ":" +++ z) = None).
  { destruct (plain_value (ykey k +++ ":" +++ z)) eqn:P; [|reflexivity]. apply plain_value_chars in P.
    rewrite !sforall_app in P. apply andb_prop in P as [_ P]. apply andb_prop in P as [P _]. discriminate P. }
  rewrite P. rewrite E.
  destruct (byte a =? 34)%N eqn:Q; [|reflexivity].
  destruct (ykey_cases k) as [(t & Ek & Et)|[Ek L]].
  - rewrite Ek in E. rewrite append_cons in E. injection E as <- E. rewrite <- E.
    destruct (escape_wf k W) as (t' & Et' & R). assert (t' = t) by congruence. subst t'.
    rewrite append_assoc. unfold str1. cbn [append]. rewrite R. reflexivity.
  - rewrite Ek in E. destruct k as [|b k]; [injection E as <- _; discriminate Q|].
    injection E as <- _. cbn in L. apply andb_prop in L as [L _]. apply N.eqb_eq in Q. unfold letter in L. rewrite Q in L. discriminate L.
Qed.

Lemma single_not_inline : forall v l, yaml_ok v -> ylines 0 v = [l] -> inline_value (render l) = None.
Proof.
  intros v l Y E. destruct v as [ | | |s|s|[|[k x] r]|[|x r]]; try discriminate E.
  - rewrite ylines_obj in E. apply yaml_ok_obj in Y. apply Forall_inv in Y as [[W _] _]. cbn [fst] in W.
    cbn [mlines] in E. unfold mentry in E. destruct (inl x) as [t|].
    + injection E as <- _. unfold render. cbn [fst snd blanks append]. now apply entry_not_inline.
    + injection E as <- _. unfold render. cbn [fst snd blanks append].
      assert (H := entry_not_inline k "" W). now rewrite append_nil_r in H.
  - rewrite ylines_arr in E. cbn [slines] in E. unfold sentry in E. destruct (inl x) as [t|].
    + injection E as <- _. unfold render. cbn [fst snd blanks append].
      unfold inline_value. change (String.eqb ("- " +++ t) "{}") with false. change (String.eqb ("- " +++ t) "[]") with false.
      cbn [append]. change (byte "-" =? 34)%N with false. cbn iota.
      destruct (plain_value (String "-" (String " " t))) eqn:P; [|reflexivity]. apply plain_value_chars in P.
      cbn in P. discriminate P.
    + injection E as <- _. reflexivity.
Qed.

Lemma ybody_len0 : forall v, yaml_ok v -> inl v = None -> yfuel v <= 4 + 2 * String.length (ybody 0 v).
Proof.
  intros v Y E. destruct v as [ | | |s|s|[|m0 r0]|[|m0 r0]]; try discriminate E.
  - rewrite yfuel_obj. unfold ybody. cbn [inl yaml_nl append]. rewrite ylines_obj. apply yaml_ok_obj in Y.
    enough (H : ymf (m0 :: r0) <= 2 * String.length (join_lines (map render (mlines 0 (m0 :: r0))))) by lia.
    generalize (m0 :: r0) Y. clear. intros l. induction l as [|[k x] r IH]; intros Y; [cbn; lia|].
    apply Forall_cons_iff in Y as [[_ Yx] Y]. cbn [snd] in Yx. assert (L := ybody_len x 0 Yx).
    cbn [ymf mlines snd]. destruct r as [|y r'].
    + cbn [mlines ymf]. rewrite app_nil_r, join_mentry, !length_append. cbn [String.length]. lia.
    + rewrite map_app, join_lines_app, join_mentry, !length_append.
      2:{ intros E. apply map_eq_nil in E. now apply mentry_ne in E. }
      2:{ intros E. apply map_eq_nil in E. apply mlines_ne in E; [exact E|discriminate]. }
      specialize (IH Y). cbn [String.length nl str1] in *. lia.
  - rewrite yfuel_arr. unfold ybody. cbn [inl yaml_nl append]. rewrite ylines_arr. apply yaml_ok_arr in Y.
    enough (H : yaf (m0 :: r0) <= 2 * String.length (join_lines (map render (slines 0 (m0 :: r0))))) by lia.
    generalize (m0 :: r0) Y. clear. intros l. induction l as [|x r IH]; intros Y; [cbn; lia|].
    apply Forall_cons_iff in Y as [Yx Y]. assert (L := ybody_len x 0 Yx).
    cbn [yaf slines]. destruct r as [|y r'].
    + cbn [slines yaf]. rewrite app_nil_r, join_sentry, !length_append. cbn [String.length]. lia.
    + rewrite map_app, join_lines_app, join_sentry, !length_append.
      2:{ intros E. apply map_eq_nil in E. now apply sentry_ne in E. }
      2:{ intros E. apply map_eq_nil in E. apply slines_ne in E; [exact E|discriminate]. }
      specialize (IH Y). cbn [String.length nl str1] in *. lia.
Qed.

Lemma read_yaml_print : forall v, yaml_ok v -> exists s, serialize_yaml v = Some s /\ read_yaml s = Some v.
Proof.
  intros v Y. unfold serialize_yaml. rewrite yaml_print_lines. exists (ybody 0 v). split; [reflexivity|].
  assert (N := yaml_ok_numbers v Y). destruct (inl v) as [t|] eqn:E.
  - unfold ybody. rewrite E. cbn [yaml_sp append]. unfold read_yaml.
    rewrite split_one by (eapply inl_no_nl; eassumption). now rewrite (inline_ok v t Y E).
  - assert (Hl := ybody_len0 v Y E). unfold read_yaml.
    assert (Ne : ylines 0 v <> []).
    { destruct v as [ | | |s|s|[|a l]|[|a l]]; try discriminate E.
      - rewrite ylines_obj. apply mlines_ne. discriminate.
      - rewrite ylines_arr. apply slines_ne. discriminate. }
    assert (Sp : split_lines (ybody 0 v) = map render (ylines 0 v)).
    { unfold ybody. rewrite E. cbn [yaml_nl append]. apply split_join.
      - intros M. apply map_eq_nil in M. contradiction.
      - apply Forall_map. eapply Forall_impl; [|exact (ylines_no_nl v 0 N)]. intros [m c] H. cbn in H. unfold render.
        apply no_nl_app; [|exact H]. cbn [fst]. clear. induction m as [|m IH]; [reflexivity|exact IH]. }
    assert (Id : map indent_of (map render (ylines 0 v)) = ylines 0 v).
    { rewrite map_map. rewrite <- (map_id (ylines 0 v)) at 2. apply map_ext_in. intros l Hin.
      apply indent_render. assert (H := ylines_heads v 0). rewrite Forall_forall in H. now apply H. }
    assert (B : block (4 + 2 * String.length (ybody 0 v)) 0 (ylines 0 v) = Some (v, [])).
    { rewrite <- (app_nil_r (ylines 0 v)). apply all_block_ok; auto; try lia. exact I. }
    rewrite Sp, Id, B. destruct (ylines 0 v) as [|l [|l2 r]] eqn:Q; [congruence| |reflexivity].
    cbn [map]. rewrite (single_not_inline v l Y Q). reflexivity.
Qed.

(** *** C03 for YAML *)
Lemma join_bytes : forall P ls, sforall P nl = true -> Forall (fun l => sforall P l = true) ls -> sforall P (join_lines ls) = true.
Proof.
  intros P ls Hn F. induction F as [|l r Hl F IH]; [reflexivity|]. cbn [join_lines]. rewrite sforall_app, Hl.
  destruct r as [|y r']; [reflexivity|]. rewrite sforall_app, Hn, IH. reflexivity.
Qed.

Definition vis (a : ascii) : bool := (32 <=? byte a)%N.
Lemma ytext_vis : forall s, sforall vis (ytext s) = true.
Proof.
  intros s. unfold ytext, yaml_string. destruct (escape_total s) as (t & cs & Et & _ & F & Ec). rewrite Et.
  destruct (escape_cps_clean cs t F Ec) as (os & -> & Fo & Go).
  rewrite !sforall_app. unfold vis at 2. rewrite (clean_bytes os Fo Go). reflexivity.
Qed.
Lemma ykey_vis : forall k, sforall vis (ykey k) = true.
Proof.
  intros k. destruct (ykey_cases k) as [(t & E & Et)|[-> L]].
  - unfold ykey, yaml_key. destruct (is_alphanum_dash k) eqn:A.
    + rewrite alphanum_letters in A. eapply sforall_impl; [|exact A]. intros a. unfold letter, vis.
      intros H. destruct (N.leb_spec 32 (byte a)); [reflexivity|]. apply orb_prop in H as [H|H]; apply in_range_spec in H; lia.
    + rewrite yaml_string_total. apply ytext_vis.
  - eapply sforall_impl; [|exact L]. intros a. unfold letter, vis.
    intros H. destruct (N.leb_spec 32 (byte a)); [reflexivity|]. apply orb_prop in H as [H|H]; apply in_range_spec in H; lia.
Qed.
Lemma inl_vis : forall v t, numbers_ok v = true -> inl v = Some t -> sforall vis t = true.
Proof.
  intros v t H E. destruct v as [ | | |s|s|[|a l]|[|a l]]; try discriminate E; injection E as <-; try reflexivity.
  - apply ytext_vis.
  - cbn in H. apply json_number_chars in H as [H _]. apply num_char_visible in H.
    eapply sforall_impl; [|exact H]. intros a Ha. unfold vis. now rewrite Ha.
Qed.
Lemma blanks_vis : forall n, sforall vis (blanks n) = true.
Proof. induction n as [|n IH]; [reflexivity|exact IH]. Qed.

Lemma ylines_vis : forall v n, numbers_ok v = true -> Forall (fun l => sforall vis (render l) = true) (ylines n v).
Proof.
  induction v as [ | | |s|s|ms IH|vs IH] using value_ind'; intros n H; try constructor.
  - rewrite ylines_obj. rewrite numbers_ok_obj in H. induction ms as [|[k x] r IHr]; [constructor|].
    apply Forall_cons_iff in IH as [Ix IH]. cbn [forallb snd] in *. apply andb_prop in H as [Nx Nr].
    cbn [mlines]. apply Forall_app. split; [|now apply IHr]. unfold mentry.
    destruct (inl x) as [t|] eqn:E.
    + constructor; [|constructor]. unfold render. cbn [snd fst].
      rewrite !sforall_app, blanks_vis, ykey_vis, (inl_vis x t Nx E). reflexivity.
    + constructor; [|now apply Ix]. unfold render. cbn [snd fst]. rewrite !sforall_app, blanks_vis, ykey_vis. reflexivity.
  - rewrite ylines_arr. rewrite numbers_ok_arr in H. induction vs as [|x r IHr]; [constructor|].
    apply Forall_cons_iff in IH as [Ix IH]. cbn [forallb] in *. apply andb_prop in H as [Nx Nr].
    cbn [slines]. apply Forall_app. split; [|now apply IHr]. unfold sentry.
    destruct (inl x) as [t|] eqn:E.
    + constructor; [|constructor]. unfold render. cbn [snd fst].
      rewrite !sforall_app, blanks_vis, (inl_vis x t Nx E). reflexivity.
    + constructor; [|now apply Ix]. unfold render. cbn [snd fst]. rewrite !sforall_app, blanks_vis. reflexivity.
Qed.

Lemma yaml_bytes : forall v, numbers_ok v = true -> exists s, serialize_yaml v = Some s /\
  sforall (fun a => (32 <=? byte a)%N || (byte a =? 10)%N) s = true.
Proof.
  intros v H. unfold serialize_yaml. rewrite yaml_print_lines. exists (ybody 0 v). split; [reflexivity|].
  assert (W : forall t, sforall vis t = true -> sforall (fun a => (32 <=? byte a)%N || (byte a =? 10)%N) t = true).
  { intros t. apply sforall_impl. intros a Ha. unfold vis in Ha. now rewrite Ha. }
  unfold ybody. destruct (inl v) as [t|] eqn:E.
  - cbn [yaml_sp append]. apply W. eapply inl_vis; eassumption.
  - cbn [yaml_nl append]. apply join_bytes; [reflexivity|]. apply Forall_map.
    eapply Forall_impl; [|exact (ylines_vis v 0 H)]. intros l Hl. now apply W.
Qed.
