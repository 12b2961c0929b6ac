From Verif Require Import Base Utf8Spec Utf8Proofs SoValue SoValueProofs JsonIo JsonSpec.
Local Open Scope string_scope.

(** *** loop equations *)
Definition jitem (p : bool) (n : nat) (k : string) (x : value) : string :=
  (if p then "" else break_indent (S n)) +++ str1 dquote +++ escape_json_string k +++ str1 dquote +++ ":" +++
  (if p then "" else " ") +++ json_print p (S n) x.
Fixpoint jmem (p : bool) (n : nat) (l : list (string * value)) : string :=
  match l with
  | [] => ""
  | (k, x) :: r => jitem p n k x +++ match r with [] => "" | _ => "," +++ jmem p n r end
  end.
Definition jelem (p : bool) (n : nat) (x : value) : string :=
  (if p then "" else break_indent (S n)) +++ json_print p (S n) x.
Fixpoint jarr (p : bool) (n : nat) (l : list value) : string :=
  match l with
  | [] => ""
  | x :: r => jelem p n x +++ match r with [] => "" | _ => "," +++ jarr p n r end
  end.
Definition jclose {A} (p : bool) (n : nat) (l : list A) : string :=
  if p || (match l with [] => true | _ => false end) then "" else break_indent n.

Lemma json_print_obj : forall p n ms,
  json_print p n (VObject ms) = "{" +++ jmem p n ms +++ jclose p n ms +++ "}".
Proof.
  intros p n ms. cbn [json_print]. unfold jclose.
  match goal with |- _ +++ ?G _ _ +++ _ = _ => set (go := G) end.
  enough (E : forall l, go (Z.of_nat (List.length l) - 1)%Z l = jmem p n l) by now rewrite E.
  induction l as [|[k x] r IH]; [reflexivity|].
  cbn [jmem]. unfold jitem at 1. cbn [go]. fold go.
  rewrite !append_assoc. do 7 f_equal.
  destruct r as [|y r'].
  - cbn. reflexivity.
  - replace (Z.of_nat (List.length ((k, x) :: y :: r')) - 1)%Z with (Z.of_nat (List.length (y :: r')))
      by (cbn [List.length]; lia).
    destruct (Z.ltb_spec 0 (Z.of_nat (List.length (y :: r')))) as [L|L]; [|cbn [List.length] in L; lia].
    now rewrite IH.
Qed.

Lemma json_print_arr : forall p n vs,
  json_print p n (VArray vs) = "[" +++ jarr p n vs +++ jclose p n vs +++ "]".
Proof.
  intros p n vs. cbn [json_print]. unfold jclose.
  match goal with |- _ +++ ?G _ _ +++ _ = _ => set (go := G) end.
  enough (E : forall l, go (Z.of_nat (List.length l) - 1)%Z l = jarr p n l) by now rewrite E.
  induction l as [|x r IH]; [reflexivity|].
  cbn [jarr]. unfold jelem at 1. cbn [go]. fold go.
  rewrite !append_assoc. do 2 f_equal.
  destruct r as [|y r'].
  - cbn. reflexivity.
  - replace (Z.of_nat (List.length (x :: y :: r')) - 1)%Z with (Z.of_nat (List.length (y :: r')))
      by (cbn [List.length]; lia).
    destruct (Z.ltb_spec 0 (Z.of_nat (List.length (y :: r')))) as [L|L]; [|cbn [List.length] in L; lia].
    now rewrite IH.
Qed.

Lemma numbers_ok_obj : forall ms, numbers_ok (VObject ms) = forallb (fun kv => numbers_ok (snd kv)) ms.
Proof. induction ms as [|kv r IH]; [reflexivity|]. cbn in *. now rewrite IH. Qed.
Lemma numbers_ok_arr : forall vs, numbers_ok (VArray vs) = forallb numbers_ok vs.
Proof. induction vs as [|v r IH]; [reflexivity|]. cbn in *. now rewrite IH. Qed.

(** *** whitespace *)
Lemma skip_ws_all : forall w s, sforall is_ws w = true -> skip_ws (w +++ s) = skip_ws s.
Proof.
  induction w as [|a w IH]; intros s H; [reflexivity|]. cbn in *. apply andb_prop in H as [A B].
  rewrite A. now apply IH.
Qed.
Lemma ws_spaces2 : forall n, sforall is_ws (spaces2 n) = true.
Proof. induction n as [|n IH]; [reflexivity|]. exact IH. Qed.
Lemma ws_break : forall n, sforall is_ws (break_indent n) = true.
Proof. intros n. exact (ws_spaces2 n). Qed.
Lemma ws_brk : forall (p : bool) n, sforall is_ws (if p then "" else break_indent n) = true.
Proof. intros [|] n; [reflexivity|apply ws_break]. Qed.
Lemma ws_sp : forall (p : bool), sforall is_ws (if p then "" else " ") = true.
Proof. intros [|]; reflexivity. Qed.
Lemma ws_close : forall A p n (l : list A), sforall is_ws (jclose p n l) = true.
Proof. intros A p n l. unfold jclose. destruct (_ || _); [reflexivity|apply ws_break]. Qed.

(** *** strings *)
Lemma hexval_hexdigit : forall x, (x < 16)%N -> hexval (hexdigit x) = Some x.
Proof.
  intros x H. assert (In x (map N.of_nat (seq 0 16))).
  { apply in_map_iff. exists (N.to_nat x). split; [apply N2Nat.id|]. apply in_seq. lia. }
  cbn in H0. repeat (destruct H0 as [<-|H0]; [reflexivity|]). destruct H0.
Qed.

Lemma hex4_ctrl : forall n, (n < 32)%N ->
  hex4 (hexdigit (n / 4096 mod 16)) (hexdigit (n / 256 mod 16)) (hexdigit (n / 16 mod 16)) (hexdigit (n mod 16)) = Some n.
Proof.
  intros n H. unfold hex4.
  rewrite !hexval_hexdigit by (apply N.mod_lt; lia). f_equal.
  rewrite (N.div_small n 4096) by lia. rewrite (N.div_small n 256) by lia.
  rewrite !N.mod_small by (try apply N.div_lt_upper_bound; lia).
  assert (E := N.div_mod n 16 ltac:(lia)). lia.
Qed.

Lemma utf8_ascii : forall a, (byte a < 128)%N -> utf8 (byte a) = str1 a.
Proof.
  intros a H. unfold utf8, utf8_bytes. destruct (N.leb_spec (byte a) 0x7F); [|lia].
  cbn. now rewrite chr_byte.
Qed.

Lemma read_chars_byte : forall a s, read_chars (escape_json_byte a +++ s) =
  match read_chars s with Some (t, rest) => Some (String a t, rest) | None => None end.
Proof.
  intros a s. unfold escape_json_byte.
  assert (B : forall n, byte a = n -> a = chr n) by (intros n <-; symmetry; apply chr_byte).
  repeat match goal with |- context[N.eqb (byte a) ?k] =>
    destruct (N.eqb_spec (byte a) k) as [E|?]; [apply B in E; subst a; reflexivity|] end.
  destruct (N.ltb_spec 0x1f (byte a)) as [L|L].
  - cbn [str1 append read_chars].
    apply N.eqb_neq in n. rewrite n. apply N.eqb_neq in n0. rewrite n0.
    destruct (N.ltb_spec (byte a) 32); [lia|]. reflexivity.
  - unfold json_utf_char. cbn [append read_chars str1].
    change (byte "\" =? 34)%N with false. change (byte "\" =? 92)%N with true.
    change (byte "u" =? 117)%N with true. cbn iota.
    rewrite hex4_ctrl by lia.
    assert (R1 : in_range 0xD800 0xDBFF (byte a) = false).
    { destruct (in_range 0xD800 0xDBFF (byte a)) eqn:E; [|reflexivity]. apply in_range_spec in E. lia. }
    assert (R2 : in_range 0xDC00 0xDFFF (byte a) = false).
    { destruct (in_range 0xDC00 0xDFFF (byte a)) eqn:E; [|reflexivity]. apply in_range_spec in E. lia. }
    rewrite R1, R2, utf8_ascii by lia. reflexivity.
Qed.

Lemma read_chars_escape : forall s rest,
  read_chars (escape_json_string s +++ String dquote rest) = Some (s, rest).
Proof.
  induction s as [|a s IH]; intros rest; [reflexivity|].
  cbn [escape_json_string]. rewrite append_assoc, read_chars_byte, IH. reflexivity.
Qed.

(** *** numbers *)
Definition starts_num (s : string) : bool := match s with String a _ => num_char a | EmptyString => false end.

Lemma digit_num : forall a, is_digit a = true -> num_char a = true.
Proof. intros a H. unfold num_char. now rewrite H. Qed.

(** characters consumed by the number grammar are number characters *)
Lemma digits0_suffix : forall s, exists p, s = p +++ digits0 s /\ sforall num_char p = true.
Proof.
  induction s as [|a r (p & E & H)]; [now exists ""|]. cbn.
  destruct (is_digit a) eqn:D; [|now exists ""].
  exists (String a p). cbn. rewrite <- E, H, digit_num by exact D. split; reflexivity.
Qed.
Lemma digits1_suffix : forall s r, digits1 s = Some r -> exists p, s = p +++ r /\ sforall num_char p = true.
Proof.
  intros [|a s] r H; [discriminate|]. cbn in H. destruct (is_digit a) eqn:D; [|discriminate].
  injection H as <-. destruct (digits0_suffix s) as (p & E & Hp). exists (String a p). cbn.
  rewrite <- E, Hp, digit_num by exact D. split; reflexivity.
Qed.
Lemma frac_suffix : forall s r, frac_part s = Some r -> exists p, s = p +++ r /\ sforall num_char p = true.
Proof.
  intros [|a s] r H. { injection H as <-. now exists "". }
  cbn in H. destruct (Ascii.eqb_spec a ".") as [->|_].
  - destruct (digits1_suffix _ _ H) as (p & E & Hp). exists (String "." p). cbn. rewrite <- E. now split.
  - injection H as <-. now exists "".
Qed.
Lemma exp_suffix : forall s r, exp_part s = Some r -> exists p, s = p +++ r /\ sforall num_char p = true.
Proof.
  intros [|a s] r H. { injection H as <-. now exists "". }
  cbn in H. destruct (Ascii.eqb a "e" || Ascii.eqb a "E")%bool eqn:Ee.
  - assert (Ha : num_char a = true).
    { apply orb_prop in Ee as [Ee|Ee]; apply Ascii.eqb_eq in Ee; subst a; reflexivity. }
    destruct s as [|b s]; [discriminate|].
    destruct (Ascii.eqb b "+" || Ascii.eqb b "-")%bool eqn:Eb.
    + assert (Hb : num_char b = true).
      { apply orb_prop in Eb as [Eb|Eb]; apply Ascii.eqb_eq in Eb; subst b; reflexivity. }
      destruct (digits1_suffix _ _ H) as (p & E & Hp). exists (String a (String b p)). cbn. rewrite <- E, Ha, Hb. now split.
    + destruct (digits1_suffix _ _ H) as (p & E & Hp). exists (String a p). cbn. rewrite <- E, Ha. now split.
  - injection H as <-. now exists "".
Qed.
Lemma int_suffix : forall s r, int_part s = Some r -> exists p, s = p +++ r /\ sforall num_char p = true.
Proof.
  intros [|a s] r H; [discriminate|]. unfold int_part in H. destruct (Ascii.eqb_spec a "0") as [->|_].
  - injection H as <-. now exists "0".
  - now apply digits1_suffix.
Qed.

Lemma json_number_chars : forall s, json_number s = true -> sforall num_char s = true /\ s <> "".
Proof.
  intros s H. unfold json_number in H.
  set (s1 := match s with String a r => if Ascii.eqb a "-" then r else s | "" => s end) in H.
  assert (E0 : exists p, s = p +++ s1 /\ sforall num_char p = true).
  { subst s1. destruct s as [|a r]; [now exists ""|]. destruct (Ascii.eqb_spec a "-") as [->|_]; [now exists "-"|now exists ""]. }
  destruct E0 as (p0 & E0 & H0).
  destruct (int_part s1) as [s2|] eqn:E1; [|discriminate].
  destruct (frac_part s2) as [s3|] eqn:E2; [|discriminate].
  destruct (exp_part s3) as [[|]|] eqn:E3; try discriminate.
  assert (N1 : s1 <> "") by (intros ->; discriminate).
  apply int_suffix in E1 as (p1 & E1 & H1). apply frac_suffix in E2 as (p2 & E2 & H2).
  apply exp_suffix in E3 as (p3 & E3 & H3).
  split.
  - rewrite E0, E1, E2, E3, !sforall_app, H0, H1, H2, H3. reflexivity.
  - intros ->. destruct p0; [|discriminate]. cbn in E0. congruence.
Qed.

Lemma json_number_head : forall a r, json_number (String a r) = true -> is_digit a = true \/ a = "-"%char.
Proof.
  intros a r H. destruct (Ascii.eqb_spec a "-") as [->|N]; [now right|left].
  unfold json_number in H. apply Ascii.eqb_neq in N. rewrite N in H.
  unfold int_part in H. destruct (Ascii.eqb_spec a "0") as [->|N0]; [reflexivity|].
  cbn in H. destruct (is_digit a); [reflexivity|discriminate].
Qed.

Lemma span_num_app : forall s rest, sforall num_char s = true -> starts_num rest = false ->
  span_num (s +++ rest) = (s, rest).
Proof.
  induction s as [|a s IH]; intros rest H R.
  - destruct rest as [|b r]; [reflexivity|]. cbn in *. now rewrite R.
  - cbn in *. apply andb_prop in H as [A B]. rewrite A, IH; auto.
Qed.

(** head character of a number, as a byte *)
Lemma num_head_byte : forall a, is_digit a = true \/ a = "-"%char -> (byte a = 45 \/ 48 <= byte a <= 57)%N.
Proof.
  intros a [H| ->]; [|now left]. right. now apply in_range_spec in H.
Qed.

Lemma byte_neq_ascii : forall a b, byte a <> byte b -> Ascii.eqb b a = false.
Proof. intros a b H. apply Ascii.eqb_neq. congruence. Qed.

Lemma not_ws_num : forall a, (byte a = 45 \/ 48 <= byte a <= 57)%N -> is_ws a = false.
Proof.
  intros a H. unfold is_ws.
  repeat match goal with |- context[N.eqb ?x ?k] => destruct (N.eqb_spec x k); [lia|] end. reflexivity.
Qed.

Lemma read_number : forall f s rest, json_number s = true -> starts_num rest = false ->
  read_value (S f) (s +++ rest) = Some (VNumber s, rest).
Proof.
  intros f s rest H R. destruct (json_number_chars s H) as [Hc Hn].
  destruct s as [|a s]; [congruence|]. assert (Hh := num_head_byte _ (json_number_head _ _ H)).
  rewrite append_cons. cbn [read_value]. cbn [skip_ws]. rewrite (not_ws_num a Hh).
  assert (S1 : forall q u, byte q <> byte a -> strip_prefix (String q u) (String a (s +++ rest)) = None).
  { intros q u Hq. cbn [strip_prefix]. now rewrite byte_neq_ascii by congruence. }
  rewrite (S1 "n"%char) by (change (byte "n") with 110%N; lia).
  rewrite (S1 "t"%char) by (change (byte "t") with 116%N; lia).
  rewrite (S1 "f"%char) by (change (byte "f") with 102%N; lia).
  repeat match goal with |- context[N.eqb (byte a) ?k] => destruct (N.eqb_spec (byte a) k); [lia|] end.
  rewrite <- append_cons, span_num_app by assumption. now rewrite H.
Qed.

(** *** fuel and head characters *)
Fixpoint fsize (v : value) : nat :=
  match v with
  | VObject ms => S ((fix sum (l : list (string * value)) : nat :=
      match l with [] => 0 | kv :: r => S (fsize (snd kv)) + sum r end) ms)
  | VArray vs => S ((fix sum (l : list value) : nat :=
      match l with [] => 0 | x :: r => S (fsize x) + sum r end) vs)
  | _ => 1
  end.
Fixpoint msize (l : list (string * value)) : nat :=
  match l with [] => 0 | kv :: r => S (fsize (snd kv)) + msize r end.
Fixpoint asize (l : list value) : nat :=
  match l with [] => 0 | x :: r => S (fsize x) + asize r end.
Lemma fsize_obj : forall ms, fsize (VObject ms) = S (msize ms).
Proof. intros ms. cbn [fsize]. f_equal. Qed.
Lemma fsize_arr : forall vs, fsize (VArray vs) = S (asize vs).
Proof. intros ms. cbn [fsize]. f_equal. Qed.

Lemma read_value_ws : forall f w s, sforall is_ws w = true -> read_value f (w +++ s) = read_value f s.
Proof. intros [|f] w s H; [reflexivity|]. cbn [read_value]. now rewrite skip_ws_all. Qed.

Lemma starts_num_close : forall A p n (l : list A) c r, num_char c = false ->
  starts_num (jclose p n l +++ String c r) = false.
Proof.
  intros A p n l c r H. unfold jclose. destruct (_ || _); [exact H|reflexivity].
Qed.

Lemma read_members_ok : forall p n ms f rest,
  Forall (fun kv => forall p n f rest, numbers_ok (snd kv) = true -> fsize (snd kv) <= f -> starts_num rest = false ->
     read_value f (json_print p n (snd kv) +++ rest) = Some (snd kv, rest)) ms ->
  forallb (fun kv => numbers_ok (snd kv)) ms = true -> ms <> [] -> msize ms <= f ->
  forall w, sforall is_ws w = true ->
  read_members f (jmem p n ms +++ w +++ String "}" rest) = Some (ms, rest).
Proof.
  intros p n ms f rest IH. revert f.
  induction ms as [|[k x] r IHr]; intros f Hn Hne Hs w Hw; [congruence|]. clear Hne.
  apply Forall_cons_iff in IH as [Ix IH]. cbn [forallb snd] in Hn. apply andb_prop in Hn as [Nx Nr].
  cbn [msize snd] in Hs. destruct f as [|f]; [lia|].
  cbn [jmem read_members]. unfold jitem. rewrite !append_assoc.
  rewrite skip_ws_all by apply ws_brk. cbn [str1 append].
  cbn [skip_ws]. change (is_ws dquote) with false. cbn iota. change (byte dquote =? 34)%N with true. cbn iota.
  rewrite read_chars_escape. cbn [skip_ws]. change (is_ws ":") with false. cbn iota.
  change (byte ":" =? 58)%N with true. cbn iota.
  rewrite read_value_ws by apply ws_sp.
  destruct r as [|y r'].
  - rewrite append_nil_l. cbn [snd] in Ix.
    rewrite Ix; [| exact Nx | lia | ].
    2:{ destruct w as [|c w']; [reflexivity|]. cbn. cbn in Hw. apply andb_prop in Hw as [Hc _].
        unfold is_ws in Hc. destruct (num_char c) eqn:Q; [|reflexivity]. exfalso. clear -Hc Q.
        destruct c as [[|] [|] [|] [|] [|] [|] [|] [|]]; vm_compute in Hc, Q; discriminate. }
    rewrite skip_ws_all by exact Hw. cbn [skip_ws]. change (is_ws "}") with false. cbn iota. reflexivity.
  - cbn [snd] in Ix. change ("," +++ jmem p n (y :: r')) with (String "," (jmem p n (y :: r'))).
    rewrite append_cons. rewrite Ix; [|exact Nx|lia|reflexivity].
    cbn [skip_ws]. change (is_ws ",") with false. cbn iota. change (byte "," =? 44)%N with true. cbn iota.
    rewrite (IHr IH f Nr ltac:(congruence) ltac:(lia) w Hw). reflexivity.
Qed.

Lemma read_elems_ok : forall p n vs f rest,
  Forall (fun v => forall p n f rest, numbers_ok v = true -> fsize v <= f -> starts_num rest = false ->
     read_value f (json_print p n v +++ rest) = Some (v, rest)) vs ->
  forallb numbers_ok vs = true -> vs <> [] -> asize vs <= f ->
  forall w, sforall is_ws w = true ->
  read_elems f (jarr p n vs +++ w +++ String "]" rest) = Some (vs, rest).
Proof.
  intros p n vs f rest IH. revert f.
  induction vs as [|x r IHr]; intros f Hn Hne Hs w Hw; [congruence|]. clear Hne.
  apply Forall_cons_iff in IH as [Ix IH]. cbn [forallb] in Hn. apply andb_prop in Hn as [Nx Nr].
  cbn [asize] in Hs. destruct f as [|f]; [lia|].
  cbn [jarr read_elems]. unfold jelem. rewrite !append_assoc.
  rewrite read_value_ws by apply ws_brk.
  destruct r as [|y r'].
  - rewrite append_nil_l. rewrite Ix; [| exact Nx | lia | ].
    2:{ destruct w as [|c w']; [reflexivity|]. cbn. cbn in Hw. apply andb_prop in Hw as [Hc _].
        unfold is_ws in Hc. destruct (num_char c) eqn:Q; [|reflexivity]. exfalso. clear -Hc Q.
        destruct c as [[|] [|] [|] [|] [|] [|] [|] [|]]; vm_compute in Hc, Q; discriminate. }
    rewrite skip_ws_all by exact Hw. cbn [skip_ws]. change (is_ws "]") with false. cbn iota. reflexivity.
  - change ("," +++ jarr p n (y :: r')) with (String "," (jarr p n (y :: r'))).
    rewrite append_cons. rewrite Ix; [|exact Nx|lia|reflexivity].
    cbn [skip_ws]. change (is_ws ",") with false. cbn iota. change (byte "," =? 44)%N with true. cbn iota.
    rewrite (IHr IH f Nr ltac:(congruence) ltac:(lia) w Hw). reflexivity.
Qed.

(** first character of a printed element list, after whitespace *)
Definition not_close (v : value) : Prop := forall p n rest, numbers_ok v = true ->
  exists a r, json_print p n v +++ rest = String a r /\ is_ws a = false /\ byte a <> 93%N /\ byte a <> 125%N.
Lemma print_head : forall v, not_close v.
Proof.
  intros v p n rest H. destruct v as [ | | |s|s|ms|vs];
    [eexists _, _; repeat split; discriminate..|idtac|idtac|idtac].
  - cbn in H. destruct (json_number_chars s H) as [_ Hne]. destruct s as [|a s]; [congruence|].
    assert (Hh := num_head_byte _ (json_number_head _ _ H)). exists a, (s +++ rest). repeat split; try lia.
    now apply not_ws_num.
  - rewrite json_print_obj. eexists _, _; repeat split; discriminate.
  - rewrite json_print_arr. eexists _, _; repeat split; discriminate.
Qed.

Lemma read_print : forall v p n f rest, numbers_ok v = true -> fsize v <= f -> starts_num rest = false ->
  read_value f (json_print p n v +++ rest) = Some (v, rest).
Proof.
  induction v as [ | | |s|s|ms IH|vs IH] using value_ind'; intros p n f rest Hn Hf Hr;
    (destruct f as [|f]; [cbn in Hf; lia|]).
  - reflexivity.
  - reflexivity.
  - reflexivity.
  - cbn [json_print str1 append]. rewrite !append_assoc. cbn [append].
    cbn [read_value]. cbn [skip_ws]. change (is_ws dquote) with false. cbn iota.
    cbn [strip_prefix]. change (Ascii.eqb "n" dquote) with false. change (Ascii.eqb "t" dquote) with false.
    change (Ascii.eqb "f" dquote) with false. cbn iota. change (byte dquote =? 34)%N with true. cbn iota.
    unfold str1; cbn [append]. now rewrite read_chars_escape.
  - cbn [json_print]. now apply read_number.
  - rewrite numbers_ok_obj in Hn. rewrite fsize_obj in Hf.
    rewrite json_print_obj, !append_assoc. change ("}" +++ rest) with (String "}" rest).
    change ("{" +++ ?x) with (String "{" x). cbn [append].
    cbn [read_value]. cbn [skip_ws]. change (is_ws "{") with false. cbn iota.
    cbn [strip_prefix]. change (Ascii.eqb "n" "{") with false. change (Ascii.eqb "t" "{") with false.
    change (Ascii.eqb "f" "{") with false. cbn iota.
    change (byte "{" =? 34)%N with false. change (byte "{" =? 123)%N with true. cbn iota.
    destruct ms as [|[k x] r].
    + cbn [jmem]. unfold jclose. rewrite orb_true_r. cbn. reflexivity.
    + assert (E : exists a q, skip_ws (jmem p n ((k, x) :: r) +++ jclose p n ((k, x) :: r) +++ String "}" rest) = String a q /\ (byte a =? 125)%N = false).
      { cbn [jmem]. unfold jitem. rewrite !append_assoc, skip_ws_all by apply ws_brk.
        eexists _, _; split; reflexivity. }
      destruct E as (a & q & E & Ea). rewrite E, Ea.
      rewrite read_members_ok; [reflexivity|exact IH|exact Hn|congruence|lia|apply ws_close].
  - rewrite numbers_ok_arr in Hn. rewrite fsize_arr in Hf.
    rewrite json_print_arr, !append_assoc. change ("]" +++ rest) with (String "]" rest).
    cbn [append].
    cbn [read_value]. cbn [skip_ws]. change (is_ws "[") with false. cbn iota.
    cbn [strip_prefix]. change (Ascii.eqb "n" "[") with false. change (Ascii.eqb "t" "[") with false.
    change (Ascii.eqb "f" "[") with false. cbn iota.
    change (byte "[" =? 34)%N with false. change (byte "[" =? 123)%N with false. change (byte "[" =? 91)%N with true. cbn iota.
    destruct vs as [|x r].
    + cbn [jarr]. unfold jclose. rewrite orb_true_r. cbn. reflexivity.
    + assert (E : exists a q, skip_ws (jarr p n (x :: r) +++ jclose p n (x :: r) +++ String "]" rest) = String a q /\ (byte a =? 93)%N = false).
      { cbn [jarr]. unfold jelem. rewrite !append_assoc, skip_ws_all by apply ws_brk.
        cbn [forallb] in Hn. apply andb_prop in Hn as [Hx _].
        match goal with |- context[json_print p (S n) x +++ ?R] =>
          destruct (print_head x p (S n) R Hx) as (a & q & E & W & B & _); rewrite E end.
        exists a, q. cbn [skip_ws]. rewrite W. split; [reflexivity|]. now apply N.eqb_neq. }
      destruct E as (a & q & E & Ea). rewrite E, Ea.
      rewrite read_elems_ok; [reflexivity|exact IH|exact Hn|congruence|lia|apply ws_close].
Qed.

(** the printed text is long enough for its own fuel *)
Lemma fsize_le : forall v p n, numbers_ok v = true -> fsize v <= String.length (json_print p n v).
Proof.
  induction v as [ | | |s|s|ms IH|vs IH] using value_ind'; intros p n Hn.
  - cbn; lia. - cbn; lia. - cbn; lia. - cbn; lia.
  - cbn in *. destruct (json_number_chars s Hn) as [_ Hne]. apply length_pos in Hne. lia.
  - rewrite numbers_ok_obj in Hn. rewrite fsize_obj, json_print_obj.
    enough (H : ms <> [] -> msize ms <= S (String.length (jmem p n ms))).
    { rewrite length_append, !length_append. cbn [String.length]. destruct ms as [|a r]; [cbn [msize]; lia|].
      specialize (H ltac:(congruence)). lia. }
    clear -IH Hn. induction ms as [|[k x] r IHr]; [congruence|]. intros _.
    apply Forall_cons_iff in IH as [Ix IH]. cbn [forallb snd] in Hn. apply andb_prop in Hn as [Nx Nr].
    cbn [msize jmem snd]. unfold jitem. rewrite !length_append. specialize (Ix p (S n) Nx). cbn [snd] in Ix.
    destruct r as [|y r']; [cbn [msize String.length str1]; lia|].
    specialize (IHr IH Nr ltac:(congruence)). rewrite length_append. cbn [String.length str1] in *. lia.
  - rewrite numbers_ok_arr in Hn. rewrite fsize_arr, json_print_arr.
    enough (H : vs <> [] -> asize vs <= S (String.length (jarr p n vs))).
    { rewrite length_append, !length_append. cbn [String.length]. destruct vs as [|a r]; [cbn [asize]; lia|].
      specialize (H ltac:(congruence)). lia. }
    clear -IH Hn. induction vs as [|x r IHr]; [congruence|]. intros _.
    apply Forall_cons_iff in IH as [Ix IH]. cbn [forallb] in Hn. apply andb_prop in Hn as [Nx Nr].
    cbn [asize jarr]. unfold jelem. rewrite !length_append. specialize (Ix p (S n) Nx).
    destruct r as [|y r']; [cbn [asize String.length]; lia|].
    specialize (IHr IH Nr ltac:(congruence)). rewrite length_append. cbn [String.length] in *. lia.
Qed.

Lemma read_json_print : forall v p n, numbers_ok v = true -> read_json (json_print p n v) = Some v.
Proof.
  intros v p n H. unfold read_json.
  assert (F := fsize_le v p n H).
  rewrite <- (append_nil_r (json_print p n v)) at 2.
  rewrite read_print; [reflexivity|exact H|lia|reflexivity].
Qed.

(** *** grammar membership *)
Lemma chars_escape : forall s, Chars s (escape_json_string s).
Proof.
  induction s as [|a s IH]; [constructor|]. cbn [escape_json_string].
  unfold escape_json_byte.
  assert (B : forall n, byte a = n -> a = chr n) by (intros n <-; symmetry; apply chr_byte).
  repeat match goal with |- context[N.eqb (byte a) ?k] =>
    destruct (N.eqb_spec (byte a) k) as [E|?]; [apply B in E; subst a; apply Ch_short; [reflexivity|exact IH]|] end.
  destruct (N.ltb_spec 0x1f (byte a)) as [L|L].
  - apply Ch_plain; [lia|assumption|assumption|exact IH].
  - unfold json_utf_char. cbn [append str1].
    change (String a s) with (str1 a +++ s). rewrite <- utf8_ascii by lia.
    apply Ch_u; [apply hex4_ctrl; lia| |exact IH].
    apply scalar_spec. lia.
Qed.

Lemma Ws_intro : forall s, sforall is_ws s = true -> Ws s.
Proof. auto. Qed.

Lemma quoted_eq : forall s, str1 dquote +++ s +++ str1 dquote = quoted s.
Proof. reflexivity. Qed.

Lemma json_grammar : forall v p n, numbers_ok v = true -> Json v (json_print p n v).
Proof.
  induction v as [ | | |s|s|ms IH|vs IH] using value_ind'; intros p n Hn.
  - constructor. - constructor. - constructor.
  - cbn [json_print]. rewrite quoted_eq. constructor. apply chars_escape.
  - now constructor.
  - rewrite numbers_ok_obj in Hn. rewrite json_print_obj.
    destruct ms as [|kv0 r0].
    { cbn [jmem]. unfold jclose. rewrite orb_true_r. apply J_object0. reflexivity. }
    set (l := kv0 :: r0) in *. rewrite <- append_assoc. rewrite append_assoc.
    rewrite <- (append_assoc (jmem p n l)). apply J_object; [discriminate|].
    assert (Hw := ws_close _ p n l). set (w := jclose p n l) in *. clearbody w.
    assert (Hne : l <> []) by discriminate. clearbody l. clear kv0 r0.
    induction l as [|[k x] r IHr]; [congruence|]. clear Hne.
    apply Forall_cons_iff in IH as [Ix IH]. cbn [forallb snd] in Hn. apply andb_prop in Hn as [Nx Nr].
    cbn [jmem]. unfold jitem.
    destruct r as [|y r'].
    + rewrite append_nil_r. rewrite !append_assoc.
      assert (Q : forall z, str1 dquote +++ escape_json_string k +++ str1 dquote +++ z
                 = quoted (escape_json_string k) +++ "" +++ z).
      { intros z. unfold quoted. rewrite !append_assoc. reflexivity. }
      rewrite Q. apply M_one; [apply chars_escape|now apply Ix|apply Ws_intro, ws_brk|reflexivity|apply Ws_intro, ws_sp|exact Hw].
    + rewrite !append_assoc.
      assert (Q : forall z, str1 dquote +++ escape_json_string k +++ str1 dquote +++ z
                 = quoted (escape_json_string k) +++ "" +++ z).
      { intros z. unfold quoted. rewrite !append_assoc. reflexivity. }
      rewrite Q.
      change ("," +++ jmem p n (y :: r') +++ w) with ("" +++ "," +++ jmem p n (y :: r') +++ w).
      apply M_cons; [apply chars_escape|now apply Ix|apply Ws_intro, ws_brk|reflexivity|apply Ws_intro, ws_sp|reflexivity|discriminate|].
      apply IHr; auto. discriminate.
  - rewrite numbers_ok_arr in Hn. rewrite json_print_arr.
    destruct vs as [|v0 r0].
    { cbn [jarr]. unfold jclose. rewrite orb_true_r. apply J_array0. reflexivity. }
    set (l := v0 :: r0) in *.
    rewrite <- (append_assoc (jarr p n l)). apply J_array; [discriminate|].
    assert (Hw := ws_close _ p n l). set (w := jclose p n l) in *. clearbody w.
    assert (Hne : l <> []) by discriminate. clearbody l. clear v0 r0.
    induction l as [|x r IHr]; [congruence|]. clear Hne.
    apply Forall_cons_iff in IH as [Ix IH]. cbn [forallb] in Hn. apply andb_prop in Hn as [Nx Nr].
    cbn [jarr]. unfold jelem.
    destruct r as [|y r'].
    + rewrite append_nil_r. rewrite !append_assoc.
      apply E_one; [now apply Ix|apply Ws_intro, ws_brk|exact Hw].
    + rewrite !append_assoc.
      change ("," +++ jarr p n (y :: r') +++ w) with ("" +++ "," +++ jarr p n (y :: r') +++ w).
      apply E_cons; [now apply Ix|apply Ws_intro, ws_brk|reflexivity|discriminate|].
      apply IHr; auto. discriminate.
Qed.

(** *** minify *)
Lemma minify_ws : forall w s, sforall is_ws w = true -> minify_from false false (w +++ s) = minify_from false false s.
Proof.
  induction w as [|a w IH]; intros s H; [reflexivity|]. cbn in H. apply andb_prop in H as [A B].
  cbn [append minify_from]. rewrite A. now apply IH.
Qed.

Lemma minify_escape : forall k s,
  minify_from true false (escape_json_string k +++ s) = escape_json_string k +++ minify_from true false s.
Proof.
  induction k as [|a k IH]; intros s; [reflexivity|]. cbn [escape_json_string].
  rewrite !append_assoc. rewrite <- IH. generalize (escape_json_string k +++ s). clear.
  intros s. unfold escape_json_byte.
  repeat match goal with |- context[N.eqb (byte a) ?k] =>
    destruct (N.eqb_spec (byte a) k) as [E|?]; [reflexivity|] end.
  destruct (N.ltb_spec 0x1f (byte a)) as [L|L].
  - cbn [str1 append minify_from]. apply N.eqb_neq in n. rewrite n. apply N.eqb_neq in n0. rewrite n0. reflexivity.
  - unfold json_utf_char. cbn [append str1].
    assert (D : forall x, (x < 16)%N -> (byte (hexdigit x) =? 92)%N = false /\ (byte (hexdigit x) =? 34)%N = false).
    { intros x Hx. unfold hexdigit. destruct (N.ltb_spec x 10); rewrite byte_chr by lia; split; apply N.eqb_neq; lia. }
    assert (M : forall x, (x mod 16 < 16)%N) by (intros x; apply N.mod_lt; lia).
    set (h1 := hexdigit (byte a / 4096 mod 16)). set (h2 := hexdigit (byte a / 256 mod 16)).
    set (h3 := hexdigit (byte a / 16 mod 16)). set (h4 := hexdigit (byte a mod 16)).
    destruct (D _ (M (byte a / 4096)%N)) as [A1 A2]. destruct (D _ (M (byte a / 256)%N)) as [B1 B2].
    destruct (D _ (M (byte a / 16)%N)) as [C1 C2]. destruct (D _ (M (byte a)%N)) as [D1 D2].
    fold h1 in A1, A2. fold h2 in B1, B2. fold h3 in C1, C2. fold h4 in D1, D2.
    clearbody h1 h2 h3 h4.
    cbn [minify_from]. change (byte "\" =? 92)%N with true. cbn iota.
    rewrite A1, A2, B1, B2, C1, C2, D1, D2. reflexivity.
Qed.

Lemma minify_string : forall k s,
  minify_from false false (str1 dquote +++ escape_json_string k +++ str1 dquote +++ s) =
  str1 dquote +++ escape_json_string k +++ str1 dquote +++ minify_from false false s.
Proof.
  intros k s. change (str1 dquote +++ ?x) with (String dquote x). cbn [append minify_from].
  change (is_ws dquote) with false. cbn iota. change (byte dquote =? 34)%N with true.
  unfold str1. cbn [append]. rewrite minify_escape. reflexivity.
Qed.

Lemma num_char_plain : forall a, num_char a = true -> is_ws a = false /\ (byte a =? 34)%N = false.
Proof.
  intros a H. destruct a as [[|] [|] [|] [|] [|] [|] [|] [|]]; vm_compute in H; try discriminate H; split; reflexivity.
Qed.

Lemma minify_number : forall x s, sforall num_char x = true ->
  minify_from false false (x +++ s) = x +++ minify_from false false s.
Proof.
  induction x as [|a x IH]; intros s H; [reflexivity|]. cbn in H. apply andb_prop in H as [A B].
  apply num_char_plain in A as [A1 A2]. cbn [append minify_from]. rewrite A1, A2. now rewrite IH.
Qed.

Lemma minify_print : forall v n m s, numbers_ok v = true ->
  minify_from false false (json_print false n v +++ s) = json_print true m v +++ minify_from false false s.
Proof.
  induction v as [ | | |s|s|ms IH|vs IH] using value_ind'; intros n m z Hn.
  - reflexivity. - reflexivity. - reflexivity.
  - cbn [json_print]. rewrite !append_assoc. now rewrite minify_string.
  - cbn in *. apply minify_number. now apply json_number_chars.
  - rewrite numbers_ok_obj in Hn. rewrite !json_print_obj, !append_assoc.
    change ("{" +++ ?x) with (String "{" x). cbn [append].
    cbn [minify_from]. change (is_ws "{") with false. cbn iota. f_equal. change (byte "{" =? 34)%N with false.
    assert (E : forall t, minify_from false false (jmem false n ms +++ t) = jmem true m ms +++ minify_from false false t).
    { clear z. induction ms as [|[k x] r IHr]; intros t; [reflexivity|].
      apply Forall_cons_iff in IH as [Ix IH]. cbn [forallb snd] in Hn. apply andb_prop in Hn as [Nx Nr].
      cbn [jmem]. unfold jitem. rewrite !append_assoc, minify_ws by apply ws_break.
      rewrite minify_string. rewrite append_nil_l. do 3 f_equal.
      change (":" +++ ?x) with (String ":" x).
      cbn [append minify_from]. change (is_ws ":") with false. change (is_ws " ") with true. cbn iota.
      f_equal. change (byte ":" =? 34)%N with false. rewrite (Ix (S n) (S m) _ Nx). f_equal.
      destruct r as [|y r']; [reflexivity|].
      change ("," +++ ?x) with (String "," x). rewrite !append_cons, <- (IHr IH Nr t). reflexivity. }
    rewrite E. f_equal. rewrite minify_ws by apply ws_close. reflexivity.
  - rewrite numbers_ok_arr in Hn. rewrite !json_print_arr, !append_assoc.
    change ("[" +++ ?x) with (String "[" x). cbn [append].
    cbn [minify_from]. change (is_ws "[") with false. cbn iota. f_equal. change (byte "[" =? 34)%N with false.
    assert (E : forall t, minify_from false false (jarr false n vs +++ t) = jarr true m vs +++ minify_from false false t).
    { clear z. induction vs as [|x r IHr]; intros t; [reflexivity|].
      apply Forall_cons_iff in IH as [Ix IH]. cbn [forallb] in Hn. apply andb_prop in Hn as [Nx Nr].
      cbn [jarr]. unfold jelem. rewrite !append_assoc, minify_ws by apply ws_break.
      rewrite append_nil_l. rewrite (Ix (S n) (S m) _ Nx). f_equal.
      destruct r as [|y r']; [reflexivity|].
      change ("," +++ ?x) with (String "," x). rewrite !append_cons, <- (IHr IH Nr t). reflexivity. }
    rewrite E. f_equal. rewrite minify_ws by apply ws_close. reflexivity.
Qed.

(** *** control bytes *)
Lemma escape_no_ctrl : forall s, sforall (fun a => 32 <=? byte a)%N (escape_json_string s) = true.
Proof.
  induction s as [|a s IH]; [reflexivity|]. cbn [escape_json_string]. rewrite sforall_app, IH, andb_true_r.
  unfold escape_json_byte.
  repeat match goal with |- context[N.eqb (byte a) ?k] => destruct (N.eqb (byte a) k); [reflexivity|] end.
  destruct (N.ltb_spec 0x1f (byte a)) as [L|L].
  - cbn. destruct (N.leb_spec 32 (byte a)); [reflexivity|lia].
  - unfold json_utf_char. cbn [sforall str1].
    assert (D : forall x, (32 <=? byte (hexdigit (x mod 16)))%N = true).
    { intros x. assert (HM : (x mod 16 < 16)%N) by (apply N.mod_lt; lia). revert HM. generalize (x mod 16)%N. clear. intros x HM.
      unfold hexdigit. destruct (N.ltb_spec x 10); rewrite byte_chr by lia; apply N.leb_le; lia. }
    rewrite !D. reflexivity.
Qed.

Lemma num_char_visible : forall s, sforall num_char s = true -> sforall (fun a => 32 <=? byte a)%N s = true.
Proof.
  intros s. apply sforall_impl. intros a H.
  destruct a as [[|] [|] [|] [|] [|] [|] [|] [|]]; vm_compute in H; try discriminate H; reflexivity.
Qed.

Definition okb (nlok : bool) (a : ascii) : bool := ((32 <=? byte a)%N || (nlok && (byte a =? 10)%N))%bool.
Lemma okb_vis : forall b s, sforall (fun a => 32 <=? byte a)%N s = true -> sforall (okb b) s = true.
Proof. intros b s. apply sforall_impl. intros a H. unfold okb. now rewrite H. Qed.
Lemma okb_spaces : forall b n, sforall (okb b) (spaces2 n) = true.
Proof. intros b. induction n as [|n IH]; [reflexivity|]. exact IH. Qed.

Lemma print_bytes : forall v p n, numbers_ok v = true -> sforall (okb (negb p)) (json_print p n v) = true.
Proof.
  induction v as [ | | |s|s|ms IH|vs IH] using value_ind'; intros p n Hn.
  - reflexivity. - reflexivity. - reflexivity.
  - cbn [json_print]. rewrite !sforall_app, (okb_vis _ _ (escape_no_ctrl s)). reflexivity.
  - cbn [json_print]. apply okb_vis, num_char_visible. now apply json_number_chars.
  - rewrite numbers_ok_obj in Hn. rewrite json_print_obj, !sforall_app.
    assert (C : sforall (okb (negb p)) (jclose p n ms) = true).
    { unfold jclose. destruct p; [reflexivity|]. destruct ms; [reflexivity|]. cbn. apply okb_spaces. }
    rewrite C. change (sforall (okb (negb p)) "{") with true. change (sforall (okb (negb p)) "}") with true.
    rewrite !andb_true_r. cbn [andb]. clear C.
    induction ms as [|[k x] r IHr]; [reflexivity|].
    apply Forall_cons_iff in IH as [Ix IH]. cbn [forallb snd] in Hn. apply andb_prop in Hn as [Nx Nr].
    cbn [jmem]. unfold jitem. rewrite !sforall_app, (okb_vis _ _ (escape_no_ctrl k)). specialize (Ix p (S n) Nx). cbn [snd] in Ix. rewrite Ix.
    replace (sforall (okb (negb p)) (if p then "" else break_indent (S n))) with true
      by (destruct p; [reflexivity|]; cbn; symmetry; apply okb_spaces).
    replace (sforall (okb (negb p)) (if p then "" else " ")) with true by (destruct p; reflexivity).
    cbn [sforall str1 andb]. rewrite andb_true_r.
    destruct r as [|y r']; [reflexivity|]. rewrite sforall_app. cbn [sforall].
    rewrite IHr; auto.
  - rewrite numbers_ok_arr in Hn. rewrite json_print_arr, !sforall_app.
    assert (C : sforall (okb (negb p)) (jclose p n vs) = true).
    { unfold jclose. destruct p; [reflexivity|]. destruct vs; [reflexivity|]. cbn. apply okb_spaces. }
    rewrite C. change (sforall (okb (negb p)) "[") with true. change (sforall (okb (negb p)) "]") with true.
    rewrite !andb_true_r. cbn [andb]. clear C.
    induction vs as [|x r IHr]; [reflexivity|].
    apply Forall_cons_iff in IH as [Ix IH]. cbn [forallb] in Hn. apply andb_prop in Hn as [Nx Nr].
    cbn [jarr]. unfold jelem. rewrite !sforall_app, (Ix p (S n) Nx).
    replace (sforall (okb (negb p)) (if p then "" else break_indent (S n))) with true
      by (destruct p; [reflexivity|]; cbn; symmetry; apply okb_spaces).
    cbn [andb].
    destruct r as [|y r']; [reflexivity|]. rewrite sforall_app. cbn [sforall].
    rewrite IHr; auto.
Qed.

(** *** the text is UTF-8 when the strings are *)
Lemma wf_ascii : forall s, sforall (fun a => byte a <? 128)%N s = true -> wf_utf8 s.
Proof.
  induction s as [|a s IH]; intros H. { exists []. split; [constructor|reflexivity]. }
  cbn in H. apply andb_prop in H as [A B]. apply N.ltb_lt in A.
  change (String a s) with (str1 a +++ s). rewrite <- utf8_ascii by exact A.
  destruct (IH B) as (cs & F & ->). exists (byte a :: cs). split; [|reflexivity].
  constructor; [apply scalar_spec; lia|exact F].
Qed.

Lemma escape_app : forall a b, escape_json_string (a +++ b) = escape_json_string a +++ escape_json_string b.
Proof. induction a as [|x a IH]; intros b; [reflexivity|]. cbn. now rewrite IH, append_assoc. Qed.

Lemma escape_high : forall l, Forall (fun n => 128 <= n < 256)%N l -> escape_json_string (of_bytes l) = of_bytes l.
Proof.
  induction 1 as [|n l H F IH]; [reflexivity|]. cbn [of_bytes escape_json_string]. rewrite IH.
  unfold escape_json_byte. rewrite byte_chr by lia.
  repeat match goal with |- context[N.eqb n ?k] => destruct (N.eqb_spec n k); [lia|] end.
  destruct (N.ltb_spec 0x1f n); [reflexivity|lia].
Qed.

Lemma utf8_bytes_high : forall c, (0x80 <= c < 0x110000)%N -> Forall (fun n => 128 <= n < 256)%N (utf8_bytes c).
Proof.
  intros c H. unfold utf8_bytes.
  assert (H1 := ml c 64 ltac:(lia)). assert (H2 := ml (c/64) 64 ltac:(lia)). assert (H3 := ml (c/4096) 64 ltac:(lia)).
  assert (P1 := N.le_0_l (c/64)). assert (P2 := N.le_0_l (c/4096)). assert (P3 := N.le_0_l (c/262144)).
  assert (P4 := N.le_0_l (c mod 64)). assert (P5 := N.le_0_l ((c/64) mod 64)). assert (P6 := N.le_0_l ((c/4096) mod 64)).
  destruct (N.leb_spec c 0x7F); [lia|].
  destruct (N.leb_spec c 0x7FF).
  { assert (c / 64 < 32)%N by (apply N.div_lt_upper_bound; lia). repeat (apply Forall_cons; [lia|]); apply Forall_nil. }
  destruct (N.leb_spec c 0xFFFF).
  { assert (c / 4096 < 16)%N by (apply N.div_lt_upper_bound; lia). repeat (apply Forall_cons; [lia|]); apply Forall_nil. }
  assert (c / 262144 < 8)%N by (apply N.div_lt_upper_bound; lia). repeat (apply Forall_cons; [lia|]); apply Forall_nil.
Qed.

Lemma escape_byte_ascii : forall a, (byte a < 128)%N -> sforall (fun a => byte a <? 128)%N (escape_json_byte a) = true.
Proof.
  intros a H. unfold escape_json_byte.
  repeat match goal with |- context[N.eqb (byte a) ?k] => destruct (N.eqb (byte a) k); [reflexivity|] end.
  destruct (N.ltb 0x1f (byte a)).
  - cbn. apply N.ltb_lt in H. now rewrite H.
  - unfold json_utf_char. cbn [sforall str1].
    assert (D : forall x, (byte (hexdigit (x mod 16)) <? 128)%N = true).
    { intros x. assert (HM : (x mod 16 < 16)%N) by (apply N.mod_lt; lia). revert HM. generalize (x mod 16)%N. clear. intros x HM.
      unfold hexdigit. destruct (N.ltb_spec x 10); rewrite byte_chr by lia; apply N.ltb_lt; lia. }
    rewrite !D. reflexivity.
Qed.

Lemma wf_escape : forall s, wf_utf8 s -> wf_utf8 (escape_json_string s).
Proof.
  intros s (cs & F & ->). induction F as [|c cs Hc F IH]; [exists []; split; [constructor|reflexivity]|].
  change (utf8s (c :: cs)) with (utf8 c +++ utf8s cs). rewrite escape_app. apply wf_utf8_app; [|exact IH].
  apply scalar_spec in Hc. destruct (N.ltb_spec c 0x80) as [L|L].
  - unfold utf8, utf8_bytes. destruct (N.leb_spec c 0x7F); [|lia]. cbn [of_bytes escape_json_string].
    rewrite append_nil_r. apply wf_ascii, escape_byte_ascii. rewrite byte_chr; lia.
  - unfold utf8. rewrite escape_high by (apply utf8_bytes_high; lia). exists [c]. split.
    + constructor; [apply scalar_spec; lia|constructor].
    + unfold utf8s. cbn. now rewrite append_nil_r.
Qed.

Lemma wf_ws : forall w, sforall is_ws w = true -> wf_utf8 w.
Proof.
  intros w H. apply wf_ascii. revert H. apply sforall_impl. intros a.
  destruct a as [[|] [|] [|] [|] [|] [|] [|] [|]]; vm_compute; auto; discriminate.
Qed.
Lemma wf_num : forall w, sforall num_char w = true -> wf_utf8 w.
Proof.
  intros w H. apply wf_ascii. revert H. apply sforall_impl. intros a.
  destruct a as [[|] [|] [|] [|] [|] [|] [|] [|]]; vm_compute; auto; discriminate.
Qed.

Lemma strings_ok_obj : forall P ms, strings_ok P (VObject ms) <-> Forall (fun kv => P (fst kv) /\ strings_ok P (snd kv)) ms.
Proof.
  intros P ms. cbn [strings_ok]. induction ms as [|kv r IH]; [split; constructor|].
  rewrite IH, Forall_cons_iff. tauto.
Qed.
Lemma strings_ok_arr : forall P vs, strings_ok P (VArray vs) <-> Forall (strings_ok P) vs.
Proof.
  intros P vs. cbn [strings_ok]. induction vs as [|kv r IH]; [split; constructor|].
  rewrite IH, Forall_cons_iff. tauto.
Qed.

Lemma wf_print : forall v p n, numbers_ok v = true -> strings_ok wf_utf8 v -> wf_utf8 (json_print p n v).
Proof.
  assert (Q : forall s, wf_utf8 s -> wf_utf8 (str1 dquote +++ escape_json_string s +++ str1 dquote)).
  { intros s H. repeat apply wf_utf8_app; auto using wf_escape; apply wf_ascii; reflexivity. }
  induction v as [ | | |s|s|ms IH|vs IH] using value_ind'; intros p n Hn Hs; try (apply wf_ascii; reflexivity).
  - cbn [json_print]. now apply Q.
  - cbn [json_print]. apply wf_num. now apply json_number_chars.
  - rewrite numbers_ok_obj in Hn. apply strings_ok_obj in Hs. rewrite json_print_obj.
    apply wf_utf8_app; [apply wf_ascii; reflexivity|]. apply wf_utf8_app.
    2:{ apply wf_utf8_app; [apply wf_ws, ws_close|apply wf_ascii; reflexivity]. }
    induction ms as [|[k x] r IHr]; [exists []; split; [constructor|reflexivity]|].
    apply Forall_cons_iff in IH as [Ix IH]. apply Forall_cons_iff in Hs as [[Hk Hx] Hs].
    cbn [forallb snd fst] in *. apply andb_prop in Hn as [Nx Nr].
    cbn [jmem]. unfold jitem. apply wf_utf8_app.
    + apply wf_utf8_app; [apply wf_ws, ws_brk|].
      rewrite <- !append_assoc. rewrite (append_assoc (str1 dquote)).
      apply wf_utf8_app; [|now apply Ix]. apply wf_utf8_app; [|apply wf_ws, ws_sp].
      apply wf_utf8_app; [now apply Q|apply wf_ascii; reflexivity].
    + destruct r as [|y r']; [exists []; split; [constructor|reflexivity]|].
      apply wf_utf8_app; [apply wf_ascii; reflexivity|]. now apply IHr.
  - rewrite numbers_ok_arr in Hn. apply strings_ok_arr in Hs. rewrite json_print_arr.
    apply wf_utf8_app; [apply wf_ascii; reflexivity|]. apply wf_utf8_app.
    2:{ apply wf_utf8_app; [apply wf_ws, ws_close|apply wf_ascii; reflexivity]. }
    induction vs as [|x r IHr]; [exists []; split; [constructor|reflexivity]|].
    apply Forall_cons_iff in IH as [Ix IH]. apply Forall_cons_iff in Hs as [Hx Hs].
    cbn [forallb] in *. apply andb_prop in Hn as [Nx Nr].
    cbn [jarr]. unfold jelem. apply wf_utf8_app.
    + apply wf_utf8_app; [apply wf_ws, ws_brk|now apply Ix].
    + destruct r as [|y r']; [exists []; split; [constructor|reflexivity]|].
      apply wf_utf8_app; [apply wf_ascii; reflexivity|]. now apply IHr.
Qed.
