From Verif Require Import Base Peg Utf8Spec MediaType MediaSpec MediaProofs UriTemplate UriSpec.
Local Open Scope string_scope.

(** ** UTF-8 *)
Ltac bytes := repeat match goal with
  | H : (_ && _)%bool = true |- _ => apply andb_true_iff in H as [? ?]
  | H : c_range _ _ _ = true |- _ => apply c_range_spec in H
  | H : cont _ = true |- _ => apply c_range_spec in H
  | H : (_ <=? _)%N = true |- _ => apply N.leb_le in H
  | H : (_ <? _)%N = true |- _ => apply N.ltb_lt in H
  | H : (_ <=? _)%N = false |- _ => apply N.leb_gt in H
  | H : (_ <? _)%N = false |- _ => apply N.ltb_ge in H
  | H : negb _ = true |- _ => apply negb_true_iff in H
  | H : (_ && _)%bool = false |- _ => apply andb_false_iff in H as [?|?]
  end.
Lemma chr_of : forall a n, byte a = n -> a = chr n.
Proof. intros a n <-. symmetry. apply chr_byte. Qed.
Lemma scalar_iff : forall c, scalar c <-> (c < 0xD800 \/ 0xDFFF < c <= 0x10FFFF)%N.
Proof.
  intros c. unfold scalar, scalarb. rewrite orb_true_iff, andb_true_iff, N.ltb_lt, N.ltb_lt, N.leb_le. reflexivity.
Qed.
Lemma peek_sound : forall i c r, peek_utf8 i = Some (c, r) -> scalar c /\ i = utf8 c +++ r.
Proof.
  intros [|a i] c r H; [discriminate|]. unfold peek_utf8 in H.
  destruct (byte a <? 128)%N eqn:E1.
  { injection H as <- <-. bytes. split; [apply scalar_iff; lia|]. unfold utf8, utf8_bytes.
    destruct (byte a <=? 127)%N eqn:E; bytes; [|lia]. cbn. now rewrite chr_byte. }
  destruct (c_range 192 223 a) eqn:E2.
  { destruct i as [|a1 i]; [discriminate|]. cbv zeta in H. destruct (_ && _)%bool eqn:K in H; [|discriminate]. injection H as <- <-.
    bytes. set (c := ((byte a - 192) * 64 + (byte a1 - 128))%N) in *. assert (c <= 2047)%N by (subst c; lia). split; [apply scalar_iff; lia|].
    unfold utf8, utf8_bytes. destruct (c <=? 127)%N eqn:X; bytes; [lia|]. destruct (c <=? 2047)%N eqn:Y; bytes; [|lia]. cbn [of_bytes append].
    assert (D : (c / 64 = byte a - 192)%N) by (subst c; rewrite N.div_add_l, N.div_small by lia; lia).
    assert (M : (c mod 64 = byte a1 - 128)%N) by (subst c; rewrite N.add_comm, N.mod_add, N.mod_small by lia; lia).
    rewrite D, M. f_equal; [apply chr_of; lia|]. f_equal. apply chr_of; lia. }
  destruct (c_range 224 239 a) eqn:E3.
  { destruct i as [|a1 [|a2 i]]; try discriminate. cbv zeta in H. destruct (_ && _)%bool eqn:K in H; [|discriminate]. injection H as <- <-.
    bytes; set (c := ((byte a - 224) * 4096 + (byte a1 - 128) * 64 + (byte a2 - 128))%N) in *;
    (assert (c <= 65535)%N by (subst c; lia); split; [apply scalar_iff; lia|];
    unfold utf8, utf8_bytes; destruct (c <=? 127)%N eqn:X; bytes; [lia|]; destruct (c <=? 2047)%N eqn:Y; bytes; [lia|];
    destruct (c <=? 65535)%N eqn:Z; bytes; [|lia]; cbn [of_bytes append];
    assert (D : (c / 64 = (byte a - 224) * 64 + (byte a1 - 128))%N)
      by (subst c; replace ((byte a - 224) * 4096 + (byte a1 - 128) * 64 + (byte a2 - 128))%N with (((byte a - 224) * 64 + (byte a1 - 128)) * 64 + (byte a2 - 128))%N by lia;
          rewrite N.div_add_l, N.div_small by lia; lia);
    assert (M : (c mod 64 = byte a2 - 128)%N)
      by (subst c; replace ((byte a - 224) * 4096 + (byte a1 - 128) * 64 + (byte a2 - 128))%N with ((byte a2 - 128) + ((byte a - 224) * 64 + (byte a1 - 128)) * 64)%N by lia;
          rewrite N.mod_add, N.mod_small by lia; lia);
    assert (D2 : (c / 4096 = byte a - 224)%N)
      by (change 4096%N with (64 * 64)%N; rewrite <- N.div_div, D by lia; rewrite N.div_add_l, N.div_small by lia; lia);
    assert (M2 : ((c / 64) mod 64 = byte a1 - 128)%N) by (rewrite D, N.add_comm, N.mod_add, N.mod_small by lia; lia);
    rewrite D2, M2, M; f_equal; [apply chr_of; lia|]; f_equal; [apply chr_of; lia|]; f_equal; apply chr_of; lia). }
  destruct (c_range 240 247 a) eqn:E4; [|discriminate].
  destruct i as [|a1 [|a2 [|a3 i]]]; try discriminate. cbv zeta in H. destruct (_ && _)%bool eqn:K in H; [|discriminate]. injection H as <- <-.
  bytes. set (c := ((byte a - 240) * 262144 + (byte a1 - 128) * 4096 + (byte a2 - 128) * 64 + (byte a3 - 128))%N) in *.
  split; [apply scalar_iff; lia|].
  unfold utf8, utf8_bytes. destruct (c <=? 127)%N eqn:X; bytes; [lia|]; destruct (c <=? 2047)%N eqn:Y; bytes; [lia|];
  destruct (c <=? 65535)%N eqn:Z; bytes; [lia|]; cbn [of_bytes append].
  assert (D : (c / 64 = ((byte a - 240) * 64 + (byte a1 - 128)) * 64 + (byte a2 - 128))%N).
  { subst c. replace ((byte a - 240) * 262144 + (byte a1 - 128) * 4096 + (byte a2 - 128) * 64 + (byte a3 - 128))%N
      with ((((byte a - 240) * 64 + (byte a1 - 128)) * 64 + (byte a2 - 128)) * 64 + (byte a3 - 128))%N by lia.
    rewrite N.div_add_l, N.div_small by lia; lia. }
  assert (M : (c mod 64 = byte a3 - 128)%N).
  { subst c. replace ((byte a - 240) * 262144 + (byte a1 - 128) * 4096 + (byte a2 - 128) * 64 + (byte a3 - 128))%N
      with ((byte a3 - 128) + (((byte a - 240) * 64 + (byte a1 - 128)) * 64 + (byte a2 - 128)) * 64)%N by lia.
    rewrite N.mod_add, N.mod_small by lia; lia. }
  assert (D2 : (c / 4096 = (byte a - 240) * 64 + (byte a1 - 128))%N)
    by (change 4096%N with (64 * 64)%N; rewrite <- N.div_div, D by lia; rewrite N.div_add_l, N.div_small by lia; lia).
  assert (M2 : ((c / 64) mod 64 = byte a2 - 128)%N) by (rewrite D, N.add_comm, N.mod_add, N.mod_small by lia; lia).
  assert (D3 : (c / 262144 = byte a - 240)%N)
    by (change 262144%N with (4096 * 64)%N; rewrite <- N.div_div, D2 by lia; rewrite N.div_add_l, N.div_small by lia; lia).
  assert (M3 : ((c / 4096) mod 64 = byte a1 - 128)%N) by (rewrite D2, N.add_comm, N.mod_add, N.mod_small by lia; lia).
  rewrite D3, M3, M2, M. f_equal; [apply chr_of; lia|]; f_equal; [apply chr_of; lia|]; f_equal; [apply chr_of; lia|]; f_equal; apply chr_of; lia.
Qed.
Lemma N_split : forall c n, (0 < n)%N -> (c = (c / n) * n + c mod n /\ c mod n < n)%N.
Proof. intros c n H. split; [rewrite N.mul_comm; apply N.div_mod; lia|apply N.mod_lt; lia]. Qed.
Lemma peek_complete : forall c r, scalar c -> peek_utf8 (utf8 c +++ r) = Some (c, r).
Proof.
  intros c r H. apply scalar_iff in H. unfold utf8, utf8_bytes.
  pose proof (N_split c 64 ltac:(lia)) as [A1 A2]. pose proof (N_split (c / 64) 64 ltac:(lia)) as [B1 B2]. pose proof (N_split (c / 4096) 64 ltac:(lia)) as [C1 C2].
  assert (Q : (c / 64 / 64 = c / 4096)%N) by (rewrite N.div_div by lia; reflexivity).
  assert (Q2 : (c / 4096 / 64 = c / 262144)%N) by (rewrite N.div_div by lia; reflexivity).
  rewrite Q in B1. rewrite Q2 in C1.
  set (x := (c mod 64)%N) in *. set (y := ((c / 64) mod 64)%N) in *. set (z := ((c / 4096) mod 64)%N) in *.
  set (p := (c / 64)%N) in *. set (q := (c / 4096)%N) in *. set (w := (c / 262144)%N) in *.
  destruct (c <=? 127)%N eqn:E1; bytes.
  { cbn [of_bytes append]. unfold peek_utf8. rewrite byte_chr by lia. destruct (c <? 128)%N eqn:E; bytes; [reflexivity|lia]. }
  destruct (c <=? 2047)%N eqn:E2; bytes.
  { cbn [of_bytes append]. unfold peek_utf8, cont, c_range. rewrite !byte_chr by lia.
    destruct (192 + p <? 128)%N eqn:E; bytes; [lia|].
    replace ((192 <=? 192 + p)%N) with true by (symmetry; apply N.leb_le; lia). replace ((192 + p <=? 223)%N) with true by (symmetry; apply N.leb_le; lia). cbn [andb].
    replace ((128 <=? 128 + x)%N) with true by (symmetry; apply N.leb_le; lia). replace ((128 + x <=? 191)%N) with true by (symmetry; apply N.leb_le; lia). cbn [andb].
    replace ((192 + p - 192) * 64 + (128 + x - 128))%N with c by lia.
    replace ((128 <=? c)%N) with true by (symmetry; apply N.leb_le; lia). reflexivity. }
  destruct (c <=? 65535)%N eqn:E3; bytes.
  { cbn [of_bytes append]. unfold peek_utf8, cont, c_range. rewrite !byte_chr by lia.
    destruct (224 + q <? 128)%N eqn:E; bytes; [lia|].
    destruct (224 + q <=? 223)%N eqn:F; bytes; [lia|]. rewrite andb_false_r.
    replace ((224 <=? 224 + q)%N) with true by (symmetry; apply N.leb_le; lia). replace ((224 + q <=? 239)%N) with true by (symmetry; apply N.leb_le; lia). cbn [andb].
    replace ((128 <=? 128 + x)%N) with true by (symmetry; apply N.leb_le; lia). replace ((128 + x <=? 191)%N) with true by (symmetry; apply N.leb_le; lia).
    replace ((128 <=? 128 + y)%N) with true by (symmetry; apply N.leb_le; lia). replace ((128 + y <=? 191)%N) with true by (symmetry; apply N.leb_le; lia). cbn [andb].
    replace ((224 + q - 224) * 4096 + (128 + y - 128) * 64 + (128 + x - 128))%N with c by lia.
    replace ((2048 <=? c)%N) with true by (symmetry; apply N.leb_le; lia). cbn [andb].
    destruct (55296 <=? c)%N eqn:G; destruct (c <=? 57343)%N eqn:K; bytes; try reflexivity. lia. }
  cbn [of_bytes append]. unfold peek_utf8, cont, c_range. rewrite !byte_chr by lia.
  destruct (240 + w <? 128)%N eqn:E; bytes; [lia|].
  destruct (240 + w <=? 223)%N eqn:F; bytes; [lia|]. rewrite andb_false_r.
  destruct (240 + w <=? 239)%N eqn:G; bytes; [lia|]. rewrite andb_false_r.
  replace ((240 <=? 240 + w)%N) with true by (symmetry; apply N.leb_le; lia). replace ((240 + w <=? 247)%N) with true by (symmetry; apply N.leb_le; lia). cbn [andb].
  replace ((128 <=? 128 + x)%N) with true by (symmetry; apply N.leb_le; lia). replace ((128 + x <=? 191)%N) with true by (symmetry; apply N.leb_le; lia).
  replace ((128 <=? 128 + y)%N) with true by (symmetry; apply N.leb_le; lia). replace ((128 + y <=? 191)%N) with true by (symmetry; apply N.leb_le; lia).
  replace ((128 <=? 128 + z)%N) with true by (symmetry; apply N.leb_le; lia). replace ((128 + z <=? 191)%N) with true by (symmetry; apply N.leb_le; lia). cbn [andb].
  replace ((240 + w - 240) * 262144 + (128 + z - 128) * 4096 + (128 + y - 128) * 64 + (128 + x - 128))%N with c by lia.
  replace ((65536 <=? c)%N) with true by (symmetry; apply N.leb_le; lia). replace ((c <=? 1114111)%N) with true by (symmetry; apply N.leb_le; lia). reflexivity.
Qed.

(** ** Characters *)
Lemma hexdig_spec : forall a, hexdig a = true <-> hexadecimal a.
Proof.
  intros a. unfold hexadecimal. rewrite <- c_in_spec. enough (E : hexdig a = c_in "0123456789abcdefABCDEF" a) by now rewrite E.
  destruct a as [[] [] [] [] [] [] [] []]; reflexivity.
Qed.
Lemma allowed_spec : forall a, ascii_allowed a = true <-> In a (list_ascii_of_string plain_chars).
Proof.
  intros a. rewrite <- c_in_spec. enough (E : ascii_allowed a = c_in plain_chars a) by now rewrite E.
  destruct a as [[] [] [] [] [] [] [] []]; reflexivity.
Qed.
Lemma letter_spec : forall a, c_alpha a = true <-> letter a.
Proof. intros a. unfold c_alpha, letter. rewrite orb_true_iff, !c_range_spec. reflexivity. Qed.
Lemma digit_spec : forall a, c_digit a = true <-> digit a.
Proof. intros a. unfold c_digit, digit. apply c_range_spec. Qed.
Lemma international_spec : forall c, (ucschar c || iprivate c = true)%bool <-> international c.
Proof.
  intros c. unfold ucschar, iprivate, in_ranges, international. cbn [existsb fst snd].
  rewrite !orb_true_iff, !andb_true_iff, !N.leb_le.
  pose proof (N_split c 0x10000 ltac:(lia)) as [A B].
  set (q := (c / 0x10000)%N) in *. set (m := (c mod 0x10000)%N) in *. clearbody q m.
  split; intros H.
  - destruct (N.le_gt_cases c 0xFFFF); [lia|]. destruct (N.le_gt_cases 0xE0000 c); [destruct (N.lt_ge_cases c 0xF0000); [lia|]|];
      right; right; right; left; repeat split; lia.
  - destruct H as [H|[H|[H|[H|H]]]]; lia.
Qed.
Lemma international_scalar : forall c, international c -> scalar c.
Proof.
  intros c H. apply scalar_iff. unfold international in H. pose proof (N_split c 0x10000 ltac:(lia)) as [A B].
  set (q := (c / 0x10000)%N) in *. set (m := (c mod 0x10000)%N) in *. clearbody q m. lia.
Qed.

Lemma international_high : forall c, international c -> (128 <= c)%N.
Proof.
  intros c H. unfold international in H. pose proof (N_split c 0x10000 ltac:(lia)) as [A B].
  set (q := (c / 0x10000)%N) in *. set (m := (c mod 0x10000)%N) in *. clearbody q m. lia.
Qed.

Section Inert.
  Context {S : Type}.
  Implicit Types s : S.
  Lemma char_ok : forall c r s, is_char c (String c r) s = Matched r s.
  Proof. intros c r s. cbn. now rewrite Ascii.eqb_refl. Qed.
  Lemma char_no : forall c i s, ~ starts c i -> is_char c i s = Failed s.
  Proof.
    intros c [|a r] s H; [reflexivity|]. cbn. destruct (Ascii.eqb_spec c a) as [<-|]; [|reflexivity]. exfalso. apply H. now exists r.
  Qed.
  Lemma pct_ok : forall t r s, triplet t -> u_pct (t +++ r) s = Matched r s.
  Proof.
    intros t r s (a & b & A & B & ->). apply hexdig_spec in A, B. unfold u_pct, p_try_catch, p_if_must, p_seq, p_must, is_char, p_one. cbn [append].
    rewrite Ascii.eqb_refl, A, B. reflexivity.
  Qed.
  Lemma pct_sound : forall i s, (exists t r, triplet t /\ i = t +++ r /\ u_pct i s = Matched r s) \/ u_pct i s = Failed s.
  Proof.
    intros i s. unfold u_pct, p_try_catch, p_if_must, p_seq, p_must, is_char, p_one. destruct i as [|c i]; [now right|].
    destruct (Ascii.eqb_spec "%" c) as [<-|]; [|now right].
    destruct i as [|a i]; [now right|]. destruct (hexdig a) eqn:A; [|now right]. destruct i as [|b i]; [now right|]. destruct (hexdig b) eqn:B; [|now right].
    left. exists (String "%" (String a (String b ""))), i. apply hexdig_spec in A, B. repeat split. now exists a, b.
  Qed.
  Lemma pct_no : forall a r s, a <> "%"%char -> u_pct (String a r) s = Failed s.
  Proof. intros a r s H. unfold u_pct, p_try_catch, p_if_must, p_seq, is_char, p_one. destruct (Ascii.eqb_spec "%" a); [congruence|reflexivity]. Qed.

  (** *** text outside of expressions *)
  Definition lit_one : rule S := p_sor u_pct (p_sor (p_one ascii_allowed) (p_sor (p_utf8 ucschar) (p_utf8 iprivate))).
  Lemma lit_sound : forall i s, (exists t r, literal_char t /\ i = t +++ r /\ lit_one i s = Matched r s) \/ lit_one i s = Failed s.
  Proof.
    intros i s. unfold lit_one, p_sor. destruct (pct_sound i s) as [(t & r & T & -> & E)|E]; rewrite E; [left; exists t, r; repeat split; now constructor|].
    destruct i as [|a i]; [now right|]. unfold p_one. destruct (ascii_allowed a) eqn:A.
    { left. exists (String a ""), i. repeat split. apply lit_plain. now apply allowed_spec. }
    unfold p_utf8. destruct (peek_utf8 (String a i)) as [[c r]|] eqn:P; [|now right].
    apply peek_sound in P as [_ P]. destruct (ucschar c) eqn:U; [|destruct (iprivate c) eqn:V; [|now right]];
      left; exists (utf8 c), r; (repeat split; [|exact P]); apply lit_international, international_spec; [now rewrite U|now rewrite V, orb_true_r].
  Qed.
  Lemma utf8_high : forall c, (128 <= c)%N -> scalar c -> exists a r, utf8 c = String a r /\ (128 <= byte a)%N.
  Proof.
    intros c H Sc. apply scalar_iff in Sc. unfold utf8, utf8_bytes. destruct (c <=? 127)%N eqn:E; bytes; [lia|].
    destruct (c <=? 2047)%N eqn:E1; bytes.
    { eexists _, _. split; [cbn [of_bytes]; reflexivity|]. assert (c / 64 < 32)%N by (apply N.div_lt_upper_bound; lia). revert H0. generalize (c / 64)%N, (c / 4096)%N, (c / 262144)%N. intros x y z L. rewrite byte_chr; lia. }
    destruct (c <=? 65535)%N eqn:E2; bytes.
    { eexists _, _. split; [cbn [of_bytes]; reflexivity|]. assert (c / 4096 < 16)%N by (apply N.div_lt_upper_bound; lia). revert H0. generalize (c / 64)%N, (c / 4096)%N, (c / 262144)%N. intros x y z L. rewrite byte_chr; lia. }
    eexists _, _. split; [cbn [of_bytes]; reflexivity|]. assert (c / 262144 < 8)%N by (apply N.div_lt_upper_bound; lia). revert H0. generalize (c / 64)%N, (c / 4096)%N, (c / 262144)%N. intros x y z L. rewrite byte_chr; lia.
  Qed.
  Lemma high_not : forall a (n : ascii), (128 <= byte a)%N -> (byte n < 128)%N -> a <> n.
  Proof. intros a n A N ->. lia. Qed.
  Lemma lit_ok : forall t r s, literal_char t -> lit_one (t +++ r) s = Matched r s.
  Proof.
    intros t r s [t' T|a A|c C]; unfold lit_one, p_sor.
    - now rewrite pct_ok.
    - cbn [append]. apply allowed_spec in A. rewrite pct_no by (intros ->; discriminate A). unfold p_one. now rewrite A.
    - pose proof (international_scalar _ C) as Sc. assert (128 <= c)%N as H by now apply international_high.
      destruct (utf8_high c H Sc) as (a & q & E & B).
      assert (P := peek_complete c r Sc). rewrite E in *. cbn [append] in *. rewrite pct_no by (apply high_not; [exact B|reflexivity]).
      assert (N : ascii_allowed a = false).
      { destruct (ascii_allowed a) eqn:X; [|reflexivity]. exfalso. revert B X. clear. destruct a as [[] [] [] [] [] [] [] []]; vm_compute; intros; congruence. }
      unfold p_one. rewrite N. unfold p_utf8. rewrite P. apply international_spec in C. destruct (ucschar c); [reflexivity|]. cbn [orb] in C. now rewrite C.
  Qed.
  Lemma lit_shrinks : shrinks lit_one.
  Proof.
    intros i s r s' E. destruct (lit_sound i s) as [(t & r1 & T & -> & F)|F]; rewrite F in E; [|discriminate]. injection E as <- <-.
    rewrite length_append. enough (t <> ""%string) by (destruct t; [congruence|cbn; lia]).
    destruct T as [t (a & b & _ & _ & ->)| |c C]; try discriminate. unfold utf8, utf8_bytes. destruct (c <=? 127)%N; [discriminate|]. destruct (c <=? 2047)%N; [discriminate|].
    destruct (c <=? 65535)%N; discriminate.
  Qed.
  Definition lit_stops (i : string) : Prop := i = ""%string \/ starts "{" i.
  Lemma lit_stop : forall i s, lit_stops i -> lit_one i s = Failed s.
  Proof. intros i s [->|[r ->]]; reflexivity. Qed.
  Lemma lits_ok : forall l r s, Forall literal_char l -> lit_stops r -> p_star lit_one (sconcat l +++ r) s = Matched r s.
  Proof.
    intros l r s H K. induction H as [|t l T _ IH]; cbn [sconcat]; [now rewrite append_nil_l, (star_stop _ _ _ s (lit_stop _ _ K))|].
    rewrite append_assoc. rewrite (star_step _ _ _ _ _ lit_shrinks (lit_ok t _ s T)). exact IH.
  Qed.
  Lemma literals_ok : forall t r s, literal t -> lit_stops r -> u_literals (t +++ r) s = Matched r s.
  Proof.
    intros t r s (l & N & F & ->) K. destruct F as [|t l T F]; [congruence|]. unfold u_literals, p_plus, p_seq. fold lit_one. cbn [sconcat]. rewrite append_assoc, (lit_ok t _ s T).
    now apply lits_ok.
  Qed.
  Lemma lits_sound : forall n i s, (String.length i < n)%nat -> exists l r, Forall literal_char l /\ i = sconcat l +++ r /\ p_star lit_one i s = Matched r s /\ lit_one r s = Failed s.
  Proof.
    induction n as [|n IH]; intros i s H; [lia|]. destruct (lit_sound i s) as [(t & r & T & -> & E)|E].
    - pose proof (lit_shrinks _ _ _ _ E). destruct (IH r s ltac:(lia)) as (l & r' & L & -> & P & Q). exists (t :: l), r'. cbn [sconcat]. rewrite append_assoc.
      repeat split; [now constructor| |exact Q]. now rewrite (star_step _ _ _ _ _ lit_shrinks E).
    - exists [], i. repeat split; [constructor| |exact E]. now apply star_stop.
  Qed.
  Lemma literals_sound : forall i s, (exists t r, literal t /\ i = t +++ r /\ u_literals i s = Matched r s /\ lit_one r s = Failed s) \/ (u_literals i s = Failed s /\ lit_one i s = Failed s).
  Proof.
    intros i s. unfold u_literals, p_plus, p_seq. fold lit_one. destruct (lit_sound i s) as [(t & r & T & -> & E)|E]; rewrite E; [|now right].
    left. destruct (lits_sound _ r s (Nat.lt_succ_diag_r _)) as (l & r' & L & -> & P & Q). exists (sconcat (t :: l)), r'. cbn [sconcat]. rewrite append_assoc.
    repeat split; [|exact P|exact Q]. exists (t :: l). repeat split; [discriminate|now constructor].
  Qed.
End Inert.
