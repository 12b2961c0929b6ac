(** Lemmas for C53 *)
From Verif Require Import Base ByteBuffer ByteSpec ByteProofs StringUtility StringSpec StringProofs Source Headers HeadersSpec.
Local Open Scope string_scope.

Lemma take_drop : forall p s, s = take_while p s +++ drop_while p s.
Proof. induction s as [|x s IH]; cbn; [reflexivity|]. destruct (p x); cbn; [now rewrite <- IH|reflexivity]. Qed.
Lemma take_all : forall (p : ascii -> bool) a b, all (fun x => p x = true) a -> (forall c r, b = String c r -> p c = false) ->
  take_while p (a +++ b) = a /\ drop_while p (a +++ b) = b.
Proof.
  intros p. induction a as [|x a IH]; intros b Ha Hb.
  - cbn. destruct b as [|c r]; [now split|]. cbn. rewrite (Hb c r eq_refl). now split.
  - apply all_cons in Ha as [Hx Ha]. cbn. rewrite Hx. destruct (IH b Ha Hb) as [-> ->]. now split.
Qed.
Lemma take_true : forall (p : ascii -> bool) s, all (fun x => p x = true) (take_while p s).
Proof. intros p. induction s as [|x s IH]; cbn; [constructor|]. destruct (p x) eqn:E; [|constructor]. apply all_cons. now split. Qed.
Lemma drop_false : forall (p : ascii -> bool) s c r, drop_while p s = String c r -> p c = false.
Proof. intros p. induction s as [|x s IH]; cbn; intros c r H; [discriminate|]. destruct (p x) eqn:E; [now apply (IH c r)|]. now injection H as <- _. Qed.
Lemma before_nul_id : forall s, ~ has NUL s -> before_nul s = s.
Proof.
  unfold before_nul. induction s as [|x s IH]; intros H; [reflexivity|]. apply has_cons in H as [Hx Hs]. cbn.
  destruct (Ascii.eqb_spec x NUL) as [->|_]; [congruence|]. cbn. now rewrite IH.
Qed.
Lemma all_impl : forall (P Q : ascii -> Prop) s, (forall a, P a -> Q a) -> all P s -> all Q s.
Proof. intros P Q s H. apply Forall_impl. exact H. Qed.
Lemma spaces_all : forall n, all (fun a => Ascii.eqb a " " = true) (spaces_ n).
Proof. induction n as [|n IH]; [constructor|]. apply all_cons. now split. Qed.
Lemma all_spaces : forall s, all (fun a => Ascii.eqb a " " = true) s -> exists n, s = spaces_ n.
Proof.
  induction s as [|x s IH]; intros H; [now exists 0|]. apply all_cons in H as [Hx Hs]. apply Ascii.eqb_eq in Hx as ->.
  destruct (IH Hs) as [n ->]. now exists (S n).
Qed.
Lemma ends_spec : forall a, blank_or_colon a = true <-> ends_name a.
Proof. intros a. unfold blank_or_colon, ends_name. rewrite !orb_true_iff, !Ascii.eqb_eq. tauto. Qed.
Lemma name_all : forall s, all (fun a => ~ ends_name a) s <-> all (fun a => negb (blank_or_colon a) = true) s.
Proof.
  intros s. split; apply all_impl; intros a; rewrite negb_true_iff, <- not_true_iff_false, ends_spec; tauto.
Qed.
Lemma has_dec : forall a s, {has a s} + {~ has a s}.
Proof. intros a s. apply in_dec. apply ascii_dec. Qed.
Lemma in_text_spec : forall a s, in_text a s = true <-> has a s.
Proof.
  intros a s. unfold in_text. destruct (has_dec a s) as [H|H].
  - assert (H' := H). apply has_split in H' as (x & y & -> & Hx). rewrite (find_char _ _ _ Hx). tauto.
  - rewrite (find_no_char _ _ H). split; [discriminate|tauto].
Qed.
Definition letters := "ABCDEFGHIJKLMNOPQRSTUVWXYZabcdefghijklmnopqrstuvwxyz0123456789".
Lemma token_spec : forall a, not_token_char a = false <-> name_char a.
Proof.
  intros a. unfold name_char. rewrite <- in_text_spec. rewrite <- (chr_byte a).
  assert (B := byte_lt a). set (n := byte a) in *. clearbody n.
  assert (D : forall k, (N.to_nat n < k)%nat -> (k <= 256)%nat ->
     (not_token_char (chr n) = false <-> in_text (chr n) "ABCDEFGHIJKLMNOPQRSTUVWXYZabcdefghijklmnopqrstuvwxyz0123456789-#$%&'*+.^_`|~" = true)).
  { assert (C : forallb (fun m => Bool.eqb (negb (not_token_char (chr m))) (in_text (chr m) "ABCDEFGHIJKLMNOPQRSTUVWXYZabcdefghijklmnopqrstuvwxyz0123456789-#$%&'*+.^_`|~"))
                  (map N.of_nat (seq 0 256)) = true) by (vm_compute; reflexivity).
    intros k Hk Hl. rewrite forallb_forall in C. specialize (C n).
    assert (I : In n (map N.of_nat (seq 0 256))) by (apply in_map_iff; exists (N.to_nat n); split; [apply N2Nat.id|apply in_seq; lia]).
    apply C, eqb_prop in I. rewrite <- I. now rewrite negb_true_iff. }
  apply (D 256%nat); lia.
Qed.
Lemma find_invalid_none : forall s, find_invalid s = None <-> all name_char s.
Proof.
  induction s as [|x s IH]; cbn [find_invalid]; [split; [constructor|reflexivity]|]. rewrite all_cons, <- IH. assert (T := token_spec x).
  destruct (not_token_char x); split; try discriminate; try tauto. intros [H _]. apply T in H. discriminate.
Qed.
Lemma find_invalid_some : forall s c, find_invalid s = Some c -> exists a b, s = a +++ String c b /\ all name_char a /\ ~ name_char c.
Proof.
  induction s as [|x s IH]; cbn; intros c H; [discriminate|]. destruct (not_token_char x) eqn:E.
  - injection H as <-. exists "", s. split; [reflexivity|]. split; [constructor|]. intros H. apply token_spec in H. congruence.
  - destruct (IH c H) as (a & b & -> & Ha & Hc). exists (String x a), b. split; [reflexivity|]. split; [|exact Hc].
    apply all_cons. split; [now apply token_spec|exact Ha].
Qed.

(** the parts of the three forms *)
Lemma parts_none : forall i rest, (forall c r, rest = String c r -> c = "009"%char \/ c = ":"%char) ->
  ~ has NUL (spaces_ i +++ rest) -> header_parts (spaces_ i +++ rest) = None.
Proof.
  intros i rest H N. unfold header_parts. destruct (String.eqb_spec (spaces_ i +++ rest) "") as [_|_]; [reflexivity|].
  rewrite (before_nul_id _ N).
  assert (Hr : forall c r, rest = String c r -> Ascii.eqb c " " = false).
  { intros c r E. destruct (H c r E) as [-> | ->]; reflexivity. }
  destruct (take_all _ _ _ (spaces_all i) Hr) as [_ ->].
  destruct rest as [|c r]; [reflexivity|]. destruct (H c r eq_refl) as [-> | ->]; reflexivity.
Qed.
Lemma parts_named : forall i name k value, is_name name -> ~ has NUL (spaces_ i +++ name +++ spaces_ k +++ value) ->
  (forall c r, spaces_ k +++ value = String c r -> ends_name c) -> (forall c r, value = String c r -> c <> " "%char) ->
  header_parts (spaces_ i +++ name +++ spaces_ k +++ value) =
  match value with
  | String ":" v => Some (name, spaces_ k +++ ":" +++ take_while (fun a => Ascii.eqb a " ") v, drop_while (fun a => Ascii.eqb a " ") v)
  | _ => Some (name, spaces_ k, value)
  end.
Proof.
  intros i name k value [Hn Ha] N He Hv. unfold header_parts.
  destruct (String.eqb_spec (spaces_ i +++ name +++ spaces_ k +++ value) "") as [E|_].
  { apply (f_equal String.length) in E. rewrite !length_append in E. destruct name; [congruence|cbn in E; lia]. }
  rewrite (before_nul_id _ N).
  assert (H1 : forall c r, name +++ spaces_ k +++ value = String c r -> Ascii.eqb c " " = false).
  { intros c r E. destruct name as [|x name]; [congruence|]. cbn in E. injection E as <- _. apply all_cons in Ha as [Hx _].
    destruct (Ascii.eqb_spec x " ") as [->|_]; [|reflexivity]. exfalso. apply Hx. now left. }
  destruct (take_all _ _ _ (spaces_all i) H1) as [_ ->].
  assert (H2 : forall c r, spaces_ k +++ value = String c r -> negb (blank_or_colon c) = false).
  { intros c r E. apply negb_false_iff, ends_spec. exact (He c r E). }
  destruct (take_all _ _ _ (proj1 (name_all name) Ha) H2) as [-> ->].
  destruct (String.eqb_spec name "") as [?|_]; [congruence|].
  assert (H3 : forall c r, value = String c r -> Ascii.eqb c " " = false).
  { intros c r E. destruct (Ascii.eqb_spec c " ") as [->|_]; [|reflexivity]. now destruct (Hv _ _ E). }
  destruct (take_all _ _ _ (spaces_all k) H3) as [-> ->]. reflexivity.
Qed.
Lemma trim_skip : forall v a value b, trimmed a v value b -> trim (drop_while (fun c => Ascii.eqb c " ") v) = value.
Proof.
  intros v a value b T. assert (E := take_drop (fun c => Ascii.eqb c " ") v).
  destruct (trim_spec (drop_while (fun c => Ascii.eqb c " ") v)) as (a' & b' & E' & W1 & W2 & H1 & H2).
  apply trimmed_unique in T. rewrite <- T. symmetry.
  apply (trimmed_unique (take_while (fun c => Ascii.eqb c " ") v +++ a') v _ b'). split; [|split; [|now repeat split]].
  - rewrite E at 1. rewrite E' at 1. now rewrite append_assoc.
  - apply all_app. split; [|exact W1]. eapply all_impl; [|exact (take_true _ v)].
    intros x H. cbn beta in H. apply Ascii.eqb_eq in H as ->. now left.
Qed.

(** every line without NUL has one of the forms *)
Lemma line_cases : forall line, ~ has NUL line ->
  (exists i rest, line = spaces_ i +++ rest /\ (forall c r, rest = String c r -> c = "009"%char \/ c = ":"%char)) \/
  (exists i name k value, line = spaces_ i +++ name +++ spaces_ k +++ value /\ is_name name /\
    (forall c r, spaces_ k +++ value = String c r -> ends_name c) /\ (forall c r, value = String c r -> c <> " "%char)).
Proof.
  intros line N. assert (E1 := take_drop (fun a => Ascii.eqb a " ") line).
  destruct (all_spaces _ (take_true (fun a => Ascii.eqb a " ") line)) as [i Ei].
  assert (D1 := drop_false (fun a => Ascii.eqb a " ") line). cbn beta in D1.
  set (s := drop_while (fun a => Ascii.eqb a " ") line) in *.
  rewrite Ei in E1. assert (E2 := take_drop (fun a => negb (blank_or_colon a)) s).
  assert (A2 := take_true (fun a => negb (blank_or_colon a)) s). cbn beta in A2. apply name_all in A2.
  assert (D2 := drop_false (fun a => negb (blank_or_colon a)) s). cbn beta in D2.
  set (name := take_while (fun a => negb (blank_or_colon a)) s) in *.
  set (s2 := drop_while (fun a => negb (blank_or_colon a)) s) in *.
  destruct (String.eqb_spec name "") as [Z|Z].
  - left. exists i, s. split; [exact E1|]. intros c r H. rewrite Z, append_nil_l in E2. rewrite E2 in H.
    assert (X := D2 c r H). apply negb_false_iff, ends_spec in X. rewrite <- E2 in H. specialize (D1 c r H).
    destruct X as [->|X]; [discriminate|exact X].
  - right. assert (E3 := take_drop (fun a => Ascii.eqb a " ") s2).
    destruct (all_spaces _ (take_true (fun a => Ascii.eqb a " ") s2)) as [k Ek].
    assert (D3 := drop_false (fun a => Ascii.eqb a " ") s2). cbn beta in D3.
    exists i, name, k, (drop_while (fun a => Ascii.eqb a " ") s2). rewrite <- Ek, <- E3, <- E2. split; [exact E1|].
    split; [now split|]. split.
    + intros c r H. apply ends_spec. apply negb_false_iff. exact (D2 c r H).
    + intros c r H. specialize (D3 c r H). now destruct (Ascii.eqb_spec c " ").
Qed.
Lemma existsb_named : forall hs name v, has_header hs (name, v) = true <-> named hs name.
Proof.
  intros hs name v. unfold has_header, named. rewrite existsb_exists. split.
  - intros ([n w] & I & H). apply iequal_spec in H. now exists n, w.
  - intros (n & w & I & H). exists (n, w). split; [exact I|]. now apply iequal_spec.
Qed.
Lemma allowed_spec : forall name v, allowed_multiple (name, v) = true <-> repeatable name.
Proof. intros name v. unfold allowed_multiple, repeatable. rewrite orb_true_iff, !iequal_spec. reflexivity. Qed.
(** fetching a line *)
Local Open Scope N_scope.
Lemma fetch_text : forall before a t b after, slen (before +++ (a +++ t +++ b) +++ after) < 2 ^ 63 ->
  trimmed a (a +++ t +++ b) t b -> t <> "" ->
  fetch_line (before +++ (a +++ t +++ b) +++ after) (R (slen before) (slen (a +++ t +++ b))) =
  Val (Some (R (slen before + slen a) (slen t), t)).
Proof.
  intros before a t b after L T Ht. unfold fetch_line. cbn [location length].
  assert (P : 2 ^ 63 < 2 ^ 64) by reflexivity. rewrite !slen_app in L.
  rewrite wadd_small by (rewrite !slen_app in *; lia).
  destruct (N.ltb_spec (slen (before +++ (a +++ t +++ b) +++ after)) (slen before + slen (a +++ t +++ b))) as [H|_].
  { rewrite !slen_app in H. lia. }
  replace (N.to_nat (slen before)) with (String.length before) by (unfold slen; lia).
  replace (N.to_nat (slen (a +++ t +++ b))) with (String.length (a +++ t +++ b)) by (unfold slen; lia).
  rewrite sub_mid.
  assert (I : trim_info (a +++ t +++ b) = (Z.of_nat (String.length a), Z.of_nat (String.length t))).
  { destruct T as (E & Wa & Wb & H1 & H2). unfold trim_info. destruct t as [|x t]; [congruence|].
    assert (Hat : forall r c, a +++ String x t = r +++ String c "" -> ~ white c).
    { intros r c Hc. destruct (last_char x t) as (r' & c' & Et). rewrite Et, <- append_assoc in Hc.
      apply snoc_inj in Hc as [_ <-]. now apply (H2 r'). }
    rewrite (spaces_app a); [|exact Wa|cbn; intros c r Hc; injection Hc as <- _; exact (H1 x t eq_refl)].
    rewrite <- append_assoc, (last_base_app _ _ Wb Hat), length_append. f_equal. lia. }
  rewrite I.
  assert (Lt : 0 < slen t) by (destruct t; [congruence|unfold slen; cbn [String.length]; lia]).
  rewrite Z.mod_small by (unfold slen in L; lia).
  replace (Z.to_N (Z.of_nat (String.length t))) with (slen t) by (unfold slen; lia).
  replace (Z.to_N (Z.of_nat (String.length a))) with (slen a) by (unfold slen; lia).
  destruct (N.eqb_spec (slen t) 0) as [?|_]; [lia|].
  rewrite wadd_small by lia. unfold substr.
  destruct (N.ltb_spec (slen (before +++ (a +++ t +++ b) +++ after)) (slen before + slen a)) as [H|_].
  { rewrite !slen_app in H. lia. }
  cbn [andthen].
  replace (N.to_nat (slen before + slen a)) with (String.length (before +++ a)) by (rewrite length_append; unfold slen; lia).
  replace (N.to_nat (slen t)) with (String.length t) by (unfold slen; lia).
  replace (before +++ (a +++ t +++ b) +++ after)%string with ((before +++ a) +++ t +++ (b +++ after))%string by now rewrite !append_assoc.
  now rewrite sub_mid.
Qed.
(** a range of whitespace only: what is fetched is all that follows in the source *)
Lemma sub_over : forall s n, (String.length s <= n)%nat -> substring 0 n s = s.
Proof. induction s as [|x s IH]; intros [|n] H; cbn in *; try lia; try reflexivity. now rewrite IH by lia. Qed.
Lemma fetch_blank : forall before w after, slen (before +++ w +++ after) < 2 ^ 63 -> all white w -> w <> "" ->
  fetch_line (before +++ w +++ after) (R (slen before) (slen w)) =
  Val (Some (R (slen before + slen w) (2 ^ 64 - slen w), after)).
Proof.
  intros before w after L W Hw. unfold fetch_line. cbn [location length].
  assert (P : 2 ^ 63 < 2 ^ 64) by reflexivity. rewrite !slen_app in L.
  rewrite wadd_small by lia.
  destruct (N.ltb_spec (slen (before +++ w +++ after)) (slen before + slen w)) as [H|_].
  { rewrite !slen_app in H. lia. }
  replace (N.to_nat (slen before)) with (String.length before) by (unfold slen; lia).
  replace (N.to_nat (slen w)) with (String.length w) by (unfold slen; lia).
  rewrite sub_mid. destruct (all_white_spaces w W) as [A B]. unfold trim_info. rewrite A, B.
  assert (Lw : 0 < slen w) by (destruct w; [congruence|unfold slen; cbn [String.length]; lia]).
  assert (M : ((Z.of_nat 0 - Z.of_nat (String.length w)) mod 2 ^ 64 = 2 ^ 64 - Z.of_nat (String.length w))%Z).
  { symmetry. apply Z.mod_unique_pos with (q := (-1)%Z); unfold slen in L, Lw; lia. }
  rewrite M.
  replace (Z.to_N (2 ^ 64 - Z.of_nat (String.length w))) with (2 ^ 64 - slen w) by (unfold slen; lia).
  replace (Z.to_N (Z.of_nat (String.length w))) with (slen w) by (unfold slen; lia).
  destruct (N.eqb_spec (2 ^ 64 - slen w) 0) as [?|_]; [lia|].
  rewrite wadd_small by lia. unfold substr.
  destruct (N.ltb_spec (slen (before +++ w +++ after)) (slen before + slen w)) as [H|_].
  { rewrite !slen_app in H. lia. }
  cbn [andthen]. do 3 f_equal.
  replace (N.to_nat (slen before + slen w)) with (String.length (before +++ w)) by (rewrite length_append; unfold slen; lia).
  rewrite <- append_assoc, sub_shift. apply sub_over. unfold slen in *. lia.
Qed.

Lemma vec_ok : forall v i, i < N.of_nat (List.length v) -> exists x, vec_get v i = Val x.
Proof.
  intros v i H. unfold vec_get. destruct (nth_error v (N.to_nat i)) as [x|] eqn:E; [now exists x|].
  apply nth_error_None in E. lia.
Qed.
Lemma index_ok : forall r index, location r + length r <= N.of_nat (List.length index) -> 0 < length r ->
  N.of_nat (List.length index) < 2 ^ 63 -> exists c, index_to_characters r index = Val c.
Proof.
  intros r index H L B. unfold index_to_characters. assert (P : 2 ^ 63 < 2 ^ 64) by reflexivity.
  destruct (N.eqb_spec (N.of_nat (List.length index)) 0) as [?|_]; [lia|].
  rewrite wadd_small by lia. destruct (N.ltb_spec (N.of_nat (List.length index)) (location r + length r)) as [?|_]; [lia|].
  destruct (vec_ok index (location r)) as [x Hx]; [lia|].
  assert (A : exists loc, (if 0 <? location r then vec_get index (location r) else Val 0) = Val loc) by (destruct (0 <? location r); eauto).
  destruct A as [loc ->]. cbn [andthen]. destruct (N.ltb_spec 0 (length r)) as [_|?]; [|lia].
  rewrite wadd_small by lia. destruct (N.leb_spec (N.of_nat (List.length index)) (location r + length r)) as [?|?].
  - destruct (vec_ok index (N.of_nat (List.length index) - 1)) as [y ->]; [lia|]. cbn [andthen]. eauto.
  - destruct (vec_ok index (location r + length r)) as [y ->]; [lia|]. cbn [andthen]. eauto.
Qed.
Lemma fetch_shows : forall source r line, slen source < 2 ^ 63 -> shows source r line ->
  exists m, fetch_line source r = Val (Some (m, line)) /\ location m + length m <= slen source /\ 0 < length m.
Proof.
  intros source r line L (Hl & before & a & b & after & -> & -> & T).
  rewrite (fetch_text before a line b after L T Hl). eexists. split; [reflexivity|]. cbn [location length].
  rewrite !slen_app. destruct line; [congruence|]. unfold slen. cbn [String.length]. lia.
Qed.
