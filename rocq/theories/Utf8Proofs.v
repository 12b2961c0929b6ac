From Verif Require Import Base Utf8Spec Utf8.
Local Open Scope N_scope.

Lemma scalar_spec : forall c, scalar c <-> (c < 0xD800 \/ (0xDFFF < c /\ c <= 0x10FFFF)).
Proof.
  intros c. unfold scalar, scalarb. rewrite orb_true_iff, andb_true_iff, !N.ltb_lt, N.leb_le. tauto.
Qed.

Lemma land_3F : forall n, N.land n 0x3F = n mod 64.
Proof. intros n. change 0x3F with (N.ones 6). rewrite N.land_ones. reflexivity. Qed.
Lemma land_1F : forall n, N.land n 0x1F = n mod 32.
Proof. intros n. change 0x1F with (N.ones 5). rewrite N.land_ones. reflexivity. Qed.
Lemma land_0F : forall n, N.land n 0x0F = n mod 16.
Proof. intros n. change 0x0F with (N.ones 4). rewrite N.land_ones. reflexivity. Qed.
Lemma land_07 : forall n, N.land n 0x07 = n mod 8.
Proof. intros n. change 0x07 with (N.ones 3). rewrite N.land_ones. reflexivity. Qed.

Lemma shl6 : forall n, N.shiftl n 6 = n * 64.
Proof. intros n. now rewrite N.shiftl_mul_pow2. Qed.
Lemma shl12 : forall n, N.shiftl n 12 = n * 4096.
Proof. intros n. now rewrite N.shiftl_mul_pow2. Qed.
Lemma shl18 : forall n, N.shiftl n 18 = n * 262144.
Proof. intros n. now rewrite N.shiftl_mul_pow2. Qed.
Lemma shr6 : forall n, N.shiftr n 6 = n / 64.
Proof. intros n. now rewrite N.shiftr_div_pow2. Qed.
Lemma shr12 : forall n, N.shiftr n 12 = n / 4096.
Proof. intros n. now rewrite N.shiftr_div_pow2. Qed.
Lemma shr18 : forall n, N.shiftr n 18 = n / 262144.
Proof. intros n. now rewrite N.shiftr_div_pow2. Qed.

Lemma lor2 : forall a b, b < 64 -> N.lor (a * 64) b = a * 64 + b.
Proof. intros a b H. exact (lor_add 6 a b H). Qed.
Lemma lor12 : forall a b, b < 4096 -> N.lor (a * 4096) b = a * 4096 + b.
Proof. intros a b H. exact (lor_add 12 a b H). Qed.
Lemma lor18 : forall a b, b < 262144 -> N.lor (a * 262144) b = a * 262144 + b.
Proof. intros a b H. exact (lor_add 18 a b H). Qed.

Lemma lor_80 : forall b, b < 64 -> N.lor b 0x80 = 128 + b.
Proof. intros b H. rewrite N.lor_comm. exact (lor_add 6 2 b H). Qed.
Lemma lor_C0 : forall b, b < 32 -> N.lor b 0xC0 = 192 + b.
Proof. intros b H. rewrite N.lor_comm. exact (lor_add 5 6 b H). Qed.
Lemma lor_E0 : forall b, b < 16 -> N.lor b 0xE0 = 224 + b.
Proof. intros b H. rewrite N.lor_comm. exact (lor_add 4 14 b H). Qed.
Lemma lor_F0 : forall b, b < 8 -> N.lor b 0xF0 = 240 + b.
Proof. intros b H. rewrite N.lor_comm. exact (lor_add 3 30 b H). Qed.

Lemma ml : forall n k, k <> 0 -> n mod k < k.
Proof. intros. now apply N.mod_lt. Qed.

(** *** encode is the specification's encoder *)
Lemma encode_spec : forall c, c < 0x110000 -> encode c = Some (utf8 c).
Proof.
  intros c Hc. unfold encode, utf8, utf8_bytes.
  rewrite !land_3F, !land_1F, !land_0F, !land_07, !shr6, !shr12, !shr18.
  assert (H1 := ml c 64 ltac:(lia)).
  assert (H2 := ml (c/64) 64 ltac:(lia)).
  assert (H3 := ml (c/4096) 64 ltac:(lia)).
  assert (H4 := ml (c/64) 32 ltac:(lia)).
  assert (H5 := ml (c/4096) 16 ltac:(lia)).
  assert (H6 := ml (c/262144) 8 ltac:(lia)).
  rewrite !lor_80, !lor_C0, !lor_E0, !lor_F0 by assumption.
  destruct (N.ltb_spec c 0x80) as [L|L].
  { destruct (N.leb_spec c 0x7F) as [L'|L']; [|lia]. cbn. now rewrite (N.mod_small c 256) by lia. }
  destruct (N.leb_spec c 0x7F) as [L'|_]; [lia|].
  destruct (N.ltb_spec c 0x800) as [M|M].
  { destruct (N.leb_spec c 0x7FF) as [L'|L']; [|lia]. cbn [of_bytes].
    assert (c / 64 < 32) by (apply N.div_lt_upper_bound; lia).
    rewrite (N.mod_small (c/64) 32) by assumption.
    rewrite !(N.mod_small _ 256) by lia. reflexivity. }
  destruct (N.leb_spec c 0x7FF) as [L'|_]; [lia|].
  destruct (N.ltb_spec c 0x10000) as [M2|M2].
  { destruct (N.leb_spec c 0xFFFF) as [L'|L']; [|lia]. cbn [of_bytes].
    assert (c / 4096 < 16) by (apply N.div_lt_upper_bound; lia).
    rewrite (N.mod_small (c/4096) 16) by assumption.
    rewrite !(N.mod_small _ 256) by lia. reflexivity. }
  destruct (N.leb_spec c 0xFFFF) as [L'|_]; [lia|].
  destruct (N.ltb_spec c 0x110000) as [M3|M3]; [|lia].
  cbn [of_bytes].
  assert (c / 262144 < 8) by (apply N.div_lt_upper_bound; lia).
  rewrite (N.mod_small (c/262144) 8) by assumption.
  rewrite !(N.mod_small _ 256) by lia. reflexivity.
Qed.

Lemma encode_invalid : forall c, 0x110000 <= c -> encode c = None.
Proof.
  intros c Hc. unfold encode.
  destruct (N.ltb_spec c 0x80); [lia|]. destruct (N.ltb_spec c 0x800); [lia|].
  destruct (N.ltb_spec c 0x10000); [lia|]. destruct (N.ltb_spec c 0x110000); [lia|]. reflexivity.
Qed.

(** *** what decode_one does on explicit bytes *)
Ltac dlt := repeat match goal with
  | |- context[N.ltb ?a ?b] => destruct (N.ltb_spec a b); try lia
  | |- context[N.leb ?a ?b] => destruct (N.leb_spec a b); try lia
  end.

Lemma decode_utf8 : forall c rest, scalar c -> decode_one (utf8 c +++ rest) = Some (c, rest).
Proof.
  intros c rest Hs. rewrite scalar_spec in Hs.
  unfold utf8, utf8_bytes.
  destruct (N.leb_spec c 0x7F) as [L|L].
  { cbn [of_bytes append]. unfold decode_one, rd. cbn [String.get sdrop].
    rewrite byte_chr by lia. dlt. reflexivity. }
  assert (Q1 := N.div_mod c 64 ltac:(lia)). assert (B1 := ml c 64 ltac:(lia)).
  assert (TR : forall x, x < 64 -> (128 + x) mod 64 = x).
  { intros x Hx. rewrite N.add_comm. change 128 with (2 * 64). rewrite N.mod_add by lia. now rewrite N.mod_small. }
  destruct (N.leb_spec c 0x7FF) as [M|M].
  { cbn [of_bytes append]. unfold decode_one, rd. cbn [String.get sdrop].
    assert (c / 64 < 32) by (apply N.div_lt_upper_bound; lia).
    rewrite !byte_chr by lia.
    destruct (N.ltb_spec (192 + c / 64) 0x80); [lia|].
    destruct (N.ltb_spec (192 + c / 64) 0xE0); [|lia].
    cbn [String.length  Nat.ltb Nat.leb].
    rewrite land_1F, land_3F.
    replace ((192 + c/64) mod 32) with (c/64).
    2:{ rewrite N.add_comm. change 192 with (6 * 32). rewrite N.mod_add by lia. now rewrite N.mod_small. }
    rewrite TR by assumption.
    rewrite shl6, lor2 by assumption.
    replace (c/64*64 + c mod 64) with c by lia.
    dlt. reflexivity. }
  assert (Q2 := N.div_mod (c/64) 64 ltac:(lia)). assert (B2 := ml (c/64) 64 ltac:(lia)).
  rewrite (N.div_div c 64 64) in Q2 by lia. change (64*64) with 4096 in Q2.
  destruct (N.leb_spec c 0xFFFF) as [M2|M2].
  { cbn [of_bytes append]. unfold decode_one, rd. cbn [String.get sdrop].
    assert (c / 4096 < 16) by (apply N.div_lt_upper_bound; lia).
    rewrite !byte_chr by lia.
    destruct (N.ltb_spec (224 + c / 4096) 0x80); [lia|].
    destruct (N.ltb_spec (224 + c / 4096) 0xE0); [lia|].
    destruct (N.ltb_spec (224 + c / 4096) 0xF0); [|lia].
    cbn [String.length  Nat.ltb Nat.leb].
    rewrite land_0F, !land_3F.
    replace ((224 + c/4096) mod 16) with (c/4096).
    2:{ rewrite N.add_comm. change 224 with (14 * 16). rewrite N.mod_add by lia. now rewrite N.mod_small. }
    rewrite !TR by assumption.
    rewrite shl6, shl12, <- N.lor_assoc, lor2 by assumption. rewrite lor12 by lia.
    replace (c / 4096 * 4096 + ((c / 64) mod 64 * 64 + c mod 64)) with c by lia.
    dlt; reflexivity. }
  assert (Q3 := N.div_mod (c/4096) 64 ltac:(lia)). assert (B3 := ml (c/4096) 64 ltac:(lia)).
  rewrite (N.div_div c 4096 64) in Q3 by lia. change (4096*64) with 262144 in Q3.
  { cbn [of_bytes append]. unfold decode_one, rd. cbn [String.get sdrop].
    assert (c / 262144 < 8) by (apply N.div_lt_upper_bound; lia).
    rewrite !byte_chr by lia.
    destruct (N.ltb_spec (240 + c / 262144) 0x80); [lia|].
    destruct (N.ltb_spec (240 + c / 262144) 0xE0); [lia|].
    destruct (N.ltb_spec (240 + c / 262144) 0xF0); [lia|].
    cbn [String.length  Nat.ltb Nat.leb].
    rewrite land_07, !land_3F.
    replace ((240 + c/262144) mod 8) with (c/262144).
    2:{ rewrite N.add_comm. change 240 with (30 * 8). rewrite N.mod_add by lia. now rewrite N.mod_small. }
    rewrite !TR by assumption.
    rewrite shl6, shl12, shl18, <- !N.lor_assoc, lor2 by assumption. rewrite lor12 by lia. rewrite lor18 by lia.
    replace (c / 262144 * 262144 + ((c / 4096) mod 64 * 4096 + ((c / 64) mod 64 * 64 + c mod 64)))
      with c by lia.
    dlt; reflexivity. }
Qed.

(** *** totality: never undefined, progress, scalar results *)
Lemma slen_cons : forall a s, String.length (String a s) = S (String.length s).
Proof. reflexivity. Qed.

Lemma decode_one_total : forall s, s <> EmptyString ->
  exists c r pre, decode_one s = Some (c, r) /\ scalar c /\ s = (pre +++ r)%string /\ pre <> EmptyString.
Proof.
  intros s Hs. destruct s as [|a s]; [congruence|]. clear Hs.
  assert (SR : scalar replacement) by reflexivity.
  unfold decode_one, rd. cbn [String.get].
  assert (Ha := byte_lt a).
  destruct (N.ltb_spec (byte a) 0x80) as [L|L].
  { cbn [sdrop]. exists (byte a), s, (str1 a). repeat split; [|discriminate].
    apply scalar_spec. lia. }
  destruct (N.ltb_spec (byte a) 0xE0) as [L2|L2].
  { destruct s as [|b s].
    { cbn. exists replacement, EmptyString, (str1 a). repeat split; discriminate. }
    cbn [String.get sdrop String.length Nat.ltb Nat.leb].
    rewrite land_1F, land_3F, shl6.
    assert (H1 := ml (byte a) 32 ltac:(lia)). assert (H2 := ml (byte b) 64 ltac:(lia)).
    rewrite lor2 by assumption.
    eexists _, s, (String a (str1 b)). repeat split; [|discriminate].
    destruct (N.ltb_spec (byte a mod 32 * 64 + byte b mod 64) 0x80); [exact SR|apply scalar_spec; lia]. }
  destruct (N.ltb_spec (byte a) 0xF0) as [L3|L3].
  { destruct s as [|b [|d s]].
    1: { cbn. exists replacement, EmptyString, (str1 a). repeat split; discriminate. }
    1: { cbn. exists replacement, EmptyString, (String a (str1 b)). repeat split; discriminate. }
    cbn [String.get sdrop String.length Nat.ltb Nat.leb].
    rewrite land_0F, !land_3F, shl6, shl12, <- N.lor_assoc.
    assert (H1 := ml (byte a) 16 ltac:(lia)). assert (H2 := ml (byte b) 64 ltac:(lia)).
    assert (H3 := ml (byte d) 64 ltac:(lia)).
    rewrite lor2 by assumption. rewrite lor12 by lia.
    eexists _, s, (String a (String b (str1 d))). repeat split; [|discriminate].
    match goal with |- context[0xD800 <=? ?x] => set (r := x) in *; assert (r < 65536) by (subst r; lia) end.
    destruct (N.leb_spec 0xD800 r), (N.leb_spec r 0xDFFF); cbn [andb]; try exact SR;
    destruct (N.ltb_spec r 0x800); try exact SR; apply scalar_spec; lia. }
  { destruct s as [|b [|d [|e s]]].
    1: { cbn. exists replacement, EmptyString, (str1 a). repeat split; discriminate. }
    1: { cbn. exists replacement, EmptyString, (String a (str1 b)). repeat split; discriminate. }
    1: { cbn. exists replacement, EmptyString, (String a (String b (str1 d))). repeat split; discriminate. }
    cbn [String.get sdrop String.length Nat.ltb Nat.leb].
    eexists _, s, (String a (String b (String d (str1 e)))). repeat split; [|discriminate].
    match goal with |- context[N.ltb ?x 0x10000] => set (r := x) end.
    destruct (N.ltb_spec r 0x10000); [exact SR|].
    destruct (N.ltb_spec 0x10FFFF r); [exact SR|]. apply scalar_spec; lia. }
Qed.

Lemma length_pos : forall s, s <> EmptyString -> (0 < String.length s)%nat.
Proof. intros [|a s] H; [congruence|cbn; lia]. Qed.

Lemma scalar_not_invalid : forall c, scalar c -> (c =? invalid) = false.
Proof. intros c H. apply scalar_spec in H. apply N.eqb_neq. unfold invalid. lia. Qed.

(** relational description of the loop *)
Lemma iterate_scalar : forall fuel c s, scalar c ->
  iterate (S fuel) (c, s) =
  match codepoints_fuel fuel s with Some l => Some (c :: l) | None => None end.
Proof.
  intros fuel c s H. cbn [iterate]. rewrite (scalar_not_invalid _ H). cbn [andb].
  unfold codepoints_fuel. destruct (decode_one s); reflexivity.
Qed.

Lemma codepoints_fuel_nil : forall f, codepoints_fuel f EmptyString = Some [].
Proof. intros [|f]; reflexivity. Qed.

Lemma codepoints_step : forall s, s <> EmptyString -> forall fuel, exists c r pre,
  scalar c /\ s = (pre +++ r)%string /\ pre <> EmptyString /\ decode_one s = Some (c, r) /\
  codepoints_fuel (S fuel) s =
  match codepoints_fuel fuel r with Some l => Some (c :: l) | None => None end.
Proof.
  intros s Hs fuel. destruct (decode_one_total s Hs) as (c & r & pre & D & S & E & P).
  exists c, r, pre. repeat split; auto. unfold codepoints_fuel at 1. rewrite D. now apply iterate_scalar.
Qed.

Lemma codepoints_fuel_total : forall n s fuel, (String.length s <= n)%nat -> (String.length s <= fuel)%nat ->
  exists l, codepoints_fuel fuel s = Some l /\ Forall scalar l /\ (List.length l <= String.length s)%nat.
Proof.
  induction n as [|n IH]; intros s fuel Hn Hf.
  { destruct s; cbn in Hn; [|lia]. rewrite codepoints_fuel_nil. exists []. repeat split; auto. }
  destruct s as [|a s']. { rewrite codepoints_fuel_nil. exists []. repeat split; auto. }
  destruct fuel as [|fuel]; [cbn in Hf; lia|].
  destruct (codepoints_step (String a s') ltac:(congruence) fuel) as (c & r & pre & S & E & P & D & St).
  rewrite St. rewrite E in Hn, Hf. rewrite length_append in Hn, Hf. apply length_pos in P.
  destruct (IH r fuel ltac:(lia) ltac:(lia)) as (l & El & Fl & Ll). rewrite El.
  exists (c :: l). rewrite E, length_append. repeat split; [now constructor|cbn [List.length]; lia].
Qed.

Lemma codepoints_fuel_utf8s : forall cs fuel, Forall scalar cs -> (List.length cs <= fuel)%nat ->
  codepoints_fuel fuel (utf8s cs) = Some cs.
Proof.
  induction cs as [|c cs IH]; intros fuel F Hf.
  { apply codepoints_fuel_nil. }
  destruct fuel as [|fuel]; [cbn in Hf; lia|].
  inversion F as [|? ? Hc Hcs]; subst.
  unfold codepoints_fuel. unfold utf8s. cbn [map sconcat].
  rewrite decode_utf8 by assumption. rewrite iterate_scalar by assumption.
  fold (utf8s cs). rewrite IH; [reflexivity|assumption|cbn in Hf; lia].
Qed.

Lemma utf8_nonempty : forall c, utf8 c <> EmptyString.
Proof.
  intros c. unfold utf8, utf8_bytes.
  destruct (c <=? 0x7F); [cbn; congruence|]. destruct (c <=? 0x7FF); [cbn; congruence|].
  destruct (c <=? 0xFFFF); cbn; congruence.
Qed.

Lemma utf8s_length : forall cs, (List.length cs <= String.length (utf8s cs))%nat.
Proof.
  induction cs as [|c cs IH]; cbn; [lia|]. rewrite length_append.
  assert (H := length_pos _ (utf8_nonempty c)). unfold utf8s in IH. lia.
Qed.

Lemma codepoints_utf8s : forall cs, Forall scalar cs -> codepoints (utf8s cs) = Some cs.
Proof. intros cs F. apply codepoints_fuel_utf8s; [exact F|apply utf8s_length]. Qed.

Lemma utf8s_inj : forall a b, Forall scalar a -> Forall scalar b -> utf8s a = utf8s b -> a = b.
Proof.
  intros a b Ha Hb E. assert (Some a = Some b); [|congruence].
  rewrite <- (codepoints_utf8s a Ha), <- (codepoints_utf8s b Hb), E. reflexivity.
Qed.

Lemma utf8s_app : forall a b, utf8s (a ++ b) = (utf8s a +++ utf8s b)%string.
Proof. intros a b. unfold utf8s. now rewrite map_app, sconcat_app. Qed.

Lemma wf_utf8_app : forall a b, wf_utf8 a -> wf_utf8 b -> wf_utf8 (a +++ b).
Proof.
  intros a b (ca & Fa & ->) (cb & Fb & ->). exists (ca ++ cb). split; [now apply Forall_app|].
  now rewrite utf8s_app.
Qed.

(** *** malformed input *)
Lemma cont_eq : forall b, contb b = true -> byte b = 128 + byte b mod 64 /\ byte b mod 64 < 64.
Proof.
  intros b H. apply in_range_spec in H. split; [|apply ml; lia].
  replace (byte b) with (byte b - 128 + 2 * 64) at 2 by lia.
  rewrite N.mod_add by lia. rewrite N.mod_small by lia. lia.
Qed.

Lemma lead_eq : forall k m n, n < m -> (k * m + n) mod m = n.
Proof. intros k m n H. rewrite N.add_comm, N.mod_add by lia. now apply N.mod_small. Qed.

Lemma chr_eq : forall a n, byte a = n -> chr n = a.
Proof. intros a n <-. apply chr_byte. Qed.

Lemma divadd : forall k a b, b < k -> (a * k + b) / k = a.
Proof. intros k a b H. rewrite N.add_comm, N.div_add by lia. rewrite N.div_small by lia. lia. Qed.
Lemma modadd : forall k a b, b < k -> (a * k + b) mod k = b.
Proof. intros k a b H. now apply lead_eq. Qed.

Lemma shaped_decode : forall s rest, shaped s -> exists c,
  decode_one (s +++ rest) = Some (c, rest) /\ (s = utf8 c \/ (c = 0xFFFD /\ ~ wf_utf8 s)).
Proof.
  assert (NW : forall s c, decode_one s = Some (replacement, EmptyString) -> s <> utf8 c -> c = replacement -> ~ wf_utf8 s).
  { intros s c D Ns -> (cs & F & E). subst s.
    destruct cs as [|x cs]; [discriminate D|]. inversion F as [|? ? Hx Hcs]; subst.
    assert (D2 := decode_utf8 x (utf8s cs) Hx). change (utf8s (x :: cs)) with (utf8 x +++ utf8s cs)%string in D.
    rewrite D2 in D. injection D as -> E2.
    destruct cs as [|y cs]; [apply Ns; reflexivity|].
    assert (H := length_pos _ (utf8_nonempty y)). unfold utf8s in E2. cbn [map sconcat] in E2.
    destruct (utf8 y); [cbn in H; lia|discriminate E2]. }
  intros s rest H.
  assert (G : forall s c, decode_one s = Some (c, EmptyString) -> decode_one (s +++ rest) = Some (c, rest) ->
    (c <> replacement -> s = utf8 c) -> exists c,
    decode_one (s +++ rest) = Some (c, rest) /\ (s = utf8 c \/ (c = 0xFFFD /\ ~ wf_utf8 s))).
  { clear s H. intros s c D0 D E. exists c. split; [exact D|].
    destruct (N.eq_dec c replacement) as [->|Ne]; [|left; now apply E].
    destruct (string_dec s (utf8 replacement)) as [->|Ns]; [now left|right].
    split; [reflexivity|]. exact (NW s _ D0 Ns eq_refl). }
  destruct s as [|a [|b [|d [|e [|]]]]]; cbn [shaped] in H; try contradiction.
  - apply G with (byte a).
    + unfold decode_one, rd. cbn. destruct (N.ltb_spec (byte a) 0x80); [reflexivity|lia].
    + unfold decode_one, rd. cbn. destruct (N.ltb_spec (byte a) 0x80); [reflexivity|lia].
    + intros _. unfold utf8, utf8_bytes. destruct (N.leb_spec (byte a) 0x7F); [|lia]. cbn. now rewrite chr_byte.
  - destruct H as [Ha Hb]. apply in_range_spec in Ha. apply cont_eq in Hb as [Eb Lb].
    assert (Ea : byte a mod 32 = byte a - 192).
    { replace (byte a) with (6 * 32 + (byte a - 192)) at 1 by lia. apply lead_eq. lia. }
    set (v := (byte a - 192) * 64 + byte b mod 64).
    assert (D : forall r, decode_one (String a (String b r)) = Some (if v <? 0x80 then replacement else v, r)).
    { intros r. unfold decode_one, rd. cbn [String.get sdrop].
      destruct (N.ltb_spec (byte a) 0x80); [lia|]. destruct (N.ltb_spec (byte a) 0xE0); [|lia].
      cbn [String.length Nat.ltb Nat.leb]. rewrite land_1F, land_3F, shl6, lor2 by assumption.
      rewrite Ea. reflexivity. }
    eapply G; [apply D|apply D|]. intros Hne. destruct (N.ltb_spec v 0x80); [congruence|].
    unfold utf8, utf8_bytes. destruct (N.leb_spec v 0x7F); [lia|]. destruct (N.leb_spec v 0x7FF); [|unfold v in *; lia].
    unfold v. rewrite divadd, modadd by assumption. cbn [of_bytes].
    rewrite (chr_eq a) by lia. rewrite (chr_eq b) by lia. reflexivity.
  - destruct H as (Ha & Hb & Hd). apply in_range_spec in Ha. apply cont_eq in Hb as [Eb Lb].
    apply cont_eq in Hd as [Ed Ld].
    assert (Ea : byte a mod 16 = byte a - 224).
    { replace (byte a) with (14 * 16 + (byte a - 224)) at 1 by lia. apply lead_eq. lia. }
    set (v := (byte a - 224) * 4096 + (byte b mod 64 * 64 + byte d mod 64)).
    assert (D : forall r, decode_one (String a (String b (String d r))) =
       Some (if (0xD800 <=? v) && (v <=? 0xDFFF) then replacement else if v <? 0x800 then replacement else v, r)).
    { intros r. unfold decode_one, rd. cbn [String.get sdrop].
      destruct (N.ltb_spec (byte a) 0x80); [lia|]. destruct (N.ltb_spec (byte a) 0xE0); [lia|].
      destruct (N.ltb_spec (byte a) 0xF0); [|lia].
      cbn [String.length Nat.ltb Nat.leb]. rewrite land_0F, !land_3F, shl6, shl12, <- N.lor_assoc, lor2 by assumption.
      rewrite lor12 by lia. rewrite Ea. reflexivity. }
    eapply G; [apply D|apply D|]. intros Hne.
    destruct ((0xD800 <=? v) && (v <=? 0xDFFF)); [congruence|].
    destruct (N.ltb_spec v 0x800); [congruence|].
    unfold utf8, utf8_bytes. destruct (N.leb_spec v 0x7F); [lia|]. destruct (N.leb_spec v 0x7FF); [lia|].
    destruct (N.leb_spec v 0xFFFF); [|unfold v in *; lia].
    replace (v / 4096) with (byte a - 224) by (unfold v; rewrite divadd by lia; reflexivity).
    assert (Ev : v = ((byte a - 224) * 64 + byte b mod 64) * 64 + byte d mod 64) by (unfold v; lia).
    replace (v / 64) with ((byte a - 224) * 64 + byte b mod 64) by (rewrite Ev, divadd by assumption; reflexivity).
    replace (v mod 64) with (byte d mod 64) by (rewrite Ev, modadd by assumption; reflexivity).
    rewrite modadd by assumption. cbn [of_bytes].
    rewrite (chr_eq a) by lia. rewrite (chr_eq b) by lia. rewrite (chr_eq d) by lia. reflexivity.
  - destruct H as (Ha & Hb & Hd & He). apply in_range_spec in Ha. apply cont_eq in Hb as [Eb Lb].
    apply cont_eq in Hd as [Ed Ld]. apply cont_eq in He as [Ee Le].
    assert (Ea : byte a mod 8 = byte a - 240).
    { replace (byte a) with (30 * 8 + (byte a - 240)) at 1 by lia. apply lead_eq. lia. }
    set (v := (byte a - 240) * 262144 + (byte b mod 64 * 4096 + (byte d mod 64 * 64 + byte e mod 64))).
    assert (D : forall r, decode_one (String a (String b (String d (String e r)))) =
       Some (if v <? 0x10000 then replacement else if 0x10FFFF <? v then replacement else v, r)).
    { intros r. unfold decode_one, rd. cbn [String.get sdrop].
      destruct (N.ltb_spec (byte a) 0x80); [lia|]. destruct (N.ltb_spec (byte a) 0xE0); [lia|].
      destruct (N.ltb_spec (byte a) 0xF0); [lia|].
      cbn [String.length Nat.ltb Nat.leb]. rewrite land_07, !land_3F, shl6, shl12, shl18, <- !N.lor_assoc, lor2 by assumption.
      rewrite lor12 by lia. rewrite lor18 by lia. rewrite Ea. reflexivity. }
    eapply G; [apply D|apply D|]. intros Hne.
    destruct (N.ltb_spec v 0x10000); [congruence|].
    destruct (N.ltb_spec 0x10FFFF v); [congruence|].
    unfold utf8, utf8_bytes. destruct (N.leb_spec v 0x7F); [lia|]. destruct (N.leb_spec v 0x7FF); [lia|].
    destruct (N.leb_spec v 0xFFFF); [lia|].
    replace (v / 262144) with (byte a - 240) by (unfold v; rewrite divadd by lia; reflexivity).
    assert (Ev2 : v = ((byte a - 240) * 64 + byte b mod 64) * 4096 + (byte d mod 64 * 64 + byte e mod 64)) by (unfold v; lia).
    assert (Ev : v = (((byte a - 240) * 64 + byte b mod 64) * 64 + byte d mod 64) * 64 + byte e mod 64) by (unfold v; lia).
    replace (v / 4096) with ((byte a - 240) * 64 + byte b mod 64) by (rewrite Ev2, divadd by lia; reflexivity).
    replace (v / 64) with (((byte a - 240) * 64 + byte b mod 64) * 64 + byte d mod 64) by (rewrite Ev, divadd by assumption; reflexivity).
    replace (v mod 64) with (byte e mod 64) by (rewrite Ev, modadd by assumption; reflexivity).
    rewrite !modadd by assumption. cbn [of_bytes].
    rewrite (chr_eq a) by lia. rewrite (chr_eq b) by lia. rewrite (chr_eq d) by lia. rewrite (chr_eq e) by lia. reflexivity.
Qed.

(** truncated final sequence *)
Lemma truncated_decode : forall a s,
  (in_range 0xC0 0xDF (byte a) = true /\ String.length s = 0%nat) \/
  (in_range 0xE0 0xEF (byte a) = true /\ (String.length s < 2)%nat) \/
  (in_range 0xF0 0xFF (byte a) = true /\ (String.length s < 3)%nat) ->
  decode_one (String a s) = Some (0xFFFD, EmptyString).
Proof.
  intros a s H. unfold decode_one, rd. cbn [String.get].
  rewrite !in_range_spec in H.
  destruct (N.ltb_spec (byte a) 0x80); [lia|].
  destruct (N.ltb_spec (byte a) 0xE0).
  { destruct (Nat.ltb_spec (String.length (String a s)) 2); [reflexivity|]. cbn [String.length] in *. lia. }
  destruct (N.ltb_spec (byte a) 0xF0).
  { destruct (Nat.ltb_spec (String.length (String a s)) 3); [reflexivity|]. cbn [String.length] in *. lia. }
  destruct (Nat.ltb_spec (String.length (String a s)) 4); [reflexivity|]. cbn [String.length] in *. lia.
Qed.
