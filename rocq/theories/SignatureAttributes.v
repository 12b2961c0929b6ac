From Verif Require Import Base ByteBuffer StringUtility StringSpec StringProofs Signature SignatureSpec SignatureProofs.
Local Open Scope string_scope.
Local Open Scope nat_scope.

Definition a_close (z : ascii) : Prop := z = "]"%char \/ z = ")"%char.
Lemma brackets_close : forall a b, brackets a b -> a_close b.
Proof. intros a b [[_ ->]|[_ ->]]; [now left|now right]. Qed.
Lemma piece_nil : forall esc p r, ~ piece esc "" p r.
Proof. intros esc p r H. remember "" as t eqn:E. destruct H; discriminate. Qed.
Lemma enclosed_split : forall z s p r, enclosed z s p r -> s = p +++ r.
Proof.
  intros z s p r H. induction H as [z|z r|z c s p r p' r' _ _ _ P _ IH|z a b s p r p' r' _ _ IH1 _ IH2]; auto.
  - apply piece_split in P as [E _]. now rewrite E, IH, append_assoc.
  - cbn [append]. now rewrite IH1, IH2, append_assoc.
Qed.
Lemma match_loop_ok : forall z s p r, enclosed z s p r -> a_close z -> forall fuel d ret, String.length s < fuel ->
  match_loop fuel (d +++ s) (String.length d) ret z false true = Val (ret +++ p, r).
Proof.
  intros z s p r H. induction H as [z|z r|z c s p r p' r' N1 N2 N3 P _ IH|z a b s p r p' r' B E1 IH1 _ IH2]; intros Z fuel d ret L;
    (destruct fuel as [|fuel]; [lia|]); cbn [match_loop]; rewrite length_split.
  - rewrite !append_nil_r, Nat.eqb_refl. reflexivity.
  - rewrite (at_char d z r _ eq_refl). cbn [andthen]. destruct Z as [-> | ->]; cbn [Ascii.eqb Bool.eqb EscapeCharacter];
      rewrite (snoc_app d _ r), from_app by (now rewrite snoc_length); reflexivity.
  - rewrite (at_char d c s _ eq_refl). cbn [andthen]. cbn [String.length] in L. assert (Lr := piece_shorter _ _ _ _ _ P).
    destruct (piece_cases _ _ _ _ _ P) as [(I & -> & ->)|[(I & -> & -> & R)|(I & Lp & E & R)]].
    + destruct (Ascii.eqb_spec c EscapeCharacter) as [->|_]; [exfalso; apply I; now left|].
      destruct (Ascii.eqb_spec c "[") as [?|_]; [congruence|]. destruct (Ascii.eqb_spec c "(") as [?|_]; [congruence|].
      destruct (Ascii.eqb_spec c z) as [?|_]; [congruence|]. cbn [andb].
      rewrite (snoc_app d c s), <- (snoc_length d c), <- (append_assoc ret (String c "") p'). apply IH; [assumption|lia].
    + destruct (tick_esc_nul _ I) as [-> NZ]. change (Ascii.eqb backtick EscapeCharacter) with true. cbn iota.
      rewrite (R NZ d). cbn [andthen fst snd String.eqb]. rewrite (at_char d backtick s _ eq_refl). cbn [andthen].
      rewrite (snoc_app d backtick s), <- (snoc_length d backtick), <- (append_assoc ret (String backtick "") p'). apply IH; [assumption|lia].
    + destruct (tick_esc_nul _ I) as [-> NZ]. change (Ascii.eqb backtick EscapeCharacter) with true. cbn iota.
      rewrite (R NZ d). cbn [andthen fst snd]. destruct (String.eqb_spec p "") as [->|_]; [cbn in Lp; lia|].
      rewrite <- (append_assoc ret p p'). apply (IH Z fuel "" (ret +++ p)). lia.
  - rewrite (at_char d a s _ eq_refl). cbn [andthen]. cbn [String.length] in L.
    assert (Ls := f_equal String.length (enclosed_split _ _ _ _ E1)). rewrite length_append in Ls.
    assert (X : andthen (match_loop fuel (d +++ String a s) (S (String.length d)) (String a "") b false true)
      (fun r => match_loop fuel (snd r) 0 (ret +++ fst r) z false true) = Val (ret +++ String a p +++ p', r')).
    { rewrite (snoc_app d a s), <- (snoc_length d a), (IH1 (brackets_close _ _ B)) by lia. cbn [andthen fst snd].
      assert (Y := IH2 Z fuel "" (ret +++ String a p) ltac:(lia)). cbn [String.length append] in Y.
      change (String a "" +++ p) with (String a p). rewrite Y. now rewrite append_assoc. }
    destruct B as [[-> ->]|[-> ->]]; exact X.
Qed.
Lemma enclosed_total : forall s z, exists p r, enclosed z s p r.
Proof.
  intros s. remember (String.length s) as n eqn:E. revert s E.
  induction n as [n IH] using (well_founded_induction lt_wf). intros [|c s] -> z; [exists "", ""; constructor|].
  destruct (Ascii.eqb_spec c z) as [->|N]; [exists (String z ""), s; constructor|].
  assert (Nest : forall b, brackets c b -> exists p r, enclosed z (String c s) p r).
  { intros b B. destruct (IH (String.length s) ltac:(cbn; lia) s eq_refl b) as (p & r & E1).
    assert (Ls := f_equal String.length (enclosed_split _ _ _ _ E1)). rewrite length_append in Ls.
    destruct (IH (String.length r) ltac:(cbn; lia) r eq_refl z) as (p' & r' & E2).
    exists (String c p +++ p'), r'. eapply enclosed_nested; eauto. }
  destruct (Ascii.eqb_spec c "[") as [->|N1]; [apply (Nest "]"%char); now left|].
  destruct (Ascii.eqb_spec c "(") as [->|N2]; [apply (Nest ")"%char); now right|]. clear Nest.
  destruct (piece_total [backtick] c s) as (p & r & P). assert (L := piece_shorter _ _ _ _ _ P).
  destruct (IH (String.length r) ltac:(cbn; lia) r eq_refl z) as (p' & r' & T). exists (p +++ p'), r'. eapply enclosed_piece; eauto.
Qed.
Lemma ends_app : forall q p p' c, p +++ p' = q +++ String c "" -> p' = "" \/ exists q', p' = q' +++ String c "".
Proof.
  intros q p [|x p'] c H; [now left|right]. destruct (last_char x p') as (q' & z & E). rewrite E in *.
  exists q'. rewrite <- append_assoc in H. apply snoc_inj in H as [_ ->]. reflexivity.
Qed.
Lemma enclosed_nothing : forall z s r, enclosed z s "" r -> r = "".
Proof.
  intros z s r H. remember "" as p eqn:E. destruct H as [z|z r|z c s p r p' r' _ _ _ P _|]; try discriminate; auto.
  apply piece_split in P as [_ N]. destruct p; [congruence|discriminate].
Qed.
Lemma enclosed_comma : forall z s p r, enclosed z s p r -> a_close z -> forall q, p = q +++ "," -> r = "".
Proof.
  intros z s p r H. induction H as [z|z r|z c s p r p' r' _ _ _ P E IH|z a b s p r p' r' _ _ _ E IH]; intros Z q Q; auto.
  - change (String z "") with ("" +++ String z "") in Q. apply snoc_inj in Q as [_ ->]. destruct Z; discriminate.
  - destruct (ends_app _ _ _ _ Q) as [->|(q' & Q')]; [now apply enclosed_nothing in E|now apply (IH Z q')].
  - destruct (ends_app _ _ _ _ Q) as [->|(q' & Q')]; [now apply enclosed_nothing in E|now apply (IH Z q')].
Qed.

(** an attribute *)
Lemma item_split : forall h s p d r, item h s p d r -> forall c, d = Some c -> s = p +++ String c r.
Proof.
  intros h s p d r H. induction H as [h|h r|h r|h c s r p d r' N P _ IH|h s q r p d r' P L _ IH|h a b s q r p d r' B E _ IH]; intros x D;
    try discriminate; try (injection D as <-; reflexivity).
  - apply piece_split in P as [E _]. now rewrite E, (IH _ D).
  - destruct s as [|c s]; [now apply piece_nil in P|]. apply piece_split in P as [E _]. now rewrite E, (IH _ D), append_assoc.
  - apply enclosed_split in E. cbn [append]. now rewrite E, (IH _ D), append_assoc.
Qed.
Lemma item_nothing : forall h s d r, item h s "" d r -> (s = "" /\ d = None /\ r = h) \/ d = Some ")"%char \/ d = Some ","%char.
Proof.
  intros h s d r H. remember "" as p eqn:E. destruct H as [h|h r|h r|h c s r p d r' N P _|h s q r p d r' P L _|h a b s q r p d r' B E' _]; auto.
  - discriminate. - destruct q; [cbn in L; lia|discriminate]. - discriminate.
Qed.
Lemma quoted_end : forall c s q r, piece [backtick] (String c s) q r -> 1 < String.length q -> exists q', q = q' +++ String backtick "".
Proof.
  intros c s q r P L. destruct P as [x r N|x n body rest I A Lm|x n after I A O]; try (cbn in L; lia).
  destruct (tick_esc_nul _ I) as [-> _]. exists (run_of (S n) backtick +++ body +++ run_of n backtick). rewrite !append_assoc. do 2 f_equal.
  replace (S n) with (n + 1) by lia. rewrite run_add. reflexivity.
Qed.
Lemma item_ends : forall h s p d r, item h s p d r -> forall q, p = q +++ "," -> d = None /\ r = "".
Proof.
  intros h s p d r H. induction H as [h|h r|h r|h c s r p d r' N P _ IH|h s q r p d r' P L I IH|h a b s q r p d r' B E I IH]; intros x X;
    try (destruct x; discriminate).
  - destruct x as [|y x]; cbn in X; injection X as -> X; [exfalso; apply N; cbn; tauto|]. now apply (IH x).
  - destruct (ends_app _ _ _ _ X) as [->|(q' & Q')]; [|now apply (IH q')]. rewrite append_nil_r in X.
    destruct s as [|c s]; [now apply piece_nil in P|]. destruct (quoted_end _ _ _ _ P L) as (q' & ->). apply snoc_inj in X as [_ X]. discriminate.
  - destruct (ends_app _ _ _ _ X) as [->|(q' & Q')]; [|now apply (IH q')]. rewrite append_nil_r in X.
    destruct x as [|y x]; cbn in X; injection X as -> X; [destruct B as [[? _]|[? _]]; discriminate|].
    rewrite (enclosed_comma _ _ _ _ E (brackets_close _ _ B) x X) in I. clear IH.
    destruct (item_nothing _ _ _ _ I) as [(_ & -> & ->)|[D|D]]; [now split|..]; apply (item_split _ _ _ _ _ I) in D; discriminate.
Qed.
Lemma item_of_nil : forall h p d r, item h "" p d r -> p = "".
Proof.
  intros h p d r H. remember "" as s eqn:E. revert E. destruct H; intros E; try discriminate; auto. subst s. now apply piece_nil in H.
Qed.
Definition with_comma (d : option ascii) : string := match d with Some c => if Ascii.eqb c "," then "," else "" | None => "" end.
Lemma item_loop : forall h s p d r, item h s p d r -> forall fuel ret, String.length s < fuel ->
  match_loop fuel (h +++ s) (String.length h) ret ")" true false = Val (ret +++ p +++ with_comma d, r).
Proof.
  intros h s p d r H. induction H as [h|h r|h r|h c s r p d r' N P _ IH|h s q r p d r' P L _ IH|h a b s q r p d r' B E _ IH]; intros fuel ret F;
    (destruct fuel as [|fuel]; [lia|]); cbn [match_loop]; rewrite length_split.
  - cbn [with_comma]. change ("" +++ "") with "". rewrite !append_nil_r, Nat.eqb_refl. reflexivity.
  - rewrite (at_char h _ r _ eq_refl). cbn [andthen Ascii.eqb Bool.eqb EscapeCharacter].
    rewrite (snoc_app h _ r), from_app by (now rewrite snoc_length). cbn [with_comma]. cbn. now rewrite append_nil_r.
  - rewrite (at_char h _ r _ eq_refl). cbn [andthen Ascii.eqb Bool.eqb EscapeCharacter andb].
    rewrite (snoc_app h _ r), from_app by (now rewrite snoc_length). reflexivity.
  - rewrite (at_char h c s _ eq_refl). cbn [andthen]. cbn [String.length] in F. assert (Lr := piece_shorter _ _ _ _ _ P).
    assert (X : forall d, String c p +++ d = String c "" +++ p +++ d) by reflexivity. rewrite X, <- append_assoc.
    destruct (piece_cases _ _ _ _ _ P) as [(I & _ & ->)|[(I & _ & -> & R)|(I & Lp & _)]].
    + destruct (Ascii.eqb_spec c EscapeCharacter) as [->|_]; [exfalso; apply I; now left|].
      destruct (Ascii.eqb_spec c "[") as [->|_]; [exfalso; apply N; cbn; tauto|]. destruct (Ascii.eqb_spec c "(") as [->|_]; [exfalso; apply N; cbn; tauto|].
      destruct (Ascii.eqb_spec c ")") as [->|_]; [exfalso; apply N; cbn; tauto|]. destruct (Ascii.eqb_spec c ",") as [->|_]; [exfalso; apply N; cbn; tauto|].
      cbn [andb]. rewrite (snoc_app h c s), <- (snoc_length h c). apply IH. lia.
    + destruct (tick_esc_nul _ I) as [-> NZ]. change (Ascii.eqb backtick EscapeCharacter) with true. cbn iota.
      rewrite (R NZ h). cbn [andthen fst snd String.eqb]. rewrite (at_char h backtick s _ eq_refl). cbn [andthen].
      rewrite (snoc_app h backtick s), <- (snoc_length h backtick). apply IH. lia.
    + cbn in Lp. lia.
  - destruct s as [|c s]; [now apply piece_nil in P|].
    rewrite (at_char h c s _ eq_refl). cbn [andthen]. cbn [String.length] in F. assert (Lr := piece_shorter _ _ _ _ _ P).
    destruct (piece_cases _ _ _ _ _ P) as [(I & -> & ->)|[(I & -> & -> & R)|(I & _ & _ & R)]]; try (cbn in L; lia).
    destruct (tick_esc_nul _ I) as [-> NZ]. change (Ascii.eqb backtick EscapeCharacter) with true. cbn iota.
    rewrite (R NZ h). cbn [andthen fst snd]. destruct (String.eqb_spec q "") as [->|_]; [cbn in L; lia|].
    rewrite (append_assoc q p), <- (append_assoc ret q). apply (IH fuel (ret +++ q)). lia.
  - rewrite (at_char h a s _ eq_refl). cbn [andthen]. cbn [String.length] in F.
    assert (Ls := f_equal String.length (enclosed_split _ _ _ _ E)). rewrite length_append in Ls.
    assert (X : andthen (match_loop fuel (h +++ String a s) (S (String.length h)) (String a "") b false true)
      (fun r => match_loop fuel (snd r) 0 (ret +++ fst r) ")" true false) = Val (ret +++ (String a q +++ p) +++ with_comma d, r')).
    { rewrite (snoc_app h a s), <- (snoc_length h a), (match_loop_ok _ _ _ _ E (brackets_close _ _ B)) by lia. cbn [andthen fst snd].
      assert (Y := IH fuel (ret +++ String a q) ltac:(lia)). cbn [String.length] in Y. change ("" +++ r) with r in Y.
      change (String a "" +++ q) with (String a q). rewrite Y. now rewrite !append_assoc. }
    destruct B as [[-> ->]|[-> ->]]; exact X.
Qed.
Lemma item_total : forall s h, exists p d r, item h s p d r.
Proof.
  intros s. remember (String.length s) as n eqn:E. revert s E.
  induction n as [n IH] using (well_founded_induction lt_wf). intros [|c s] -> h; [exists "", None, h; constructor|].
  assert (Nest : forall b, brackets c b -> exists p d r, item h (String c s) p d r).
  { intros b B. destruct (enclosed_total s b) as (q & r & E1).
    assert (Ls := f_equal String.length (enclosed_split _ _ _ _ E1)). rewrite length_append in Ls.
    destruct (IH (String.length r) ltac:(cbn; lia) r eq_refl "") as (p & d & r' & E2).
    exists (String c q +++ p), d, r'. eapply item_nested; eauto. }
  destruct (Ascii.eqb_spec c "[") as [->|N1]; [apply (Nest "]"%char); now left|].
  destruct (Ascii.eqb_spec c "(") as [->|N2]; [apply (Nest ")"%char); now right|]. clear Nest.
  destruct (Ascii.eqb_spec c ")") as [->|N3]; [do 3 eexists; constructor|].
  destruct (Ascii.eqb_spec c ",") as [->|N4]; [do 3 eexists; constructor|].
  destruct (piece_total [backtick] c s) as (q & r & P). assert (L := piece_shorter _ _ _ _ _ P).
  destruct (le_lt_dec (String.length q) 1) as [Lq|Lq].
  - destruct (IH (String.length r) ltac:(cbn; lia) r eq_refl (h +++ String c "")) as (p & d & r' & I). exists (String c p), d, r'.
    apply piece_split in P as P'. destruct P' as [E N]. destruct q as [|x [|y q]]; cbn in *; try congruence; try lia. injection E as <- ->.
    eapply item_char; eauto. intros [?|[?|[?|[?|[]]]]]; congruence.
  - destruct (IH (String.length r) ltac:(cbn; lia) r eq_refl "") as (p & d & r' & I). exists (q +++ p), d, r'. eapply item_literal; eauto.
Qed.

(** the list *)
Lemma kept_add : forall (l : list string) a, (if String.eqb a "" then l else (l ++ [a])%list) = (l ++ kept a)%list.
Proof. intros l [|c a]; cbn; [now rewrite app_nil_r|reflexivity]. Qed.
Lemma last_is : forall c p, (exists q, String c p = q +++ ",") \/ (forall q, String c p <> q +++ ",").
Proof.
  intros c p. destruct (last_char c p) as (q & z & E). destruct (Ascii.eqb_spec z ",") as [->|N]; [left; now exists q|].
  right. intros q' E'. rewrite E in E'. now apply snoc_inj in E' as [_ ?].
Qed.
Lemma brackets_item : forall s p d r, item "(" s p d r -> forall fuel, String.length s < fuel ->
  match_brackets fuel (String "(" s) 0 ")" true false = Val (p +++ with_comma d, r).
Proof. intros s p d r H fuel L. unfold match_brackets. cbn [andthen]. exact (item_loop _ _ _ _ _ H fuel "" L). Qed.
Lemma attributes_loop_ok : forall s o, attributed s o -> forall n fuel l, String.length s < n -> String.length s < fuel ->
  attributes_loop n fuel (String "(" s) l = match o with Some (l', r) => Val ((l ++ l')%list, r) | None => Wild end.
Proof.
  intros s o H. induction H as [s p d r a I D N Q T|s p r a o I T _ IH|s d r I D|s p r I]; intros n fuel l Ln Lf;
    (destruct n as [|n]; [lia|]); cbn [attributes_loop]; rewrite (brackets_item _ _ _ _ I fuel Lf); cbn [andthen].
  - replace (with_comma d) with "" by (destruct d as [c|]; [cbn; destruct (Ascii.eqb_spec c ","); congruence|reflexivity]).
    rewrite append_nil_r. destruct p as [|c p]; [congruence|]. destruct (last_char c p) as (q & z & E). rewrite E in *.
    rewrite last_not_zero, at_last. cbn [andthen]. destruct (Ascii.eqb_spec z ",") as [->|_]; [now destruct (Q q)|]. cbn [negb].
    now rewrite kept_add, (trims_trim _ _ T).
  - change (with_comma (Some ","%char)) with (String "," ""). rewrite last_not_zero, at_last. cbn [andthen Ascii.eqb Bool.eqb negb].
    rewrite snoc_length, kept_add. replace (S (String.length p) - 1) with (String.length p) by lia. rewrite sub_app, (trims_trim _ _ T).
    assert (X := f_equal String.length (item_split _ _ _ _ _ I _ eq_refl)). rewrite length_append in X. cbn in X.
    rewrite IH by lia. destruct o as [[l' r']|]; [now rewrite app_assoc|reflexivity].
  - replace (with_comma d) with "" by (destruct d as [c|]; [cbn; destruct (Ascii.eqb_spec c ","); congruence|reflexivity]). reflexivity.
  - destruct (item_ends _ _ _ _ _ I p eq_refl) as [_ ->]. cbn [with_comma]. rewrite append_nil_r.
    rewrite last_not_zero, at_last. cbn [andthen Ascii.eqb Bool.eqb negb]. destruct n as [|n].
    + exfalso. destruct s as [|c s]; [|cbn in Ln; lia]. apply item_of_nil in I. now destruct p.
    + cbn [attributes_loop]. rewrite (brackets_item "" "" None "(" ltac:(constructor) fuel ltac:(cbn; lia)). reflexivity.
Qed.
Lemma option_eq_dec_ascii : forall d : option ascii, {d = Some ","%char} + {d <> Some ","%char}.
Proof. intros [c|]; [|now right]. destruct (ascii_dec c ","); [left|right]; congruence. Qed.
Lemma attributed_total : forall s, exists o, attributed s o.
Proof.
  intros s. remember (String.length s) as n eqn:E. revert s E.
  induction n as [n IH] using (well_founded_induction lt_wf). intros s ->.
  destruct (item_total s "(") as (p & d & r & I).
  destruct (option_eq_dec_ascii d) as [->|D].
  - assert (X := f_equal String.length (item_split _ _ _ _ _ I _ eq_refl)). rewrite length_append in X. cbn in X.
    destruct (IH (String.length r) ltac:(lia) r eq_refl) as [o O]. eexists. eapply attributed_more; eauto using trim_trims.
  - destruct p as [|c p]; [exists None; eapply attributed_empty; eauto|].
    destruct (last_is c p) as [[q Q]|Q].
    + exists None. destruct (item_ends _ _ _ _ _ I q Q) as [-> ->]. rewrite Q in I. eapply attributed_comma; eauto.
    + eexists. eapply attributed_last; eauto using trim_trims. discriminate.
Qed.
