(** Lemmas for C81: which lines are parameters *)
From Verif Require Import Base StringUtility StringSpec StringProofs HeadersProofs ByteBuffer Markdown MarkdownSpec Regex RegexSpec RegexProofs RegexCaps Keywords KeywordsSpec KeywordsProofs
  Signature SignatureSpec SignatureProofs SignatureAttributes PayloadsText TypeTables SourceMap Mson TypeDefs MembersTree MembersSpec Params ParamsSpec ParamsText.
From Verif Require PayloadsSpec Blueprint.
Local Open Scope string_scope.

(** ** names *)
Definition char_re : re := Set_ false [(48, 57); (65, 90); (97, 122); (95, 95); (46, 46); (45, 45)]%N.
Definition hex_re : re := Set_ false [(65, 70); (97, 102); (48, 57)]%N.
Definition percent_re : re := Cat (Set_ false [(37, 37)]%N) (Cat hex_re hex_re).
Definition body_re : re := Star (Alt char_re percent_re).
Definition tick_opt : re := Alt tick_re Eps.
Definition head_re : re := Cat tick_opt (Cat body_re (Cat tick_opt (Star blank_re))).
Lemma byte_is : forall c n, byte c = n -> c = chr n.
Proof. intros c n <-. symmetry. apply chr_byte. Qed.
Lemma char_set : forall c, in_set false [(48, 57); (65, 90); (97, 122); (95, 95); (46, 46); (45, 45)]%N c = true <-> name_char c.
Proof.
  intros c. rewrite in_set_spec. unfold name_char, between. cbn. split.
  - intros [_ H]. specialize (H eq_refl).
    repeat match goal with Y : Exists _ _ |- _ => inversion Y; subst; clear Y end; cbn [fst snd] in *; auto;
      (right; right; right; match goal with Y : (?n <= byte c <= ?n)%N |- _ => assert (Z : byte c = n) by lia; apply byte_is in Z; rewrite Z; vm_compute; tauto end).
  - intros H. split; [reflexivity|]. intros _. rewrite !Exists_cons. cbn [fst snd]. destruct H as [H|[H|[H|[<-|[<-|[<-|[]]]]]]]; auto; cbn; do 3 right; lia.
Qed.
Lemma hex_set : forall c, in_set false [(65, 70); (97, 102); (48, 57)]%N c = true <-> hex_digit c.
Proof.
  intros c. rewrite in_set_spec. unfold hex_digit, between. cbn. split.
  - intros [_ H]. specialize (H eq_refl). repeat match goal with Y : Exists _ _ |- _ => inversion Y; subst; clear Y end; cbn [fst snd] in *; auto.
  - intros H. split; [reflexivity|]. intros _. rewrite !Exists_cons. cbn [fst snd]. tauto.
Qed.
Lemma percent_lang : forall s, lang percent_re s <-> exists a b, s = String "%" (String a (String b "")) /\ hex_digit a /\ hex_digit b.
Proof.
  intros s. unfold percent_re. split.
  - intros H. apply lang_cat_iff in H as (p & q & -> & A & H). apply lang_cat_iff in H as (u & v & -> & B & C). apply lang_set_iff in A as (c & -> & A), B as (d & -> & B), C as (e & -> & C).
    apply (pick_set ["%"%char]) in A as [<-|[]]. exists d, e. split; [reflexivity|]. now split; apply hex_set.
  - intros (a & b & -> & A & B). apply lang_cat_iff. exists "%", (String a (String b "")). split; [reflexivity|]. split; [apply lang_set_iff; now exists "%"%char|].
    apply lang_cat_iff. exists (String a ""), (String b ""). split; [reflexivity|]. split; apply lang_set_iff; eexists; (split; [reflexivity|now apply hex_set]).
Qed.
Lemma body_lang : forall s, lang body_re s <-> name_text s.
Proof.
  intros s. split.
  - remember (String.length s) as n eqn:E. revert s E. induction n as [n IH] using (well_founded_induction lt_wf). intros [|c s] -> H; [constructor|].
    apply star_cons in H as (p & q & -> & A & B). apply lang_alt_iff in A as [A|A].
    + apply lang_set_iff in A as (d & A & D). injection A as <- ->. apply name_more; [now apply char_set|]. apply (IH (String.length q)); [cbn; lia|reflexivity|exact B].
    + apply percent_lang in A as (a & b & A & Ha & Hb). injection A as -> ->. cbn [append]. apply name_percent; [assumption..|]. apply (IH (String.length q)); [cbn; lia|reflexivity|exact B].
  - intros H. induction H as [|c s C _ IH|a b s A B _ IH]; [constructor| |].
    + change (String c s) with (String c "" +++ s). apply lang_more; [|exact IH]. apply lang_alt_iff. left. apply lang_set_iff. exists c. split; [reflexivity|]. now apply char_set.
    + change (String "%" (String a (String b s))) with (String "%" (String a (String b "")) +++ s). apply lang_more; [|exact IH]. apply lang_alt_iff. right. apply percent_lang. now exists a, b.
Qed.
Lemma tick_opt_lang : forall s, lang tick_opt s <-> tick_or_none s.
Proof.
  intros s. unfold tick_opt, tick_or_none, tick_re. rewrite lang_alt_iff, lang_eps_iff, lang_set_iff. split.
  - intros [(c & -> & C)|E]; [right|now left]. apply (pick_set ["`"%char]) in C as [<-|[]]. reflexivity.
  - intros [-> | ->]; [now right|left]. now exists "`"%char.
Qed.
Lemma head_lang : forall h, lang head_re h <-> head h.
Proof.
  intros h. unfold head_re, head. rewrite lang_cat_iff. split.
  - intros (a & x & -> & A & H). apply lang_cat_iff in H as (n & y & -> & N & H). apply lang_cat_iff in H as (b & g & -> & B & G). exists a, n, b, g. rewrite <- tick_opt_lang, <- tick_opt_lang, <- body_lang, <- blanks_lang. auto.
  - intros (a & n & b & g & -> & A & N & B & G). exists a, (n +++ b +++ g). split; [reflexivity|]. split; [now apply tick_opt_lang|]. apply lang_cat_iff. exists n, (b +++ g). split; [reflexivity|].
    split; [now apply body_lang|]. apply lang_cat_iff. exists b, g. split; [reflexivity|]. split; [now apply tick_opt_lang|now apply blanks_lang].
Qed.
Definition name_pattern : re := match compile ParameterIdentifierRegex with Some (_, r, _) => r | None => Nul end.
Lemma name_compiled : compile ParameterIdentifierRegex = Some (true, name_pattern, false).
Proof. vm_compute. reflexivity. Qed.
Lemma pattern_head : forall h, lang name_pattern h <-> head h.
Proof. intros h. rewrite <- head_lang. revert h. apply (same_sound 200). vm_compute. reflexivity. Qed.
Lemma no_nul_body : forall s, name_text s -> ~ has "000" s.
Proof.
  intros s H. induction H as [|c s C _ IH|a b s A B _ IH]; [intros []| |].
  - intros [->|I]; [|now apply IH]. destruct C as [C|[C|[C|[C|[C|[C|[]]]]]]]; try discriminate; (destruct C as [C _]; now apply C).
  - assert (Z : forall x, hex_digit x -> x <> "000"%char) by (intros x X ->; destruct X as [X|[X|X]]; destruct X as [X _]; now apply X). apply Z in A, B. intros [?|[?|[?|I]]]; try congruence. now apply IH.
Qed.
Lemma no_nul_head : forall h, head h -> ~ has "000" h.
Proof.
  intros h (a & n & b & g & -> & A & N & B & G) I. assert (T : forall a, tick_or_none a -> ~ has "000" a) by (intros y [-> | ->]; [intros []|intros [?|[]]; discriminate]).
  apply has_app in I as [I|I]; [exact (T _ A I)|]. apply has_app in I as [I|I]; [exact (no_nul_body _ N I)|]. apply has_app in I as [I|I]; [exact (T _ B I)|].
  unfold blanks, all in G. rewrite Forall_forall in G. destruct (G _ I) as [?|?]; discriminate.
Qed.
Lemma c_text_app : forall h r, ~ has "000" h -> c_text (h +++ r) = h +++ c_text r.
Proof.
  induction h as [|c h IH]; intros r H; [reflexivity|]. cbn [append c_text]. destruct (Ascii.eqb_spec c NUL) as [->|_]; [elim H; now left|]. f_equal. apply IH. intros I. apply H. now right.
Qed.
Lemma c_text_split : forall s u v, c_text s = u +++ v -> exists r, s = u +++ r.
Proof.
  intros s u v H. destruct (c_text_before s) as [[_ E]|(r & E & _)].
  - rewrite E in H. now exists v.
  - exists (v +++ String NUL r). rewrite E, H. now rewrite !append_assoc.
Qed.
Lemma head_capture : forall s, s <> "" -> exists g, regex_capture s ParameterIdentifierRegex 1 = Some [g] /\ exists r, headed s g r.
Proof.
  intros s N. pose proof (capture_prefix ParameterIdentifierRegex name_pattern s 1 ltac:(discriminate) name_compiled) as C.
  destruct (regex_capture s ParameterIdentifierRegex 1) as [gs|].
  - destruct C as (_ & u & v & l & E & L & -> & M). exists u. split; [reflexivity|]. destruct (c_text_split _ _ _ E) as [r Er]. exists r. split; [exact Er|].
    split; [apply pattern_head; exact (caps_lang _ _ _ L)|]. intros h' r' E' H'. apply (M h' (c_text r')); [|now apply pattern_head]. rewrite E'. apply c_text_app. now apply no_nul_head.
  - destruct C as [C|C]; [now elim N|]. exfalso. apply (C "" (c_text s) eq_refl), pattern_head. exists "", "", "", "". repeat split; try (now left); constructor.
Qed.
Lemma headed_unique : forall s h r h' r', headed s h r -> headed s h' r' -> h = h' /\ r = r'.
Proof.
  intros s h r h' r' (E & H & M) (E' & H' & M'). assert (L : String.length h = String.length h') by (apply Nat.le_antisymm; [now apply (M' h r)|now apply (M h' r')]).
  rewrite E in E'. assert (X := f_equal (fun z => substring 0 (String.length h) z) E'). cbn beta in X. rewrite (proj1 (cut_at h r)), L, (proj1 (cut_at h' r')) in X. subst h'. split; [reflexivity|]. now apply app_cut in E'.
Qed.

(** ** parentheses *)
Lemma grouped_loop : forall h s p r, grouped h s p r -> forall fuel ret, String.length s < fuel ->
  match_loop fuel (h +++ s) (String.length h) ret ")" false false = Val (ret +++ p, r).
Proof.
  intros h s p r H. induction H as [h|h r|h c s r p r' N P _ IH|h s q r p r' P L _ IH|h a b s q r p r' B E _ IH]; intros fuel ret F;
    (destruct fuel as [|fuel]; [lia|]); cbn [match_loop]; rewrite length_split.
  - rewrite !append_nil_r, Nat.eqb_refl. reflexivity.
  - rewrite (at_char h _ r _ eq_refl). cbn [andthen Ascii.eqb Bool.eqb EscapeCharacter].
    rewrite (snoc_app h _ r), from_app by (now rewrite snoc_length). reflexivity.
  - rewrite (at_char h c s _ eq_refl). cbn [andthen]. cbn [String.length] in F. assert (Lr := piece_shorter _ _ _ _ _ P).
    change (String c p) with (String c "" +++ p). rewrite <- append_assoc.
    destruct (piece_cases _ _ _ _ _ P) as [(I & _ & ->)|[(I & _ & -> & R)|(I & Lp & _)]].
    + destruct (Ascii.eqb_spec c EscapeCharacter) as [->|_]; [exfalso; apply I; now left|].
      destruct (Ascii.eqb_spec c "[") as [->|_]; [exfalso; apply N; cbn; tauto|]. destruct (Ascii.eqb_spec c "(") as [->|_]; [exfalso; apply N; cbn; tauto|].
      destruct (Ascii.eqb_spec c ")") as [->|_]; [exfalso; apply N; cbn; tauto|].
      cbn [andb]. rewrite (snoc_app h c s), <- (snoc_length h c). apply IH. lia.
    + destruct (tick_esc_nul _ I) as [-> NZ]. change (Ascii.eqb backtick EscapeCharacter) with true. cbn iota.
      rewrite (R NZ h). cbn [andthen fst snd String.eqb]. rewrite (at_char h backtick s _ eq_refl). cbn [andthen].
      rewrite (snoc_app h backtick s), <- (snoc_length h backtick). apply IH. lia.
    + cbn in Lp. lia.
  - destruct s as [|c s]; [now apply piece_nil in P|].
    rewrite (at_char h c s _ eq_refl). cbn [andthen]. cbn [String.length] in F. assert (Lr := piece_shorter _ _ _ _ _ P).
    destruct (piece_cases _ _ _ _ _ P) as [(I & -> & ->)|[(I & -> & -> & R)|(I & _ & _ & R)]]; try (cbn in L; lia).
    destruct (tick_esc_nul _ I) as [-> NZ]. change (Ascii.eqb backtick EscapeCharacter) with true. cbn iota.
    rewrite (R NZ h). cbn [andthen fst snd]. destruct (String.eqb_spec q "") as [->|_]; [cbn in L; lia|].
    rewrite <- (append_assoc ret q). apply (IH fuel (ret +++ q)). lia.
  - rewrite (at_char h a s _ eq_refl). cbn [andthen]. cbn [String.length] in F.
    assert (Ls := f_equal String.length (enclosed_split _ _ _ _ E)). rewrite length_append in Ls.
    assert (X : andthen (match_loop fuel (h +++ String a s) (S (String.length h)) (String a "") b false true)
      (fun r => match_loop fuel (snd r) 0 (ret +++ fst r) ")" false false) = Val (ret +++ (String a q +++ p), r')).
    { rewrite (snoc_app h a s), <- (snoc_length h a), (match_loop_ok _ _ _ _ E (brackets_close _ _ B)) by lia. cbn [andthen fst snd].
      assert (Y := IH fuel (ret +++ String a q) ltac:(lia)). cbn [String.length] in Y. change ("" +++ r) with r in Y.
      change (String a "" +++ q) with (String a q). rewrite Y. now rewrite !append_assoc. }
    destruct B as [[-> ->]|[-> ->]]; exact X.
Qed.
Lemma grouped_total : forall s h, exists p r, grouped h s p r.
Proof.
  intros s. remember (String.length s) as n eqn:E. revert s E.
  induction n as [n IH] using (well_founded_induction lt_wf). intros [|c s] -> h; [exists "", h; constructor|].
  assert (Nest : forall b, brackets c b -> exists p r, grouped h (String c s) p r).
  { intros b B. destruct (enclosed_total s b) as (q & r & E1).
    assert (Ls := f_equal String.length (enclosed_split _ _ _ _ E1)). rewrite length_append in Ls.
    destruct (IH (String.length r) ltac:(cbn; lia) r eq_refl "") as (p & r' & E2).
    exists (String c q +++ p), r'. eapply grouped_nested; eauto. }
  destruct (Ascii.eqb_spec c "[") as [->|N1]; [apply (Nest "]"%char); now left|].
  destruct (Ascii.eqb_spec c "(") as [->|N2]; [apply (Nest ")"%char); now right|]. clear Nest.
  destruct (Ascii.eqb_spec c ")") as [->|N3]; [do 2 eexists; constructor|].
  destruct (piece_total [backtick] c s) as (q & r & P). assert (L := piece_shorter _ _ _ _ _ P).
  destruct (le_lt_dec (String.length q) 1) as [Lq|Lq].
  - destruct (IH (String.length r) ltac:(cbn; lia) r eq_refl (h +++ String c "")) as (p & r' & I). exists (String c p), r'.
    apply piece_split in P as P'. destruct P' as [E N]. destruct q as [|x [|y q]]; cbn in *; try congruence; try lia. injection E as <- ->.
    eapply grouped_char; eauto. intros [?|[?|[?|[]]]]; congruence.
  - destruct (IH (String.length r) ltac:(cbn; lia) r eq_refl "") as (p & r' & I). exists (q +++ p), r'. eapply grouped_literal; eauto.
Qed.
Lemma grouped_unique : forall h s p r p' r', grouped h s p r -> grouped h s p' r' -> p = p' /\ r = r'.
Proof.
  intros h s p r p' r' H H'. assert (A := grouped_loop _ _ _ _ H (S (String.length s)) "" (le_n _)). assert (B := grouped_loop _ _ _ _ H' (S (String.length s)) "" (le_n _)).
  rewrite A in B. now injection B.
Qed.
Lemma grouped_brackets : forall s p r, grouped "(" s p r -> match_brackets (enough_for [String "(" s]) (String "(" s) 0 ")" false false = Val (String "(" p, r).
Proof.
  intros s p r H. unfold match_brackets. cbn [andthen at_]. change (andthen (Val "(") (fun ret => match_loop (enough_for [String "(" s]) (String "(" s) 1 ret ")" false false) = Val (String "(" p, r)).
  cbn [andthen]. assert (L : String.length s < enough_for [String "(" s]) by (unfold enough_for; cbn [map]; change (list_sum [String.length (String "(" s)]) with (S (String.length s) + 0); lia).
  exact (grouped_loop _ _ _ _ H (enough_for [String "(" s]) "(" L).
Qed.

(** ** enumerations and backticks *)
Definition square_re : re := Set_ true [(93, 93); (91, 91)]%N.
Lemma not_square : forall c, in_set true [(93, 93); (91, 91)]%N c = true <-> c <> "["%char /\ c <> "]"%char.
Proof.
  intros c. rewrite in_set_spec. split.
  - intros H. split; intros ->; (assert (true = false) by (apply H; cbn; rewrite !Exists_cons; cbn; lia)); discriminate.
  - intros [N M]. split; [|discriminate]. intros H. exfalso. inversion H as [? ? B|? ? B]; subst; [|inversion B as [? ? B'|? ? B']; subst; [|inversion B']]; cbn in *.
    + apply M. rewrite <- (chr_byte c). replace (byte c) with 93%N by lia. reflexivity.
    + apply N. rewrite <- (chr_byte c). replace (byte c) with 91%N by lia. reflexivity.
Qed.
Lemma squares_lang : forall s, lang (Cat square_re (Star square_re)) s <-> s <> "" /\ ~ has "[" s /\ ~ has "]" s.
Proof.
  intros s. rewrite lang_cat_iff. split.
  - intros (u & v & -> & H & K). apply lang_set_iff in H as (c & -> & H). apply not_square in H as [H1 H2]. apply star_set in K. unfold all in K. rewrite Forall_forall in K. split; [discriminate|].
    split; (intros [I|I]; [congruence|]; apply K, not_square in I as [? ?]; congruence).
  - intros (N & A & B). destruct s as [|c s]; [now elim N|]. exists (String c ""), s. split; [reflexivity|]. split.
    + apply lang_set_iff. exists c. split; [reflexivity|]. apply not_square. split; intros ->; [apply A|apply B]; now left.
    + apply star_set. unfold all. apply Forall_forall. intros x I. apply not_square. split; intros ->; [apply A|apply B]; now right.
Qed.
Definition enum_re (inner : re) : re :=
  Cat (Set_ false [(101, 101)]%N) (Cat (Set_ false [(110, 110)]%N) (Cat (Set_ false [(117, 117)]%N) (Cat (Set_ false [(109, 109)]%N) (Cat (Set_ false [(91, 91)]%N) (Cat inner (Cat (Set_ false [(93, 93)]%N) Eps)))))).
Lemma lit_inv : forall d r s, lang (Cat (Set_ false [(byte d, byte d)]) r) s -> exists t, s = String d t /\ lang r t.
Proof. intros d r s H. apply lang_cat_iff in H as (p & q & -> & A & B). apply lang_set_iff in A as (c & -> & A). apply (pick_set [d]) in A as [<-|[]]. now exists q. Qed.
Lemma enum_lang : forall r s, lang (enum_re r) s <-> exists x, s = "enum[" +++ x +++ "]" /\ lang r x.
Proof.
  intros r s. unfold enum_re. split.
  - intros H. apply (lit_inv "e"%char) in H as (? & -> & H). apply (lit_inv "n"%char) in H as (? & -> & H). apply (lit_inv "u"%char) in H as (? & -> & H). apply (lit_inv "m"%char) in H as (? & -> & H).
    apply (lit_inv "["%char) in H as (? & -> & H). apply lang_cat_iff in H as (xx & yy & -> & K & H). apply (lit_inv "]"%char) in H as (? & -> & H). apply lang_eps_iff in H as ->. now exists xx.
  - intros (x & -> & H). apply (lang_lit "e"%char), (lang_lit "n"%char), (lang_lit "u"%char), (lang_lit "m"%char), (lang_lit "["%char). apply lang_cat_iff. exists x, "]". split; [reflexivity|]. split; [exact H|].
    apply (lang_lit "]"%char), lang_eps.
Qed.
Lemma match_inside : forall p r s, p <> "" -> compile p = Some (false, r, false) -> regex_match s p = true <-> s <> "" /\ exists a u b, c_text s = a +++ u +++ b /\ lang r u.
Proof.
  intros p r s N E. unfold regex_match. destruct (String.eqb_spec s "") as [->|Ns]; [split; [discriminate|intros [H _]; now elim H]|]. destruct (String.eqb_spec p "") as [->|_]; [now elim N|]. cbn [orb]. rewrite E.
  rewrite matchb_spec, lang_cat_iff. split.
  - intros (x & b & Ex & H & _). split; [exact Ns|]. apply lang_cat_iff in H as (a & u & -> & _ & H). exists a, u, b. split; [now rewrite Ex, append_assoc|exact H].
  - intros (_ & a & u & b & Ex & H). exists (a +++ u), b. split; [now rewrite Ex, append_assoc|]. split; [|apply anything_spec]. apply lang_cat_iff. exists a, u. split; [reflexivity|]. split; [apply anything_spec|exact H].
Qed.
Lemma enum_iff : forall p, regex_match p SomeEnumRegex = true <-> names_enum p.
Proof.
  intros p. rewrite (match_inside SomeEnumRegex (enum_re (Cat square_re (Star square_re)))); [|discriminate|vm_compute; reflexivity]. split.
  - intros (N & a & u & b & E & L). apply enum_lang in L as (x & -> & L). apply squares_lang in L as (A & B & C). exists (c_text p), a, x, b. split; [now apply before_is|]. split; [rewrite E; now rewrite !append_assoc|]. auto.
  - intros (v & a & x & b & V & E & A & B & C). apply before_is in V. subst v. split; [intros ->; destruct a; discriminate|]. exists a, ("enum[" +++ x +++ "]"), b. split; [rewrite E; now rewrite !append_assoc|].
    apply enum_lang. exists x. split; [reflexivity|]. now apply squares_lang.
Qed.
Lemma tick_iff : forall p, regex_match p BacktickRegex = true <-> ticked p.
Proof.
  intros p. rewrite (match_inside BacktickRegex (Cat tick_re Eps)); [|discriminate|vm_compute; reflexivity]. split.
  - intros (N & a & u & b & E & L). exists (c_text p). split; [now apply before_is|]. apply lang_cat_iff in L as (x & y & -> & L & K). apply lang_set_iff in L as (c & -> & L). apply (pick_set ["`"%char]) in L as [<-|[]].
    rewrite E. apply has_app. right. now left.
  - intros (v & V & H). apply before_is in V. subst v. split; [intros ->; destruct H|]. apply has_split in H as (a & b & E & _). exists a, "`", b. split; [exact E|]. apply (lang_lit "`"%char), lang_eps.
Qed.

(** ** lines *)
Definition syntax_of (o : option form) : syntax := match o with None => NotParameter | Some OldForm => OldParameter | Some NewForm => NewParameter end.
(** what holds of at most one form *)
Definition tells (P : form -> Prop) (o : option form) : Prop := match o with Some f => P f /\ forall f', P f' -> f' = f | None => forall f, ~ P f end.
Lemma tells_ext : forall (P Q : form -> Prop) o, (forall f, P f <-> Q f) -> tells P o -> tells Q o.
Proof.
  intros P Q [f|] E H; cbn in *; [destruct H as [H U]; split; [now apply E|intros f' H'; apply U; now apply E]|intros f' H'; apply (H f'); now apply E].
Qed.
Lemma prefix_split : forall p s, prefix p s = true -> exists r, s = p +++ r.
Proof.
  induction p as [|c p IH]; intros s H; [now exists s|]. destruct s as [|d s]; [discriminate|]. cbn in H. destruct (Ascii.ascii_dec c d) as [<-|]; [|discriminate].
  destruct (IH s H) as [r ->]. now exists r.
Qed.
Lemma ended_tells : forall s, exists o, tells (ended s) o /\ plain_syntax s = syntax_of o.
Proof.
  intros s. unfold plain_syntax. destruct (prefix "-" s) eqn:A.
  - exists (Some NewForm). split; [|reflexivity]. apply prefix_split in A as [r ->]. split; [exact (ended_dash r)|]. intros f H. inversion H; subst; reflexivity.
  - destruct (prefix "..." s) eqn:B.
    + exists (Some OldForm). split; [|reflexivity]. apply prefix_split in B as [r ->]. split; [apply ended_dots|]. intros f H. inversion H; subst; reflexivity.
    + exists None. split; [|reflexivity]. intros f H. destruct H as [s|s]; [destruct s; discriminate A|destruct s; discriminate B].
Qed.

Lemma trims_is' : forall s t, trims s t <-> t = trim s.
Proof. intros s t. split; [intros H; symmetry; exact (trims_trim _ _ H)|intros ->; apply trim_trims]. Qed.
Lemma marked_char : forall c s f, marked (String c s) f -> c <> ":"%char -> c <> "="%char -> c <> "("%char -> ended (String c s) f.
Proof. intros c s f H A B C. inversion H; subst; try congruence; assumption. Qed.
Lemma ended_not : forall c s f, ended (String c s) f -> c <> ":"%char /\ c <> "="%char /\ c <> "("%char.
Proof. intros c s f H. inversion H; subst; repeat split; discriminate. Qed.
Lemma bracket_tells : forall s, exists o, tells (marked (String "(" s)) o /\ bracket_syntax (String "(" s) = Val (syntax_of o).
Proof.
  intros s. destruct (grouped_total s "(") as (p & r & G). unfold bracket_syntax. rewrite (grouped_brackets _ _ _ G). cbn [andthen].
  assert (U : forall p' r', grouped "(" s p' r' -> p' = p /\ r' = r) by (intros p' r' G'; now apply (grouped_unique "(" s)).
  assert (No : (Nat.eqb (String.length (String "(" p)) 2 || String.eqb (String "(" p) r)%bool = true -> forall f, ~ marked (String "(" s) f).
  { intros B f M. apply orb_prop in B.
    assert (X : 1 < String.length p /\ String "(" p <> r -> False).
    { intros [L N]. destruct B as [B|B]; [apply Nat.eqb_eq in B; cbn in B; lia|]. apply String.eqb_eq in B. now elim N. }
    apply X. clear X B. inversion M as [| | |s0 f0 E0|s0 p0 r0 G0|s0 p0 r0 G0|s0 p0 r0 r1 f0 G0]; subst; try (apply U in G0 as [-> ->]; now split). apply ended_not in E0 as (_ & _ & E0). now elim E0. }
  destruct (Nat.eqb (String.length (String "(" p)) 2 || String.eqb (String "(" p) r)%bool eqn:B.
  { exists None. split; [|reflexivity]. exact (No eq_refl). }
  clear No. apply orb_false_iff in B as [B1 B2]. apply Nat.eqb_neq in B1. apply String.eqb_neq in B2. cbn [String.length] in B1.
  assert (Z : p = "" -> r = "("). { intros ->. clear U B1 B2. remember "(" as h eqn:Eh. remember "" as p0 eqn:Ep. destruct G; try discriminate; [now subst|destruct q; [cbn in *; lia|discriminate]]. }
  assert (L : 1 < String.length p). { destruct p as [|x p]; [elim B2; now rewrite (Z eq_refl)|]. cbn in *. lia. } clear Z B1.
  assert (Es : from (String "(" p) 1 = p) by exact (from_app "(" p 1 eq_refl).
  rewrite Es. clear Es.
  assert (Inv : forall f, marked (String "(" s) f -> (names_enum p /\ f = NewForm) \/ (~ names_enum p /\ ticked p /\ f = OldForm) \/ (~ names_enum p /\ ~ ticked p /\ ((trim r = "" /\ f = NewForm) \/ ended (trim r) f))).
  { intros f M. inversion M as [| | |s0 f0 E0|s0 p0 r0 G0 _ _ E|s0 p0 r0 G0 _ _ E T|s0 p0 r0 r1 f0 G0 _ _ E T Tr D]; subst; try (apply U in G0 as [-> ->]).
    - apply ended_not in E0 as (_ & _ & E0). now elim E0.
    - now left.
    - right. now left.
    - right. right. apply trims_is' in Tr. subst r1. auto. }
  destruct (regex_match p SomeEnumRegex) eqn:E1.
  { apply enum_iff in E1. exists (Some NewForm). split; [|reflexivity]. split; [now apply (marked_enum s p r)|]. intros f M. destruct (Inv f M) as [[_ ->]|[[N _]|[N _]]]; [reflexivity|now elim N..]. }
  assert (N1 : ~ names_enum p) by (intros H; apply enum_iff in H; congruence). destruct (regex_match p BacktickRegex) eqn:E2.
  { apply tick_iff in E2. exists (Some OldForm). split; [|reflexivity]. split; [now apply (marked_ticks s p r)|]. intros f M. destruct (Inv f M) as [[N _]|[(_ & _ & ->)|(_ & N & _)]]; [now elim N1|reflexivity|now elim N]. }
  assert (N2 : ~ ticked p) by (intros H; apply tick_iff in H; congruence).
  assert (Iff : forall f, marked (String "(" s) f <-> (trim r = "" /\ f = NewForm) \/ ended (trim r) f).
  { intros f. split.
    - intros M. destruct (Inv f M) as [[N _]|[(_ & N & _)|(_ & _ & D)]]; [now elim N1|now elim N2|exact D].
    - intros D. exact (marked_plain s p r (trim r) f G L B2 N1 N2 (trim_trims r) D). }
  destruct (String.eqb_spec (trim r) "") as [Er|Er].
  - exists (Some NewForm). split; [|reflexivity]. apply (tells_ext (fun f => f = NewForm)); [|split; [reflexivity|intros f' ->; reflexivity]]. intros f. rewrite Iff, Er. split; [intros ->; now left|intros [[_ ->]|H]; [reflexivity|inversion H]].
  - destruct (ended_tells (trim r)) as (o & T & ->). exists o. split; [|reflexivity]. apply (tells_ext (ended (trim r))); [|exact T]. intros f. rewrite Iff. split; [now right|intros [[H _]|H]; [now elim Er|exact H]].
Qed.
Lemma marked_tells : forall s, exists o, tells (marked s) o /\
  match s with
  | EmptyString => Val NewParameter
  | String c r =>
    if (Ascii.eqb c ":" || Ascii.eqb c "=")%bool then Val (if String.eqb (trim r) "" then NotParameter else if Ascii.eqb c ":" then NewParameter else OldParameter)
    else if Ascii.eqb c "(" then bracket_syntax s
    else Val (plain_syntax s)
  end = Val (syntax_of o).
Proof.
  intros [|c r].
  - exists (Some NewForm). split; [|reflexivity]. split; [constructor|]. intros f H. inversion H as [| | |s f0 E| | |]; subst; [reflexivity|inversion E].
  - assert (V : forall g, (c = ":"%char /\ g = NewForm) \/ (c = "="%char /\ g = OldForm) -> exists o, tells (marked (String c r)) o /\ (if String.eqb (trim r) "" then NotParameter else syntax_of (Some g)) = syntax_of o).
    { intros g C. assert (Iff : forall f, marked (String c r) f <-> f = g /\ ~ all white r).
      { intros f. split.
        - intros M. destruct C as [[-> ->]|[-> ->]]; inversion M as [|v W|v W|s f0 E| | |]; subst; try (now split); apply ended_not in E as (E1 & E2 & _); congruence.
        - intros [-> W]. destruct C as [[-> ->]|[-> ->]]; now constructor. }
      destruct (String.eqb_spec (trim r) "") as [E|E].
      - exists None. split; [|reflexivity]. intros f M. apply Iff in M as [_ W]. apply W. now apply trim_white.
      - exists (Some g). split; [|reflexivity]. assert (W : ~ all white r) by (intros W; apply trim_white in W; now elim E). split; [now apply Iff|]. intros f M. now apply Iff in M as [-> _]. }
    destruct (Ascii.eqb_spec c ":") as [->|Nc].
    { destruct (V NewForm ltac:(now left)) as (o & T & E). exists o. split; [exact T|]. cbn [orb]. f_equal. exact E. }
    destruct (Ascii.eqb_spec c "=") as [->|Ne].
    { destruct (V OldForm ltac:(now right)) as (o & T & E). exists o. split; [exact T|]. cbn [orb]. f_equal. exact E. }
    cbn [orb]. clear V. destruct (Ascii.eqb_spec c "(") as [->|Np]; [apply bracket_tells|].
    destruct (ended_tells (String c r)) as (o & T & ->). exists o. split; [|reflexivity]. apply (tells_ext (ended (String c r))); [|exact T]. intros f. split; [apply marked_text|intros M; now apply marked_char].
Qed.
Lemma line_tells : forall line, exists o, tells (line_says line) o /\ parameter_syntax line = Val (syntax_of o).
Proof.
  intros line. unfold parameter_syntax. destruct (String.eqb_spec (trim line) "") as [E|E].
  - exists None. split; [|reflexivity]. intros f H. destruct H as [s h r r' f T (Es & _ & _) N _ _]. apply trims_is' in T. subst s. rewrite E in Es. destruct h; [now elim N|discriminate].
  - destruct (head_capture _ E) as (g & C & r & H). rewrite C. cbn [nth]. destruct (String.eqb_spec g "") as [->|Ng].
    + exists None. split; [|reflexivity]. intros f [s h r0 r' f0 T H' N _ _]. apply trims_is' in T. subst s. destruct (headed_unique _ _ _ _ _ H H') as [<- _]. now elim N.
    + assert (Ef : from (trim line) (String.length g) = r) by (destruct H as (-> & _); apply from_app; reflexivity). rewrite Ef.
      destruct (marked_tells (trim r)) as (o & T & S). exists o. split; [|destruct (trim r); exact S]. apply (tells_ext (marked (trim r))); [|exact T]. intros f. split.
      * intros M. exact (line_by line (trim line) g r (trim r) f (trim_trims _) H Ng (trim_trims _) M).
      * intros [s h r0 r' f0 T' H' N T2 M]. apply trims_is' in T', T2. subst s r'. destruct (headed_unique _ _ _ _ _ H H') as [<- <-]. exact M.
Qed.
