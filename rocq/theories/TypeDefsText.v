From Verif Require Import Base ByteBuffer StringUtility StringSpec StringProofs Regex RegexSpec RegexProofs Keywords KeywordsSpec KeywordsProofs RegexCaps SectionsKeys Signature SignatureSpec SignatureProofs TypeTables Mson TypeDefs TypeDefsSpec.
Local Open Scope string_scope.
Local Open Scope nat_scope.

(** ** where a text is cut at its last char of some kind *)
Lemma cut_last : forall (K : ascii -> Prop) a c b a' c' b', a +++ String c b = a' +++ String c' b' -> K c -> K c' ->
  all (fun x => ~ K x) b -> all (fun x => ~ K x) b' -> a = a' /\ c = c' /\ b = b'.
Proof.
  intros K. induction a as [|x a IH]; intros c b a' c' b' E Kc Kc' B B'.
  - destruct a' as [|x' a']; cbn in E; [injection E as -> ->; now repeat split|]. injection E as -> ->. exfalso.
    apply all_app in B as [_ B]. apply all_cons in B as [B _]. contradiction.
  - destruct a' as [|x' a']; cbn in E; injection E as -> E.
    + subst b'. exfalso. apply all_app in B' as [_ B']. apply all_cons in B' as [B' _]. contradiction.
    + destruct (IH _ _ _ _ _ E Kc Kc' B B') as (-> & -> & ->). now repeat split.
Qed.
Lemma cut_first : forall (K : ascii -> Prop) a c b a' c' b', a +++ String c b = a' +++ String c' b' -> K c -> K c' ->
  all (fun x => ~ K x) a -> all (fun x => ~ K x) a' -> a = a' /\ c = c' /\ b = b'.
Proof.
  intros K. induction a as [|x a IH]; intros c b a' c' b' E Kc Kc' B B'.
  - destruct a' as [|x' a']; cbn in E; [injection E as -> ->; now repeat split|]. injection E as -> _. exfalso. apply all_cons in B' as [B' _]. contradiction.
  - destruct a' as [|x' a']; cbn in E; injection E as -> E.
    + exfalso. apply all_cons in B as [B _]. contradiction.
    + apply all_cons in B as [_ B]. apply all_cons in B' as [_ B']. destruct (IH _ _ _ _ _ E Kc Kc' B B') as (-> & -> & ->). now repeat split.
Qed.
Lemma free_split : forall l s, free l s \/ exists a c b, s = a +++ String c b /\ In c l /\ free l a.
Proof.
  intros l. induction s as [|c s [IH|(a & d & b & -> & D & F)]]; [left; constructor| |].
  - destruct (in_dec Ascii.ascii_dec c l) as [I|N]; [right; exists "", c, s; repeat split; [exact I|constructor]|left; now apply all_cons].
  - destruct (in_dec Ascii.ascii_dec c l) as [I|N]; [right; exists "", c, (a +++ String d b); repeat split; [exact I|constructor]|].
    right. exists (String c a), d, b. split; [reflexivity|]. split; [exact D|now apply all_cons].
Qed.
Lemma free_cut : forall l a c b a' c' b', a +++ String c b = a' +++ String c' b' -> In c l -> In c' l -> free l a -> free l a' -> a = a' /\ c = c' /\ b = b'.
Proof. intros l a c b a' c' b' E I I' F F'. exact (cut_first (fun c => In c l) _ _ _ _ _ _ E I I' F F'). Qed.
Lemma free_not : forall l a c b, In c l -> ~ free l (a +++ String c b).
Proof. intros l a c b I F. apply all_app in F as [_ F]. apply all_cons in F as [F _]. contradiction. Qed.

(** ** links *)
Lemma blanks_not : forall b, blanks b -> all (fun c => ~ ~ blank_char c) b.
Proof. intros b. unfold all. apply Forall_impl. tauto. Qed.
Lemma no_blank : forall c, In c round_and_square -> ~ blank_char c.
Proof. intros c I B. unfold blank_char in B. cbn in I. decompose [or] I; subst; cbn in B; decompose [or] B; discriminate || contradiction. Qed.
Lemma link_form : forall s x, link s x <-> exists b1 b2 o y z b3, s = (b1 +++ String "[" (x +++ String "]" (b2 +++ String o (y +++ String z b3)))) /\ blanks b1 /\ blanks b2 /\ blanks b3 /\
  free round_and_square y /\ ((o = "["%char /\ z = "]"%char) \/ (o = "("%char /\ z = ")"%char /\ y <> "")).
Proof.
  intros s x. split.
  - intros [b1 x' b2 y b3 A B C F|b1 x' b2 y b3 A B C F N].
    + exists b1, b2, "["%char, y, "]"%char, b3. repeat (split; [cbn; try rewrite !append_assoc; reflexivity || assumption|]). now left.
    + exists b1, b2, "("%char, y, ")"%char, b3. repeat (split; [cbn; try rewrite !append_assoc; reflexivity || assumption|]). now right.
  - intros (b1 & b2 & o & y & z & b3 & -> & A & B & C & F & [[-> ->]|(-> & -> & N)]).
    + now apply (link_by b1 x b2 y b3).
    + now apply (link_to b1 x b2 y b3).
Qed.
Lemma link_unique : forall s x x', link s x -> link s x' -> x = x'.
Proof.
  intros s x x' H H'. apply link_form in H as (b1 & b2 & o & y & z & b3 & E & A & B & C & F & D). apply link_form in H' as (b1' & b2' & o' & y' & z' & b3' & E' & A' & B' & C' & F' & D').
  rewrite E in E'. clear E.
  assert (Io : In o round_and_square /\ In z round_and_square) by (destruct D as [[-> ->]|(-> & -> & _)]; cbn; tauto).
  assert (Io' : In o' round_and_square /\ In z' round_and_square) by (destruct D' as [[-> ->]|(-> & -> & _)]; cbn; tauto).
  destruct (cut_first (fun c => ~ blank_char c) _ _ _ _ _ _ E') as (-> & _ & E); [apply no_blank; cbn; tauto|apply no_blank; cbn; tauto|now apply blanks_not|now apply blanks_not|].
  assert (X : ((x +++ String "]" (b2 +++ String o y)) +++ String z b3) = ((x' +++ String "]" (b2' +++ String o' y')) +++ String z' b3')).
  { revert E. clear. rewrite !append_assoc. cbn. rewrite !append_assoc. cbn. auto. }
  destruct (cut_last (fun c => ~ blank_char c) _ _ _ _ _ _ X) as (X1 & -> & ->); [now apply no_blank|now apply no_blank|now apply blanks_not|now apply blanks_not|].
  assert (Y : ((x +++ String "]" b2) +++ String o y) = ((x' +++ String "]" b2') +++ String o' y')).
  { revert X1. clear. rewrite !append_assoc. cbn. auto. }
  destruct (cut_last (fun c => In c round_and_square) _ _ _ _ _ _ Y) as (X2 & -> & ->); [tauto|tauto|exact F|exact F'|].
  destruct (cut_last (fun c => ~ blank_char c) _ _ _ _ _ _ X2) as (-> & _ & _); [apply no_blank; cbn; tauto|apply no_blank; cbn; tauto|now apply blanks_not|now apply blanks_not|reflexivity].
Qed.

Definition inside_re : re := Set_ true [(93, 93); (91, 91); (40, 40); (41, 41)]%N.
Lemma inside_set : forall c, in_set true [(93, 93); (91, 91); (40, 40); (41, 41)]%N c = true <-> ~ In c round_and_square.
Proof.
  intros c. rewrite in_set_spec. rewrite !Exists_cons, Exists_nil. cbn [fst snd In round_and_square].
  assert (Q : forall x : ascii, (byte x <= byte c <= byte x)%N <-> x = c).
  { intros x. split; [|intros ->; lia]. intros H. assert (byte c = byte x) by lia. rewrite <- (chr_byte c), <- (chr_byte x). congruence. }
  change 93%N with (byte "]"). change 91%N with (byte "["). change 40%N with (byte "("). change 41%N with (byte ")"). rewrite !Q. intuition congruence.
Qed.
Lemma inside_lang : forall s, lang (Star inside_re) s <-> free round_and_square s.
Proof.
  intros s. unfold inside_re. rewrite star_set. unfold free, all. rewrite !Forall_forall. split; intros H c I; apply inside_set; auto.
Qed.
Lemma lit_lang : forall c s, lang (Set_ false [(byte c, byte c)]) s <-> s = String c "".
Proof.
  intros c s. rewrite lang_set_iff. split.
  - intros (d & -> & D). apply in_set_spec in D. rewrite Exists_cons, Exists_nil in D. cbn [fst snd] in D. destruct (proj2 D eq_refl) as [L|[]]. f_equal.
    assert (byte c = byte d) by lia. rewrite <- (chr_byte c), <- (chr_byte d). congruence.
  - intros ->. exists c. split; [reflexivity|]. apply in_set_spec. rewrite Exists_cons. cbn [fst snd]. split; [reflexivity|]. intros _. left. lia.
Qed.
Lemma link_re : compile MarkdownLinkRegex = Some (true,
  Cat (Star blank_re) (Cat (Set_ false [(byte "[", byte "[")]) (Cat (Grp 1 (Cat anything Eps)) (Cat (Set_ false [(byte "]", byte "]")]) (Cat (Star blank_re)
   (Cat (Grp 2 (Alt (Cat (Set_ false [(byte "[", byte "[")]) (Cat (Grp 3 (Cat (Star inside_re) Eps)) (Cat (Set_ false [(byte "]", byte "]")]) Eps)))
                    (Cat (Set_ false [(byte "(", byte "(")]) (Cat (Grp 4 (Cat (Cat inside_re (Star inside_re)) Eps)) (Cat (Set_ false [(byte ")", byte ")")]) Eps)))))
   (Cat (Star blank_re) Eps)))))), true).
Proof. vm_compute. reflexivity. Qed.
Lemma any_lang : forall s, lang anything s.
Proof.
  intros s. unfold anything. apply star_set. unfold all. apply Forall_forall. intros c _. apply in_set_spec. rewrite Exists_nil. intuition discriminate.
Qed.
Lemma cat_eps : forall a s, lang (Cat a Eps) s <-> lang a s.
Proof.
  intros a s. rewrite lang_cat_iff. split.
  - intros (p & q & -> & H & Q). apply lang_eps_iff in Q as ->. now rewrite append_nil_r.
  - intros H. exists s, "". rewrite append_nil_r. split; [reflexivity|]. split; [exact H|now apply lang_eps_iff].
Qed.
Lemma cat_eps_of : forall a s, lang (Cat a Eps) s -> lang a s.
Proof. intros a s. apply cat_eps. Qed.
Lemma inside_some : forall s, lang (Cat inside_re (Star inside_re)) s <-> free round_and_square s /\ s <> "".
Proof.
  intros s. rewrite lang_cat_iff. split.
  - intros (p & q & -> & H & K). apply lang_set_iff in H as (c & -> & C). apply inside_set in C. apply inside_lang in K. split; [|discriminate]. now apply all_cons.
  - intros [F N]. destruct s as [|c s]; [contradiction|]. apply all_cons in F as [C F]. exists (String c ""), s. split; [reflexivity|]. split; [|now apply inside_lang].
    apply lang_set_iff. exists c. split; [reflexivity|now apply inside_set].
Qed.
Lemma link_capture : forall t, match regex_capture t MarkdownLinkRegex 8 with
  | None => t = "" \/ forall x, ~ link (c_text t) x
  | Some g => t <> "" /\ link (c_text t) (nth 1 g "")
  end.
Proof.
  intros t. pose proof (capture_whole MarkdownLinkRegex _ t 8 ltac:(discriminate) link_re) as H. destruct (regex_capture t MarkdownLinkRegex 8) as [g|].
  - destruct H as (N & l & C & ->). split; [exact N|].
    apply caps_cat_inv in C as (b1 & q1 & m1 & n1 & E & -> & C1 & C). apply caps_plain in C1 as [-> L1]; [|reflexivity]. apply blanks_lang in L1.
    apply caps_cat_inv in C as (p2 & q2 & m2 & n2 & -> & -> & C2 & C). apply caps_plain in C2 as [-> L2]; [|reflexivity]. apply lit_lang in L2 as ->.
    apply caps_cat_inv in C as (x & q3 & m3 & n3 & -> & -> & C3 & C). apply caps_grp_plain in C3 as [-> L3]; [|reflexivity].
    apply caps_cat_inv in C as (p4 & q4 & m4 & n4 & -> & -> & C4 & C). apply caps_plain in C4 as [-> L4]; [|reflexivity]. apply lit_lang in L4 as ->.
    apply caps_cat_inv in C as (b2 & q5 & m5 & n5 & -> & -> & C5 & C). apply caps_plain in C5 as [-> L5]; [|reflexivity]. apply blanks_lang in L5.
    apply caps_cat_inv in C as (p6 & q6 & m6 & n6 & -> & -> & C6 & C). apply caps_lang in C6.
    apply caps_lang in C. apply cat_eps_of in C. apply blanks_lang in C.
    change (nth 1 (groups (c_text t) _ 8) "") with x. rewrite E.
    apply (proj1 (lang_grp_iff _ _ _)) in C6. apply link_form. apply lang_alt_iff in C6 as [C6|C6].
    + apply lang_cat_iff in C6 as (o & r & -> & O & C6). apply lit_lang in O as ->. apply lang_cat_iff in C6 as (y & z & -> & Y & Z).
      apply cat_eps_of in Z; apply lit_lang in Z as ->. apply lang_grp_iff in Y; apply cat_eps_of in Y; apply inside_lang in Y.
      exists b1, b2, "["%char, y, "]"%char, q6. split; [cbn; rewrite !append_assoc; reflexivity|]. repeat (split; [assumption|]). now left.
    + apply lang_cat_iff in C6 as (o & r & -> & O & C6). apply lit_lang in O as ->. apply lang_cat_iff in C6 as (y & z & -> & Y & Z).
      apply cat_eps_of in Z; apply lit_lang in Z as ->. apply lang_grp_iff in Y; apply cat_eps_of in Y; apply inside_some in Y as [Y Ny].
      exists b1, b2, "("%char, y, ")"%char, q6. split; [cbn; rewrite !append_assoc; reflexivity|]. repeat (split; [assumption|]). now right.
  - destruct H as [H|H]; [now left|right]. intros x L. apply H. clear H. apply link_form in L as (b1 & b2 & o & y & z & b3 & E & A & B & C & F & D). rewrite E.
    apply lang_cat_iff. eexists b1, _. split; [reflexivity|]. split; [now apply blanks_lang|].
    apply lang_cat_iff. eexists "[", _. split; [reflexivity|]. split; [now apply lit_lang|].
    apply lang_cat_iff. eexists x, _. split; [reflexivity|]. split; [apply lang_grp_iff, cat_eps, any_lang|].
    apply lang_cat_iff. eexists "]", _. split; [reflexivity|]. split; [now apply lit_lang|].
    apply lang_cat_iff. eexists b2, _. split; [reflexivity|]. split; [now apply blanks_lang|].
    apply lang_cat_iff. exists (String o (y +++ String z "")), b3. split; [cbn; now rewrite append_assoc|]. split; [|now apply cat_eps, blanks_lang].
    apply lang_grp_iff, lang_alt_iff. destruct D as [[-> ->]|(-> & -> & N)]; [left|right]; apply lang_cat_iff; eexists (String _ ""), _; (split; [cbn [append]; reflexivity|]); (split; [now apply lit_lang|]);
      apply lang_cat_iff; eexists y, (String _ ""); (split; [reflexivity|]); (split; [|now apply cat_eps, lit_lang]); apply lang_grp_iff, cat_eps; [now apply inside_lang|now apply inside_some].
Qed.
Lemma strip_link : forall s t, unlinked s t -> strip_markdown_link s = Val t.
Proof.
  assert (Q : forall s, starts "[" s -> exists r, s = String "[" r) by (intros s (r & ->); now exists r).
  intros s t H. unfold strip_markdown_link. destruct H as [s N|s u x t S U L T|s u S U N].
  - destruct s as [|c s]; [reflexivity|]. change (at_ (String c s) 0) with (Val c). cbn [andthen]. destruct (Ascii.eqb_spec c "[") as [->|_]; [elim N; now exists s|reflexivity].
  - apply before_c_text in U. subst u. destruct (Q _ S) as [r ->]. cbn [at_ get andthen Ascii.eqb Bool.eqb negb]. change (at_ (String "[" r) 0) with (Val "["%char). cbn [andthen Ascii.eqb Bool.eqb negb].
    pose proof (link_capture (String "[" r)) as H. destruct (regex_capture _ _ _) as [g|].
    + destruct H as [_ H]. rewrite <- (link_unique _ _ _ L H). f_equal. now apply trims_trim.
    + destruct H as [H|H]; [discriminate|]. now elim (H x).
  - apply before_c_text in U. subst u. destruct (Q _ S) as [r ->]. change (at_ (String "[" r) 0) with (Val "["%char). cbn [andthen Ascii.eqb Bool.eqb negb].
    pose proof (link_capture (String "[" r)) as H. destruct (regex_capture _ _ _) as [g|]; [|reflexivity]. destruct H as [_ H]. now elim (N _ H).
Qed.
Lemma unlinked_total : forall s, exists t, unlinked s t.
Proof.
  intros s. destruct (starts_dec "[" s) as [S|N]; [|exists s; now constructor]. pose proof (link_capture s) as H. destruct (regex_capture s MarkdownLinkRegex 8) as [g|].
  - destruct H as [_ H]. eexists. eapply unlinked_link; [exact S|now apply before_c_text|exact H|apply trim_trims].
  - destruct H as [->|H]; [destruct S; discriminate|]. exists "". eapply unlinked_none; [exact S|now apply before_c_text|exact H].
Qed.
