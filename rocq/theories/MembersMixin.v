(** Lemmas for C80: the name behind "Include" *)
From Verif Require Import Base StringUtility StringSpec StringProofs ByteBuffer Regex RegexSpec RegexProofs RegexCaps Keywords KeywordsSpec KeywordsProofs Prop_Keywords
  SignatureSpec SignatureProofs TypeTables Mson TypeDefsSpec MembersSpec SectionsKeys.
From Verif Require PayloadsText.
Local Open Scope string_scope.

Definition include_re : re :=
  Cat (Star blank_re) (Cat (Grp 1 (Cat (Set_ false [(73, 73); (105, 105)]%N) (Cat (Set_ false [(110, 110)]%N) (Cat (Set_ false [(99, 99)]%N) (Cat (Set_ false [(108, 108)]%N)
    (Cat (Set_ false [(117, 117)]%N) (Cat (Set_ false [(100, 100)]%N) (Cat (Set_ false [(101, 101)]%N) (Cat gap_re Eps))))))))) Eps).
Lemma mixin_re : compile MSONMixinRegex = Some (true, include_re, false).
Proof. vm_compute. reflexivity. Qed.
Definition include_words : list string := ["Include"; "include"].
Lemma include_caps : forall s l, caps include_re s l -> exists b w c g, s = b +++ w +++ String c g /\ blanks b /\ In w include_words /\ blank_char c /\ blanks g /\ group 1 l = w +++ String c g.
Proof.
  intros s l H. unfold include_re in H. apply caps_cat_inv in H as (b & q & m1 & n1 & -> & -> & C1 & C). apply caps_plain in C1 as [-> L1]; [|reflexivity].
  apply caps_cat_inv in C as (p & q2 & m2 & n2 & -> & -> & C2 & C). apply caps_eps_inv in C as [-> ->]. apply caps_grp_inv in C2 as (m & -> & C2). rewrite append_nil_r.
  apply PayloadsText.caps_set_cat in C2 as (c0 & t & -> & I & C2). apply (proj1 (PayloadsText.pick_set ["I"; "i"]%char c0)) in I.
  apply (PayloadsText.caps_lit "n") in C2 as (t1 & -> & C2). apply (PayloadsText.caps_lit "c") in C2 as (t2 & -> & C2). apply (PayloadsText.caps_lit "l") in C2 as (t3 & -> & C2).
  apply (PayloadsText.caps_lit "u") in C2 as (t4 & -> & C2). apply (PayloadsText.caps_lit "d") in C2 as (t5 & -> & C2). apply (PayloadsText.caps_lit "e") in C2 as (t6 & -> & C2).
  apply caps_cat_inv in C2 as (g0 & e & m3 & n3 & -> & -> & C3 & C4). apply caps_eps_inv in C4 as [-> ->]. apply caps_lang in C3. apply gap_lang in C3 as (c & g & -> & B & G). rewrite append_nil_r.
  exists b, (String c0 "nclude"), c, g. split; [reflexivity|]. split; [now apply blanks_lang|]. split; [destruct I as [<-|[<-|[]]]; cbn; auto|]. split; [exact B|]. split; [exact G|reflexivity].
Qed.
Lemma include_lang : forall w c g, In w include_words -> blank_char c -> blanks g -> lang include_re (w +++ String c g).
Proof.
  intros w c g I B G. unfold include_re. apply lang_cat_iff. exists "", (w +++ String c g). split; [reflexivity|]. split; [apply blanks_lang; apply Forall_nil|].
  apply lang_cat_iff. exists (w +++ String c g), "". split; [now rewrite append_nil_r|]. split; [|constructor]. apply lang_grp_iff.
  assert (X : lang (Cat (Set_ false [(110, 110)]%N) (Cat (Set_ false [(99, 99)]%N) (Cat (Set_ false [(108, 108)]%N)
    (Cat (Set_ false [(117, 117)]%N) (Cat (Set_ false [(100, 100)]%N) (Cat (Set_ false [(101, 101)]%N) (Cat gap_re Eps))))))) ("nclude" +++ String c g)).
  { apply (PayloadsText.lang_lit "n"), (PayloadsText.lang_lit "c"), (PayloadsText.lang_lit "l"), (PayloadsText.lang_lit "u"), (PayloadsText.lang_lit "d"), (PayloadsText.lang_lit "e").
    apply lang_cat_iff. exists (String c g), "". split; [now rewrite append_nil_r|]. split; [apply gap_lang; eauto|constructor]. }
  apply lang_cat_iff. destruct I as [<-|[<-|[]]]; [exists "I"|exists "i"]; exists ("nclude" +++ String c g); (split; [reflexivity|]); (split; [|exact X]);
    apply lang_set_iff; eexists; (split; [reflexivity|]); apply (proj2 (PayloadsText.pick_set ["I"; "i"]%char _)); cbn; auto.
Qed.
Lemma longest_most : forall k p q s n, longest k p q s = Some n -> forall m, n < m -> m <= k -> lang p (substring 0 m s) -> lang q (from s m) -> False.
Proof.
  induction k as [|k IH]; intros p q s n H m L M A C; [lia|]. cbn [longest] in H. apply matchb_spec in A as A', C as C'.
  destruct (Nat.eq_dec m (S k)) as [->|N]; [rewrite A', C' in H; injection H as <-; lia|].
  destruct (matchb p (substring 0 (S k) s) && matchb q (from s (S k)))%bool; [injection H as <-; lia|]. apply (IH _ _ _ _ H m); try assumption; lia.
Qed.
Lemma anything_lang : forall s, lang anything s.
Proof. intros s. unfold anything. apply star_set. induction s; [apply Forall_nil|]. apply all_cons. split; [reflexivity|assumption]. Qed.
Lemma c_text_app : forall a b, ~ StringSpec.has NUL a -> c_text (a +++ b) = a +++ c_text b.
Proof.
  induction a as [|c a IH]; intros b N; [reflexivity|]. cbn [append c_text]. destruct (Ascii.eqb_spec c NUL) as [->|_]; [elim N; now left|]. rewrite IH; [reflexivity|]. intros H. apply N. now right.
Qed.
Lemma c_text_part : forall s, exists z, s = c_text s +++ z.
Proof. intros s. destruct (c_text_before s) as [[_ E]|(r & E & _)]; [exists ""; now rewrite append_nil_r|now exists (String NUL r)]. Qed.
Lemma include_free : forall w c g, In w include_words -> blank_char c -> blanks g -> ~ StringSpec.has NUL (w +++ String c g).
Proof.
  intros w c g I B G H. apply has_app in H as [H|[H|H]].
  - destruct I as [<-|[<-|[]]]; cbn in H; intuition discriminate.
  - subst c. destruct B; discriminate.
  - unfold blanks, all in G. rewrite Forall_forall in G. apply G in H. destruct H; discriminate.
Qed.
Lemma blanks_split : forall g g' x x', g +++ x = g' +++ x' -> blanks g -> blanks g' -> (forall c y, x = String c y -> ~ blank_char c) -> (forall c y, x' = String c y -> ~ blank_char c) -> x = x'.
Proof.
  induction g as [|c g IH]; intros [|c' g'] x x' E B B' N N'; cbn in E.
  - exact E.
  - elim (N _ _ E). now apply all_cons in B'.
  - symmetry in E. elim (N' _ _ E). now apply all_cons in B.
  - injection E as <- E. apply all_cons in B as [_ B], B' as [_ B']. now apply (IH g').
Qed.
Lemma include_same : forall w w' a b, In w include_words -> In w' include_words -> w +++ a = w' +++ b -> w = w' /\ a = b.
Proof. intros w w' a b [<-|[<-|[]]] [<-|[<-|[]]] E; cbn in E; injection E as E; try discriminate; now subst. Qed.
Lemma included_unique : forall id l a b, included id l a -> included id l b -> a = b.
Proof.
  intros id l a b [w c g x E I B G N|N] [w' c' g' x' E' I' B' G' N'|N'].
  - f_equal. rewrite E in E'. apply include_same in E' as [_ E']; [|assumption|assumption]. injection E' as -> E'. now apply (blanks_split g g').
  - elim (N' w c (g +++ x) I B E).
  - elim (N w' c' (g' +++ x') I' B' E').
  - reflexivity.
Qed.
Lemma blanks_cut : forall s, exists g x, s = g +++ x /\ blanks g /\ (forall c y, x = String c y -> ~ blank_char c).
Proof.
  induction s as [|c s (g & x & -> & G & N)].
  - exists "", "". split; [reflexivity|]. split; [apply Forall_nil|discriminate].
  - destruct (ascii_dec c " ") as [->|N1]; [|destruct (ascii_dec c "009") as [->|N2]].
    + exists (String " " g), x. split; [reflexivity|]. split; [apply all_cons; split; [now left|exact G]|exact N].
    + exists (String "009" g), x. split; [reflexivity|]. split; [apply all_cons; split; [now right|exact G]|exact N].
    + exists "", (String c (g +++ x)). split; [reflexivity|]. split; [apply Forall_nil|]. intros d y E. injection E as <- _. intros [H|H]; contradiction.
Qed.
(** what the code does with the groups *)
Definition mixin_attributes (id : string) (l : list string) : list string :=
  let g := match regex_capture id MSONMixinRegex 2 with Some g => nth 1 g "" | None => "" end in if String.eqb g "" then l else from id (String.length g) :: l.
Lemma included_ok : forall id l, (forall c y, id = String c y -> ~ blank_char c) -> included id l (mixin_attributes id l).
Proof.
  intros id l F. unfold mixin_attributes, regex_capture. rewrite mixin_re. destruct (String.eqb_spec id "") as [->|Ni].
  { cbn [orb String.eqb]. apply included_none. intros w c x I B H. destruct I as [<-|[<-|[]]]; discriminate. }
  cbn [orb]. change (String.eqb MSONMixinRegex "") with false. cbn [negb orb]. destruct (c_text_part id) as [z Z]. set (s := c_text id) in *.
  destruct (longest (String.length s) include_re anything s) as [n|] eqn:L.
  - destruct (longest_some _ _ _ _ _ L) as (Ln & Lr & _). pose proof (cut_back n s Ln) as Ct. set (u := substring 0 n s) in *. apply caps_of, include_caps in Lr as (b & w & c & g & Eu & B & I & C & G & Gr).
    cbn [seq map nth]. rewrite Gr. assert (b = "") as ->.
    { destruct b as [|d b]; [reflexivity|]. apply all_cons in B as [B _]. elim (F d (b +++ (w +++ String c g) +++ from s n +++ z)).
      - rewrite Z. transitivity ((u +++ from s n) +++ z); [now rewrite Ct|]. rewrite Eu. now rewrite !append_assoc.
      - exact B. }
    cbn [append] in Eu. assert (Ne : String.eqb (w +++ String c g) "" = false) by (destruct I as [<-|[<-|[]]]; reflexivity). rewrite Ne.
    assert (Ei : id = (w +++ String c g) +++ from s n +++ z) by (rewrite Z; transitivity ((u +++ from s n) +++ z); [now rewrite Ct|]; rewrite Eu; now rewrite append_assoc).
    assert (Ef : from id (String.length (w +++ String c g)) = from s n +++ z) by (rewrite Ei; apply (proj2 (cut_at _ _))). rewrite Ef.
    apply (included_name id l w c g (from s n +++ z)); try assumption; [rewrite Ei; now rewrite append_assoc|].
    intros d y Ed Bd. assert (Es : s = (w +++ String c g) +++ String d (c_text y)).
    { unfold s. rewrite Ei, Ed, c_text_app by (now apply include_free). f_equal. cbn [c_text]. destruct (Ascii.eqb_spec d NUL) as [->|_]; [destruct Bd; discriminate|reflexivity]. }
    assert (Es' : s = (w +++ String c (g +++ String d "")) +++ c_text y) by (rewrite Es, !append_assoc; cbn; now rewrite append_assoc).
    assert (Lu : n = String.length (w +++ String c g)) by (rewrite <- Eu; unfold u; symmetry; apply sub_len; exact Ln).
    refine (longest_most _ _ _ _ _ L (String.length (w +++ String c (g +++ String d ""))) _ _ _ (anything_lang _)).
    + rewrite Lu, !length_append. cbn. rewrite !length_append. cbn. lia.
    + assert (Q := f_equal String.length Es'). rewrite (length_append _ (c_text y)) in Q. lia.
    + rewrite Es', (proj1 (cut_at _ _)). apply include_lang; [exact I|exact C|]. apply all_app. split; [exact G|]. apply all_cons. split; [exact Bd|apply Forall_nil].
  - cbn [String.eqb]. apply included_none. intros w c x I C E.
    assert (Es : s = (w +++ String c "") +++ c_text x).
    { unfold s. rewrite E. change (w +++ String c x) with (w +++ (String c "" +++ x)). rewrite <- append_assoc. apply c_text_app. apply include_free; try assumption. apply Forall_nil. }
    refine (longest_none _ _ _ _ L (String.length (w +++ String c "")) _ _ (anything_lang _)).
    + assert (Q := f_equal String.length Es). rewrite (length_append _ (c_text x)) in Q. lia.
    + rewrite Es, (proj1 (cut_at _ _)). apply include_lang; try assumption. apply Forall_nil.
Qed.
Lemma included_iff : forall id l m, (forall c y, id = String c y -> ~ blank_char c) -> (m = mixin_attributes id l <-> included id l m).
Proof. intros id l m F. split; [intros ->; now apply included_ok|intros H; exact (included_unique _ _ _ _ H (included_ok id l F))]. Qed.
Lemma signed_no_blank : forall sh text given p m, signed sh text given (Some (p, m)) -> forall c y, p_id p = String c y -> ~ blank_char c.
Proof.
  intros sh text given p m H. inversion H as [s rest id s1 w1 v vs s2 w2 l s3 c Su Id Va Ch Co|]; subst. cbn [p_id]. intros d y E B. destruct Id as [s0 _|s0 s1' q r id s' _ _ _ _ T _]; [discriminate|].
  destruct T as (a & b & _ & _ & _ & N & _). apply (N _ _ E). destruct B as [-> | ->]; unfold white; cbn; auto 10.
Qed.
