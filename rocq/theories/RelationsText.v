(** Lemmas for C85: a relation is its line, and there is one name in it only *)
From Verif Require Import Base StringUtility StringSpec StringProofs SignatureProofs Regex RegexSpec RegexProofs ByteBuffer ByteSpec ByteProofs Markdown MarkdownSpec Keywords KeywordsSpec KeywordsProofs KeywordsOrder Prop_Keywords Prop_Strings RegexCaps TypeTables Sections SectionsSpec SectionsKeys.
From Verif Require Import Source Headers HeadersSpec Payloads PayloadsSpec PayloadsText PayloadsLine PayloadsNodes Transactions TransactionsSpec Preface PrefaceSpec Relations RelationsSpec.
Local Open Scope string_scope.

Definition letter_re : re := Set_ false [(97%N, 122%N)].
Definition more_re : re := Set_ false [(97%N, 122%N); (48%N, 57%N); (46%N, 46%N); (45%N, 45%N)].
Definition relation_re : re :=
  Cat (Star blank_re) (Cat (Set_ false (map (fun d => (byte d, byte d)) ["R"; "r"]%char)) (Cat (lit "e") (Cat (lit "l") (Cat (lit "a") (Cat (lit "t") (Cat (lit "i") (Cat (lit "o") (Cat (lit "n")
    (Cat (Star blank_re) (Cat (lit ":") (Cat (Star blank_re) (Cat (Alt (Grp 1 (Cat letter_re (Cat (Star more_re) Eps))) Eps) (Cat (Star blank_re) Eps))))))))))))).
Lemma relation_compiled : compile RelationIdentifierRegex = Some (true, relation_re, true).
Proof. vm_compute. reflexivity. Qed.

Lemma chars_in : forall s c, one_of_chars s c <-> existsb (Ascii.eqb c) (list_ascii_of_string s) = true.
Proof.
  intros s c. unfold one_of_chars. rewrite existsb_exists. split; [intros I; exists c; split; [exact I|apply Ascii.eqb_refl]|intros (d & I & E); apply Ascii.eqb_eq in E; now subst].
Qed.
Lemma letter_is : forall c, in_set false [(97%N, 122%N)] c = true <-> one_of_chars letters c.
Proof. intros c. rewrite chars_in. destruct c as [[] [] [] [] [] [] [] []]; vm_compute; tauto. Qed.
Lemma more_is : forall c, in_set false [(97%N, 122%N); (48%N, 57%N); (46%N, 46%N); (45%N, 45%N)] c = true <-> one_of_chars (letters +++ "0123456789.-") c.
Proof. intros c. rewrite chars_in. destruct c as [[] [] [] [] [] [] [] []]; vm_compute; tauto. Qed.
Lemma letter_more : forall c, one_of_chars letters c -> one_of_chars (letters +++ "0123456789.-") c.
Proof. intros c. rewrite !chars_in. destruct c as [[] [] [] [] [] [] [] []]; vm_compute; tauto. Qed.
Lemma more_solid : forall c, one_of_chars (letters +++ "0123456789.-") c -> ~ white c.
Proof. intros c H W. apply chars_in in H. revert H W. unfold white. destruct c as [[] [] [] [] [] [] [] []]; vm_compute; intros H W; try discriminate H; repeat (destruct W as [W|W]; [discriminate W|]); exact W. Qed.
Lemma name_re_is : forall n, lang (Cat letter_re (Cat (Star more_re) Eps)) n <-> exists c m, n = String c m /\ one_of_chars letters c /\ all (one_of_chars (letters +++ "0123456789.-")) m.
Proof.
  intros n. rewrite lang_cat_iff. unfold letter_re. split.
  - intros (p & q & -> & A & C). apply lang_set_iff in A as (c & -> & A). apply letter_is in A. apply lang_cat_iff in C as (a & b & -> & C & D). apply lang_eps_iff in D. subst b. rewrite append_nil_r.
    exists c, a. split; [reflexivity|]. split; [exact A|]. unfold more_re in C. apply star_set in C. revert C. apply all_iff. intros d. symmetry. apply more_is.
  - intros (c & m & -> & A & C). exists (String c ""), m. split; [reflexivity|]. split; [apply lang_set_iff; exists c; split; [reflexivity|now apply letter_is]|]. apply lang_cat_iff. exists m, "". split; [now rewrite append_nil_r|].
    split; [|now apply lang_eps_iff]. unfold more_re. apply star_set. revert C. apply all_iff. exact more_is.
Qed.
Lemma name_solid : forall n, relation_name n -> all (fun c => ~ white c) n.
Proof.
  intros n [->|(c & m & -> & A & C)]; [constructor|]. unfold all in *. cbn. constructor; [now apply more_solid, letter_more|]. revert C. apply Forall_impl. exact more_solid.
Qed.
Lemma solid_trim : forall n, all (fun c => ~ white c) n -> trim n = n.
Proof.
  intros n H. apply (trimmed_unique "" n n ""). split; [now rewrite append_nil_r|]. split; [constructor|]. split; [constructor|]. split.
  - intros c r ->. apply all_cons in H as [H _]. exact H.
  - intros r c ->. apply all_app in H as [_ H]. apply all_cons in H as [H _]. exact H.
Qed.

Ltac one_char := match goal with |- lang (Cat _ _) (String ?c ?t) => apply lang_cat_iff; exists (String c ""), t; split; [reflexivity|split; [apply lang_set_iff; exists c; split; reflexivity|]] end.
Ltac next_part a t := apply lang_cat_iff; exists a, t; split; [reflexivity|split].
Lemma relation_re_is : forall u n, relation_line u n -> lang relation_re u.
Proof.
  intros u n (l & w & b1 & b2 & b3 & -> & L & W & B1 & B2 & B3 & N). unfold relation_re.
  next_part l (w +++ b1 +++ ":" +++ b2 +++ n +++ b3); [now apply blanks_lang|].
  assert (R : lang (Cat (Star blank_re) (Cat (lit ":") (Cat (Star blank_re) (Cat (Alt (Grp 1 (Cat letter_re (Cat (Star more_re) Eps))) Eps) (Cat (Star blank_re) Eps))))) (b1 +++ ":" +++ b2 +++ n +++ b3)).
  { next_part b1 (":" +++ b2 +++ n +++ b3); [now apply blanks_lang|]. cbn [String.append]. one_char. next_part b2 (n +++ b3); [now apply blanks_lang|]. next_part n b3.
    - apply lang_alt_iff. destruct N as [->|N]; [right; now apply lang_eps_iff|left; apply lang_grp_iff; now apply name_re_is].
    - apply lang_cat_iff. exists b3, "". split; [now rewrite append_nil_r|]. split; [now apply blanks_lang|now apply lang_eps_iff]. }
  revert R. generalize (b1 +++ ":" +++ b2 +++ n +++ b3). intros t R. destruct W as [<-|[<-|[]]]; cbn [String.append]; repeat one_char; exact R.
Qed.
Lemma relation_capture : forall x, match regex_capture x RelationIdentifierRegex 3 with
  | None => forall n, ~ relation_line (c_text x) n
  | Some g => relation_line (c_text x) (trim (nth 1 g ""))
  end.
Proof.
  intros x. pose proof (capture_whole RelationIdentifierRegex _ x 3 ltac:(discriminate) relation_compiled) as H. destruct (regex_capture x RelationIdentifierRegex 3) as [g|].
  - destruct H as (N & l & C & ->). unfold relation_re in C.
    apply caps_cat_inv in C as (p1 & q1 & m1 & n1 & E & -> & C1 & C). apply caps_plain in C1 as [-> L1]; [|reflexivity].
    apply caps_set_cat in C as (d & t1 & -> & D & C). apply pick_set in D. unfold lit in C. apply caps_lit in C as (t2 & -> & C). apply caps_lit in C as (t3 & -> & C). apply caps_lit in C as (t4 & -> & C). apply caps_lit in C as (t5 & -> & C).
    apply caps_lit in C as (t6 & -> & C). apply caps_lit in C as (t7 & -> & C). apply caps_lit in C as (t8 & -> & C).
    apply caps_cat_inv in C as (p2 & q2 & m2 & n2 & -> & -> & C2 & C). apply caps_plain in C2 as [-> L2]; [|reflexivity]. apply caps_lit in C as (t9 & -> & C).
    apply caps_cat_inv in C as (p3 & q3 & m3 & n3 & -> & -> & C3 & C). apply caps_plain in C3 as [-> L3]; [|reflexivity].
    apply caps_cat_inv in C as (p4 & q4 & m4 & n4 & -> & -> & C4 & C).
    apply caps_cat_inv in C as (p7 & q7 & m7 & n7 & -> & -> & C7 & C). apply caps_plain in C7 as [-> L7]; [|reflexivity]. apply caps_eps_inv in C as [-> ->]. rewrite append_nil_r in *.
    apply blanks_lang in L1. apply blanks_lang in L2. apply blanks_lang in L3. apply blanks_lang in L7.
    assert (X : relation_name p4 /\ nth 1 (groups (c_text x) m4 3) "" = p4).
    { apply caps_alt_inv in C4 as [C4|C4].
      - apply caps_grp_plain in C4 as [-> L4]; [|reflexivity]. apply name_re_is in L4. split; [now right|reflexivity].
      - apply caps_eps_inv in C4 as [-> ->]. split; [now left|reflexivity]. }
    destruct X as [Nm Ng]. cbn [app]. rewrite app_nil_r. rewrite Ng, (solid_trim p4 (name_solid p4 Nm)). exists p1, (String d "elation"), p2, p3, p7. split; [exact E|].
    split; [exact L1|]. split; [destruct D as [Ed|[Ed|[]]]; rewrite <- Ed; cbn; auto|]. now repeat split.
  - intros n R. destruct H as [H|H]; [|apply H; now apply (relation_re_is _ n)]. subst x. destruct R as (l & w & b1 & b2 & b3 & E & _ & W & _). cbn in E. destruct l; [|discriminate]. destruct W as [<-|[<-|[]]]; discriminate.
Qed.
Lemma no_colon : forall s, blanks s -> ~ StringSpec.has ":"%char s.
Proof. intros s B I. unfold blanks, all in B. rewrite Forall_forall in B. apply B in I as [I|I]; discriminate. Qed.
Lemma relation_line_unique : forall u n n', relation_line u n -> relation_line u n' -> n = n'.
Proof.
  assert (X : forall u n, relation_line u n -> exists a b, split_on_first u ":" = [a; b] /\ trim b = n).
  { intros u n (l & w & b1 & b2 & b3 & -> & L & W & B1 & B2 & B3 & N). exists (l +++ w +++ b1), (b2 +++ n +++ b3). split.
    - rewrite <- !append_assoc. rewrite !append_assoc. rewrite <- (append_assoc w), <- (append_assoc l). apply split_first_some. intros I. apply has_app in I as [I|I]; [exact (no_colon l L I)|]. apply has_app in I as [I|I]; [|exact (no_colon b1 B1 I)].
      destruct W as [<-|[<-|[]]]; vm_compute in I; repeat (destruct I as [I|I]; [discriminate I|]); exact I.
    - rewrite trim_before by now apply blank_white. rewrite trim_more by now apply blank_white. now apply solid_trim, name_solid. }
  intros u n n' H H'. apply X in H as (a & b & E & <-). apply X in H' as (a' & b' & E' & <-). congruence.
Qed.
(** what is read *)
Lemma relation_found : forall t first rest l u, lines (the_text t) first rest -> trims first l -> before "000" l u ->
  match relation_of (t_text t) with Some n => relation_line u n | None => forall n, ~ relation_line u n end.
Proof.
  intros t first rest l u L T B. apply lines_iff in L. apply trims_is in T. apply before_c_text in B. subst u l. unfold relation_of, line_of. rewrite <- text_is, L. cbn [fst].
  pose proof (relation_capture (trim first)) as H. destruct (regex_capture (trim first) RelationIdentifierRegex 3); exact H.
Qed.
