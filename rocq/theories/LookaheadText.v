From Verif Require Import Base StringUtility StringSpec StringProofs Regex RegexSpec RegexProofs ByteBuffer Markdown MarkdownSpec Keywords KeywordsSpec KeywordsProofs KeywordsOrder Prop_Keywords RegexCaps SectionsKeys
  SignatureSpec SignatureProofs TypeTables Signature TypeDefs MembersTree Lookahead LookaheadSpec.
From Verif Require SectionsSpec PayloadsSpec.
Import SectionsSpec(type_h).
Import PayloadsSpec(the_text).
Local Open Scope string_scope.

Lemma blanks_white : forall s, blanks s -> all white s.
Proof. intros s. apply Forall_impl. intros c [-> | ->]; vm_compute; auto 10. Qed.
Lemma trim_around : forall a s b, blanks a -> blanks b -> trim (a +++ s +++ b) = trim s.
Proof.
  intros a s b A B. apply trims_trim. destruct (trim_trims s) as (x & y & E & X & Y & H). exists (a +++ x), (y +++ b). split; [rewrite E at 1; now rewrite !append_assoc|].
  split; [apply all_app; split; [now apply blanks_white|exact X]|]. split; [apply all_app; split; [exact Y|now apply blanks_white]|exact H].
Qed.
Lemma blank_no_bracket : forall s, blanks s -> no_brackets s.
Proof. intros s. apply Forall_impl. intros c [-> | ->] [H|[H|[H|[H|[]]]]]; discriminate. Qed.
Lemma no_brackets_app : forall a b, no_brackets (a +++ b) <-> no_brackets a /\ no_brackets b.
Proof. intros a b. exact (all_app _ a b). Qed.
Lemma bracket_split : forall p p' r r', no_brackets p -> no_brackets p' -> p +++ String "[" r = p' +++ String "[" r' -> p = p'.
Proof.
  induction p as [|c p IH]; intros [|c' p'] r r' N N' E; cbn in E.
  - reflexivity.
  - exfalso. injection E as <- _. inversion N' as [|? ? H _]; subst. apply H. cbn. tauto.
  - exfalso. injection E as -> _. inversion N as [|? ? H _]; subst. apply H. cbn. tauto.
  - injection E as -> E. inversion N as [|? ? _ N1]; subst. inversion N' as [|? ? _ N2]; subst. f_equal. exact (IH _ _ _ N1 N2 E).
Qed.
Lemma last_of : forall c s, exists q z, String c s = q +++ String z "".
Proof. intros c s. revert c. induction s as [|d s IH]; intros c; [now exists "", c|]. destruct (IH d) as (q & z & E). exists (String c q), z. now rewrite E. Qed.
Lemma name_lang : forall s, lang name_re s -> no_brackets s /\ s <> "".
Proof.
  intros s L. unfold name_re in L. apply lang_cat_iff in L as (p & q & -> & L & Q). apply lang_eps_iff in Q. subst q. rewrite append_nil_r. apply lang_cat_iff in L as (a & b & -> & A & B).
  apply lang_set_iff in A as (c & -> & C). apply nb_char in C. split; [|discriminate]. cbn. constructor; [exact C|]. exact (proj1 (nb_star b) B).
Qed.
Lemma open_lang : forall s, lang open_re s <-> s = "[".
Proof. exact (lit_spec "["). Qed.
Lemma close_lang : forall s, lang close_re s <-> s = "]".
Proof. exact (lit_spec "]"). Qed.
Lemma named_re : compile NamedResourceHeaderRegex =
  Some (true, Cat (Star blank_re) (Cat (Grp 1 name_re) (Cat gap_re (Cat open_re (Cat (Grp 2 path_re) (Cat close_re Eps))))), true).
Proof. vm_compute. reflexivity. Qed.
Lemma named_capture : forall t, match regex_capture t NamedResourceHeaderRegex 4 with
  | None => t = "" \/ ~ named path (c_text t)
  | Some g => t <> "" /\ exists l n b x, c_text t = (l +++ n +++ b) +++ String "[" (x +++ "]") /\ blanks l /\ no_brackets n /\ n <> "" /\ blanks b /\ b <> "" /\ path x /\ g = [c_text t; n; x; ""]
  end.
Proof.
  intros t. pose proof (capture_whole NamedResourceHeaderRegex _ t 4 ltac:(discriminate) named_re) as H. destruct (regex_capture t NamedResourceHeaderRegex 4) as [g|].
  - destruct H as (N & l & C & ->). split; [exact N|].
    apply caps_cat_inv in C as (p1 & q1 & m1 & n1 & E & -> & C1 & C). apply caps_plain in C1 as [-> L1]; [|reflexivity].
    apply caps_cat_inv in C as (p2 & q2 & m2 & n2 & -> & -> & C2 & C). apply caps_grp_plain in C2 as [-> L2]; [|reflexivity].
    apply caps_cat_inv in C as (p3 & q3 & m3 & n3 & -> & -> & C3 & C). apply caps_plain in C3 as [-> L3]; [|reflexivity].
    apply caps_cat_inv in C as (p4 & q4 & m4 & n4 & -> & -> & C4 & C). apply caps_plain in C4 as [-> L4]; [|reflexivity].
    apply caps_cat_inv in C as (p5 & q5 & m5 & n5 & -> & -> & C5 & C). apply caps_grp_plain in C5 as [-> L5]; [|reflexivity].
    apply caps_cat_inv in C as (p6 & q6 & m6 & n6 & -> & -> & C6 & C). apply caps_plain in C6 as [-> L6]; [|reflexivity]. apply caps_eps_inv in C as [-> ->].
    apply open_lang in L4. apply close_lang in L6. subst p4 p6. apply name_lang in L2 as [L2 L2']. apply gap_lang in L3 as (c & b & -> & Cc & Cb).
    exists p1, p2, (String c b), p5. rewrite append_nil_r in E. split; [rewrite E; now rewrite !append_assoc|]. split; [now apply blanks_lang|]. split; [exact L2|]. split; [exact L2'|].
    split; [now constructor|]. split; [discriminate|]. split; [now apply path_lang|]. reflexivity.
  - destruct H as [H|H]; [now left|right]. intros K. apply H. apply named_resource_text in K. revert K. unfold whole. now rewrite named_re.
Qed.
Lemma attributes_name_iff : forall h name, name <> "" -> (attributes_name h = name <-> resource_named h name).
Proof.
  intros h name Nn. unfold attributes_name, resource_named. assert (T : t_text h = the_text h) by now destruct h. rewrite T. set (t := the_text h). clearbody t. clear T h.
  pose proof (named_capture t) as C. destruct (regex_capture t NamedResourceHeaderRegex 4) as [g|].
  - destruct C as (Nt & l & n & b & x & E & L & N & Nn' & B & Nb & P & ->). cbn [nth].
    assert (F : forall d m c, no_brackets (String d m) -> blank_char c -> l +++ n +++ b = String d m +++ String c "" -> trim (String d m) = trim n).
    { intros d m c _ C F. rewrite <- (trim_around l n b L B), F. change (String d m +++ String c "") with ("" +++ String d m +++ String c ""). symmetry. apply trim_around; [constructor|]. constructor; [exact C|constructor]. }
    assert (Nw : no_brackets (l +++ n +++ b)) by (apply no_brackets_app; split; [now apply blank_no_bracket|]; apply no_brackets_app; split; [exact N|now apply blank_no_bracket]).
    split.
    + intros <-. destruct b as [|c0 b0]; [contradiction|]. destruct (last_of c0 b0) as (q & z & Eb).
      destruct (l +++ n +++ q) as [|d m] eqn:Ed. { exfalso. destruct l; [|discriminate]. destruct n; [contradiction|discriminate]. }
      exists (c_text t), d, m, z, x. split; [exact Nt|]. split; [now apply before_c_text|].
      assert (Ew : l +++ n +++ String c0 b0 = String d m +++ String z "") by (rewrite Eb, <- Ed; now rewrite !append_assoc).
      rewrite Ew in Nw. apply no_brackets_app in Nw as [Nw _]. assert (Bz : blank_char z) by (rewrite Eb in B; apply (proj1 (all_app _ _ _)) in B as [_ B]; now inversion B).
      split; [rewrite E, Ew, append_assoc; reflexivity|]. split; [exact Nw|]. split; [exact Bz|]. split; [exact P|]. apply trims_iff. symmetry. now apply F with z.
    + intros (u & d & m & c & y & _ & U & Eu & Nd & Bc & Py & Tr). apply before_c_text in U. subst u. rewrite Eu in E.
      assert (X : String d m +++ String c "" = l +++ n +++ b).
      { apply (bracket_split _ _ (y +++ "]") (x +++ "]")); [apply no_brackets_app; split; [exact Nd|apply blank_no_bracket; constructor; [exact Bc|constructor]]|exact Nw|]. rewrite <- E. now rewrite append_assoc. }
      apply trims_iff in Tr. subst name. symmetry. now apply F with c.
  - split; [intros <-; now elim Nn|]. intros (u & d & m & c & y & Nt & U & Eu & Nd & Bc & Py & Tr). exfalso. destruct C as [C|C]; [contradiction|]. apply C. apply before_c_text in U. subst u.
    exists d, m, c, y. split; [exact Eu|]. now split.
Qed.

(** ** the mistake *)
Definition no_slash : re := Set_ true [(47, 47)]%N.
Lemma typo_text_iff : forall s, lang (whole NamedActionNonAbsoluteURIRegex) s <->
  exists n x, s = n +++ "[" +++ x +++ "]" /\ n <> "" /\ method_then (gap_then (fun y => y <> "" /\ ~ StringSpec.has "/" y)) x.
Proof.
  intros s. rewrite seq_of_spec.
  assert (E : seq_of (whole NamedActionNonAbsoluteURIRegex) =
    B :: Set_ true [] :: anything :: Set_ false [(byte "[", byte "[")] :: ([MT; Set_ false [(32, 32); (9, 9)]%N; B; no_slash; Star no_slash] ++ [Set_ false [(byte "]", byte "]")]])%list) by (vm_compute; reflexivity).
  rewrite E, blanks_then. clear E.
  assert (I : forall x, langs [MT; Set_ false [(32, 32); (9, 9)]%N; B; no_slash; Star no_slash] x <-> method_then (gap_then (fun y => y <> "" /\ ~ StringSpec.has "/" y)) x).
  { intros x. refine (method_langs _ _ _ x). clear x. intros x. refine (gap_langs _ _ _ x). clear x. intros x. rewrite langs_cons.
    assert (Q : forall y, lang (Star no_slash) y <-> ~ StringSpec.has "/" y).
    { intros y. unfold no_slash. rewrite star_set. unfold all, StringSpec.has. rewrite Forall_forall. split.
      - intros H K. specialize (H _ K). apply not_in in H. apply H. constructor. vm_compute. split; discriminate.
      - intros H c K. apply not_in. intros X. inversion X as [? ? X1|? ? X1]; subst; [|inversion X1]. cbn in X1. apply H. replace "/"%char with c; [exact K|]. apply byte_is. change (byte "/") with 47%N. lia. }
    split.
    - intros (p & q & -> & L & R). apply lang_set_iff in L as (c & -> & Lc). apply (proj1 (langs_cons _ _ _)) in R as (q1 & q2 & -> & R & R2). cbn in R2. subst q2. rewrite append_nil_r. split; [discriminate|].
      apply Q in R. cbn. unfold StringSpec.has in *. cbn [list_ascii_of_string]. intros [K|K]; [|contradiction]. subst c. apply not_in in Lc. apply Lc. constructor. vm_compute. split; discriminate.
    - intros [N H]. destruct x as [|c y]; [contradiction|]. exists (String c ""), y. split; [reflexivity|]. split.
      + apply lang_set_iff. exists c. split; [reflexivity|]. apply not_in. intros X. inversion X as [? ? X1|? ? X1]; subst; [|inversion X1]. cbn in X1. apply H. left. apply byte_is. change (byte "/") with 47%N. lia.
      + apply langs_cons. exists y, "". split; [now rewrite append_nil_r|]. split; [|reflexivity]. apply Q. intros K. apply H. now right. }
  split.
  - intros (b & q0 & -> & _ & R). apply (proj1 (langs_cons _ _ _)) in R as (p & q & -> & L & R).
    apply lang_set_iff in L as (c & -> & _). apply any_then in R as (n & r & -> & R). apply (proj1 (lit_then _ _ _)) in R as (v & -> & R).
    apply (proj1 (langs_app _ _ _)) in R as (x & y & -> & R & Y). apply (proj1 (lit_then _ _ _)) in Y as (z & -> & Z). cbn in Z. subst z.
    exists (b +++ String c n), x. split; [now rewrite append_assoc|]. split; [destruct b; discriminate|now apply I].
  - intros ([|c n] & x & -> & N & R); [congruence|]. exists "", (String c (n +++ "[" +++ x +++ "]")). split; [reflexivity|]. split; [constructor|]. apply langs_cons. exists (String c ""), (n +++ String "[" (x +++ "]")). split; [reflexivity|].
    split; [apply lang_set_iff; now exists c|]. apply any_then. exists n, (String "[" (x +++ "]")). split; [reflexivity|]. apply lit_then. exists (x +++ "]"). split; [reflexivity|].
    apply langs_app. exists x, "]". repeat split; [now apply I|]. apply lit_then. exists "". now split.
Qed.
Lemma typo_iff : forall t, regex_match t NamedActionNonAbsoluteURIRegex = true <->
  exists u n x, t <> "" /\ before "000" t u /\ u = n +++ "[" +++ x +++ "]" /\ n <> "" /\ method_then (gap_then (fun y => y <> "" /\ ~ StringSpec.has "/" y)) x.
Proof.
  intros t. rewrite (match_reads NamedActionNonAbsoluteURIRegex _ ltac:(discriminate) typo_text_iff). split.
  - intros (N & n & x & E & H). exists (c_text t), n, x. split; [exact N|]. split; [now apply before_c_text|]. now split.
  - intros (u & n & x & N & U & E & H). apply before_c_text in U. subst u. split; [exact N|]. now exists n, x.
Qed.
