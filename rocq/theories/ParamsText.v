(** Lemmas for C81: the texts of parameters *)
From Verif Require Import Base StringUtility StringSpec StringProofs HeadersProofs ByteBuffer Markdown MarkdownSpec Regex RegexSpec RegexProofs RegexCaps Keywords KeywordsSpec KeywordsProofs
  Signature SignatureSpec SignatureProofs SignatureAttributes PayloadsText TypeTables SourceMap Mson TypeDefs MembersTree MembersSpec Params ParamsSpec.
From Verif Require PayloadsSpec Blueprint.
Local Open Scope string_scope.
Notation has := StringSpec.has.

(** ** the leftmost of the longest matches *)
Lemma longest_max : forall k r s n, longest k r anything s = Some n -> forall u v, s = u +++ v -> lang r u -> String.length u <= k -> String.length u <= n.
Proof.
  induction k as [|k IH]; intros r s m H u v Es L B.
  - cbn [longest] in H. destruct (_ && _)%bool in H; [|discriminate]. injection H as <-. exact B.
  - cbn [longest] in H. destruct (matchb r (substring 0 (S k) s) && matchb anything (from s (S k)))%bool eqn:F in H.
    + injection H as <-. exact B.
    + destruct (Nat.eq_dec (String.length u) (S k)) as [Q|Q].
      * exfalso. apply andb_false_iff in F as [F|F].
        -- destruct (cut_at u v) as [Y _]. rewrite <- Es, Q in Y. rewrite Y in F. apply matchb_spec in L. congruence.
        -- assert (matchb anything (from s (S k)) = true) by (apply matchb_spec, anything_spec). congruence.
      * apply (IH r s m H u v Es L). lia.
Qed.
Lemma leftmost_some : forall r s u, leftmost_match r s = Some u -> exists a b, s = a +++ u +++ b /\ lang r u /\
  forall a' u' b', s = a' +++ u' +++ b' -> lang r u' -> String.length a < String.length a' \/ (a' = a /\ String.length u' <= String.length u).
Proof.
  intros r s. induction s as [|c s IH]; intros u H; cbn [leftmost_match] in H.
  - destruct (longest _ r anything "") as [k|] eqn:F; [|discriminate]. injection H as <-. exists "", "". destruct (longest_some _ _ _ _ _ F) as (B & L & _). cbn in B. replace k with 0 in * by lia.
    split; [reflexivity|]. split; [exact L|]. intros a' u' b' E _. right. symmetry in E. destruct a'; [|discriminate]. destruct u'; [|discriminate]. split; [reflexivity|apply le_n].
  - destruct (longest (String.length (String c s)) r anything (String c s)) as [k|] eqn:F.
    + assert (Q : u = substring 0 k (String c s)) by congruence. clear H. subst u. destruct (longest_some _ _ _ _ _ F) as (B & L & _). exists "", (from (String c s) k). split; [exact (eq_sym (cut_back k (String c s) B))|]. split; [exact L|].
      intros [|x a'] u' b' E L'; [right|left; cbn; lia]. split; [reflexivity|]. rewrite sub_len by exact B. apply (longest_max _ _ _ _ F u' b' E L'). rewrite E. cbn [append]. rewrite length_append. lia.
    + destruct (IH u H) as (a & b & E & L & M). exists (String c a), b. split; [cbn [append]; now rewrite E|]. split; [exact L|]. intros [|x a'] u' b' E' L'.
      * exfalso. cbn [append] in E'. apply (longest_none _ _ _ _ F (String.length u')); [rewrite E', length_append; lia|rewrite E'; now rewrite (proj1 (cut_at u' b'))|apply anything_spec].
      * cbn [append] in E'. injection E' as <- E'. destruct (M a' u' b' E' L') as [Q|[-> Q]]; [left; cbn; lia|right; now split].
Qed.
Lemma leftmost_none : forall r s, leftmost_match r s = None -> forall a u b, s = a +++ u +++ b -> ~ lang r u.
Proof.
  intros r s. induction s as [|c s IH]; intros H a u b E L; cbn [leftmost_match] in H.
  - symmetry in E. destruct a; [|discriminate]. destruct u; [|discriminate]. destruct (longest _ r anything "") as [k|] eqn:F; [discriminate|]. exact (longest_none _ _ _ _ F 0 (le_n _) L (anything_spec _)).
  - destruct (longest (String.length (String c s)) r anything (String c s)) as [k|] eqn:F; [discriminate|]. destruct a as [|x a].
    + cbn [append] in E. apply (longest_none _ _ _ _ F (String.length u)); [rewrite E, length_append; lia|rewrite E; now rewrite (proj1 (cut_at u b))|apply anything_spec].
    + cbn [append] in E. injection E as <- E. now apply (IH H a u b).
Qed.
Lemma find_match : forall p r t n, p <> "" -> compile p = Some (false, r, false) ->
  match regex_find t p n with
  | None => t = "" \/ forall a u b, c_text t = a +++ u +++ b -> ~ lang r u
  | Some g => t <> "" /\ exists a u b l, c_text t = a +++ u +++ b /\ caps r u l /\ g = groups u l n /\
      forall a' u' b', c_text t = a' +++ u' +++ b' -> lang r u' -> String.length a < String.length a' \/ (a' = a /\ String.length u' <= String.length u)
  end.
Proof.
  intros p r t n Np E. unfold regex_find. destruct (String.eqb_spec t "") as [->|Nt]; [now left|]. destruct (String.eqb_spec p "") as [->|_]; [contradiction|]. cbn [orb]. rewrite E.
  destruct (leftmost_match r (c_text t)) as [u|] eqn:F.
  - split; [exact Nt|]. destruct (leftmost_some _ _ _ F) as (a & b & Et & L & M). exists a, u, b, (captures r u). split; [exact Et|]. split; [now apply caps_of|]. split; [reflexivity|exact M].
  - right. now apply leftmost_none.
Qed.

(** ** C strings *)
Lemma before_is : forall s v, before "000" s v <-> v = c_text s.
Proof. intros s v. split; [intros H; exact (before_unique _ _ _ _ H (c_text_before s))|intros ->; apply c_text_before]. Qed.
Lemma c_text_no : forall s, ~ has "000" s -> c_text s = s.
Proof. intros s H. symmetry. apply before_is. now left. Qed.

(** ** the text in backticks *)
Definition tick_re : re := Set_ false [(96, 96)]%N.
Definition quote_re (inner : re) : re := Cat tick_re (Cat (Grp 1 inner) (Cat tick_re Eps)).
Definition any_re : re := Cat (Star (Set_ true [(96, 96)]%N)) Eps.
Definition some_re : re := Cat (Cat (Set_ true [(96, 96)]%N) (Star (Set_ true [(96, 96)]%N))) Eps.
Lemma not_tick : forall c, in_set true [(96, 96)]%N c = true <-> c <> backtick.
Proof.
  intros c. rewrite in_set_spec. split.
  - intros H ->. assert (true = false) by (apply H; constructor; cbn; lia). discriminate.
  - intros N. split; [|discriminate]. intros H. exfalso. apply N. inversion H as [? ? B|? ? B]; subst; [|inversion B]. cbn in B. rewrite <- (chr_byte c). replace (byte c) with 96%N by lia. reflexivity.
Qed.
Lemma free_all : forall c s, ~ has c s <-> all (fun x => x <> c) s.
Proof. intros c s. unfold all, has. rewrite Forall_forall. split; [intros H x I ->; now apply H|intros H I; now apply (H c I)]. Qed.
Lemma ticks_star : forall s, lang (Star (Set_ true [(96, 96)]%N)) s <-> ~ has "`" s.
Proof. intros s. rewrite star_set, free_all. split; intros H; (eapply Forall_impl; [|exact H]; intros c; apply not_tick). Qed.
Lemma any_lang : forall s, lang any_re s <-> ~ has "`" s.
Proof.
  intros s. unfold any_re. rewrite lang_cat_iff. split.
  - intros (p & q & -> & H & E). apply lang_eps_iff in E as ->. rewrite append_nil_r. now apply ticks_star.
  - intros H. exists s, "". rewrite append_nil_r. split; [reflexivity|]. split; [now apply ticks_star|now apply lang_eps_iff].
Qed.
Lemma some_lang : forall s, lang some_re s <-> s <> "" /\ ~ has "`" s.
Proof.
  intros s. unfold some_re. rewrite lang_cat_iff. split.
  - intros (p & q & -> & H & E). apply lang_eps_iff in E as ->. rewrite append_nil_r. apply lang_cat_iff in H as (u & v & -> & H & K). apply lang_set_iff in H as (c & -> & H).
    split; [discriminate|]. apply not_tick in H. apply ticks_star in K. cbn. intros [I|I]; [now apply H|now apply K].
  - intros [N H]. exists s, "". rewrite append_nil_r. split; [reflexivity|]. split; [|now apply lang_eps_iff]. destruct s as [|c s]; [now elim N|]. apply lang_cat_iff. exists (String c ""), s.
    split; [reflexivity|]. split.
    + apply lang_set_iff. exists c. split; [reflexivity|]. apply not_tick. intros ->. apply H. now left.
    + apply ticks_star. intros I. apply H. now right.
Qed.
Lemma quote_caps : forall r u l, ungrouped r = true -> caps (quote_re r) u l -> exists g, u = "`" +++ g +++ "`" /\ lang r g /\ l = [(1, g)].
Proof.
  intros r u l U H. unfold quote_re in H. apply (caps_lit "`"%char) in H as (t & -> & H). apply caps_cat_inv in H as (p & q & m & n & -> & -> & A & B). apply caps_grp_plain in A as [-> A]; [|exact U].
  apply (caps_lit "`"%char) in B as (t & -> & B). apply caps_eps_inv in B as [-> ->]. exists p. now repeat split.
Qed.
Lemma quote_lang : forall r u, lang (quote_re r) u <-> exists g, u = "`" +++ g +++ "`" /\ lang r g.
Proof.
  intros r u. unfold quote_re. split.
  - intros H. apply lang_cat_iff in H as (p & q & -> & A & H). apply lang_cat_iff in H as (p' & q' & -> & B & H). apply lang_grp_iff in B. apply lang_cat_iff in H as (p2 & q2 & -> & C & H).
    apply lang_eps_iff in H as ->. apply lang_set_iff in A as (c & -> & A), C as (d & -> & C). apply (pick_set ["`"%char]) in A as [<-|[]], C as [<-|[]]. exists p'. now rewrite append_nil_r.
  - intros (g & -> & H). apply (lang_lit "`"%char). apply lang_cat_iff. exists g, "`". split; [reflexivity|]. split; [now apply lang_grp_iff|]. apply (lang_lit "`"%char), lang_eps.
Qed.
Lemma find_example : forall x, match regex_find x AdditionalTraitsExampleRegex 2 with Some g => quotes x (nth 1 g "") | None => forall g, ~ quotes x g end.
Proof.
  intros x. pose proof (find_match AdditionalTraitsExampleRegex (quote_re any_re) x 2 ltac:(discriminate) ltac:(vm_compute; reflexivity)) as F.
  destruct (regex_find x AdditionalTraitsExampleRegex 2) as [gs|].
  - destruct F as (_ & a & u & b & l & E & C & -> & M). apply quote_caps in C as (g & -> & L & ->); [|reflexivity]. apply any_lang in L. cbn [groups map seq nth group Nat.eqb].
    exists (c_text x), a, b. split; [now apply before_is|]. split; [rewrite E; now rewrite !append_assoc|]. split; [|exact L]. intros I.
    apply has_split in I as (a1 & a2 & -> & N). assert (K : c_text x = a1 +++ ("`" +++ (a2 +++ "`" +++ g +++ "`" +++ b))) by (rewrite E; now rewrite !append_assoc).
    destruct (String.length a2) as [|k] eqn:La.
    + destruct a2; [|discriminate]. destruct (M a1 "``" (g +++ "`" +++ b)) as [Q|[Q _]].
      * rewrite K. reflexivity.
      * apply quote_lang. exists "". split; [reflexivity|]. apply any_lang. intros [].
      * rewrite length_append in Q. lia.
      * apply (f_equal String.length) in Q. rewrite length_append in Q. cbn in Q. lia.
    + destruct (has_dec "`" a2) as [I|I].
      * apply has_split in I as (b1 & b2 & -> & N'). destruct (M a1 ("`" +++ b1 +++ "`") (b2 +++ "`" +++ g +++ "`" +++ b)) as [Q|[Q _]].
        -- rewrite K. now rewrite !append_assoc.
        -- apply quote_lang. exists b1. split; [reflexivity|]. now apply any_lang.
        -- rewrite length_append in Q. lia.
        -- apply (f_equal String.length) in Q. rewrite length_append in Q. cbn in Q. lia.
      * destruct (M a1 ("`" +++ a2 +++ "`") (g +++ "`" +++ b)) as [Q|[Q _]].
        -- rewrite K. now rewrite !append_assoc.
        -- apply quote_lang. exists a2. split; [reflexivity|]. now apply any_lang.
        -- rewrite length_append in Q. lia.
        -- apply (f_equal String.length) in Q. rewrite length_append in Q. cbn in Q. lia.
  - intros g (v & a & b & V & Ev & Na & Ng). apply before_is in V. subst v. destruct F as [->|F]; [destruct a; discriminate|].
    apply (F a ("`" +++ g +++ "`") b); [rewrite Ev; now rewrite !append_assoc|]. apply quote_lang. exists g. split; [reflexivity|]. now apply any_lang.
Qed.
Lemma find_value : forall x, match regex_find x ParameterValueRegex 2 with Some g => quotes_some x (nth 1 g "") | None => forall g, ~ quotes_some x g end.
Proof.
  intros x. pose proof (find_match ParameterValueRegex (quote_re some_re) x 2 ltac:(discriminate) ltac:(vm_compute; reflexivity)) as F.
  destruct (regex_find x ParameterValueRegex 2) as [gs|].
  - destruct F as (_ & a & u & b & l & E & C & -> & M). apply quote_caps in C as (g & -> & L & ->); [|reflexivity]. apply some_lang in L as [L L']. cbn [groups map seq nth group Nat.eqb].
    exists (c_text x), a, b. split; [now apply before_is|]. split; [rewrite E; now rewrite !append_assoc|]. split; [exact L|]. split; [exact L'|]. intros a' g' b' E' N' H'.
    destruct (M a' ("`" +++ g' +++ "`") b') as [Q|[-> _]]; [rewrite E'; now rewrite !append_assoc| |lia|apply le_n]. apply quote_lang. exists g'. split; [reflexivity|]. now apply some_lang.
  - intros g (v & a & b & V & Ev & Na & Ng & _). apply before_is in V. subst v. destruct F as [->|F]; [destruct a; discriminate|].
    apply (F a ("`" +++ g +++ "`") b); [rewrite Ev; now rewrite !append_assoc|]. apply quote_lang. exists g. split; [reflexivity|]. now apply some_lang.
Qed.
