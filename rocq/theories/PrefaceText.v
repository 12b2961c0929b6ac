(** Lemmas for C84: metadata, descriptions, names of groups *)
From Verif Require Import Base StringUtility StringSpec StringProofs SignatureProofs Regex RegexSpec RegexProofs ByteBuffer ByteSpec ByteProofs Markdown MarkdownSpec Keywords KeywordsSpec KeywordsProofs KeywordsOrder Prop_Keywords Prop_Strings RegexCaps TypeTables Sections SectionsSpec SectionsKeys SectionsMeta SectionsParts SectionsKinds.
From Verif Require Import Source Headers HeadersSpec Payloads PayloadsSpec PayloadsText PayloadsNodes Transactions Preface PrefaceSpec.
Local Open Scope string_scope.

Lemma trim_end_unique : forall y w, all white w -> (forall r c, y = r +++ String c "" -> ~ white c) -> trim_end (y +++ w) = y.
Proof. intros y w W H. unfold trim_end. rewrite last_base_app; [apply sub_app|exact W|exact H]. Qed.
Lemma lines_iff : forall x ls, lines_of x ls <-> ls = split (trim_end x) LF.
Proof.
  intros x ls. split.
  - intros (y & w & -> & W & N & H). rewrite (trim_end_unique y w W N). destruct H as [[-> ->]|(ps & t & -> & -> & Nt & F)]; [reflexivity|].
    apply Forall_app in F as [F T]. inversion T as [|t0 l0 T1 _]; subst. rewrite split_terminated; [|exact F|exact T1]. destruct (String.eqb_spec t "") as [E|_]; [contradiction|reflexivity].
  - intros ->. destruct (trim_end_spec x) as (w & E & W & N). exists (trim_end x), w. split; [exact E|]. split; [exact W|]. split; [exact N|]. revert N. generalize (trim_end x). intros y N. clear E.
    destruct (pieces_of LF y) as (ps & t & F & T & ->). rewrite (split_terminated LF ps t F T). destruct (String.eqb_spec t "") as [->|Nt].
    + left. rewrite append_nil_r in *. destruct (terminated_end LF ps) as [E|(r & E)].
      * split; [exact E|]. destruct ps as [|p ps]; [reflexivity|]. exfalso. unfold terminated in E. cbn in E. destruct p; discriminate.
      * exfalso. apply (N r LF E). vm_compute. auto 10.
    + right. exists ps, t. split; [reflexivity|]. split; [reflexivity|]. split; [exact Nt|]. apply Forall_app. split; [exact F|]. constructor; [exact T|constructor].
Qed.
Lemma pair_some : forall l k v, pair_line l k v <-> pair_of l = [(k, v)].
Proof.
  intros l k v. unfold pair_line, pair_of. destruct (in_dec ascii_dec ":"%char (list_ascii_of_string l)) as [H|H].
  - destruct (has_split _ _ H) as (a & b & -> & A). rewrite (split_first_some _ _ _ A). split.
    + intros (a' & b' & E & A' & T1 & T2 & N1 & N2). assert (X : a' = a /\ b' = b).
      { pose proof (split_first_some _ _ b A) as P. rewrite E in P. change (a' +++ ":" +++ b') with (a' +++ String ":" b') in P. rewrite (split_first_some _ _ b' A') in P. now injection P. }
      destruct X as [-> ->]. apply trims_is in T1 as ->. apply trims_is in T2 as ->. destruct (String.eqb_spec (trim a) "") as [?|_]; [contradiction|]. destruct (String.eqb_spec (trim b) "") as [?|_]; [contradiction|]. reflexivity.
    + intros E. destruct (String.eqb_spec (trim a) "") as [?|N1]; [discriminate|]. destruct (String.eqb_spec (trim b) "") as [?|N2]; [discriminate|]. cbn in E. injection E as <- <-.
      exists a, b. split; [reflexivity|]. split; [exact A|]. split; [now apply trims_is|]. split; [now apply trims_is|]. now split.
  - rewrite (split_first_none _ _ H). split; [|discriminate]. intros (a & b & -> & _). elim H. change (StringSpec.has ":" (a +++ ":" +++ b)). apply has_app. right. now left.
Qed.
Lemma pair_cases : forall l, pair_of l = [] \/ exists p, pair_of l = [p].
Proof. intros l. unfold pair_of. destruct (split_on_first l ":") as [|a [|b [|c r]]]; eauto. destruct (_ && _)%bool; eauto. Qed.
Lemma pair_none : forall l, (forall k v, ~ pair_line l k v) <-> pair_of l = [].
Proof.
  intros l. split.
  - intros H. destruct (pair_cases l) as [E|([k v] & E)]; [exact E|]. apply pair_some in E. now elim (H k v).
  - intros E k v H. apply pair_some in H. congruence.
Qed.
Lemma pairs_iff : forall ls ps, pairs_in ls ps <-> ps = flat_map pair_of ls.
Proof.
  induction ls as [|l ls IH]; intros ps.
  - split; [intros H; now inversion H|intros ->; constructor].
  - cbn [flat_map]. split.
    + intros H. inversion H as [|l0 k v ls0 ps0 P R|l0 ls0 ps0 P R]; subst.
      * apply pair_some in P. rewrite P. apply IH in R. now rewrite R.
      * apply pair_none in P. rewrite P. now apply IH.
    + intros ->. destruct (pair_cases l) as [E|([k v] & E)]; rewrite E.
      * constructor; [now apply pair_none|now apply IH].
      * constructor; [now apply pair_some|now apply IH].
Qed.
Lemma all_pairs : forall ls, Forall (fun l => exists k v, pair_line l k v) ls <-> List.length ls = List.length (flat_map pair_of ls).
Proof.
  assert (Le : forall ls, List.length (flat_map pair_of ls) <= List.length ls).
  { induction ls as [|l ls IH]; [constructor|]. cbn [flat_map]. rewrite app_length. destruct (pair_cases l) as [E|(p & E)]; rewrite E; cbn; lia. }
  induction ls as [|l ls IH]; [split; [reflexivity|constructor]|]. cbn [flat_map]. rewrite app_length. destruct (pair_cases l) as [E|([k v] & E)]; rewrite E; cbn [List.length].
  - split; [|pose proof (Le ls); lia]. intros H. inversion H as [|l0 r0 (k & v & P) _]; subst. apply pair_some in P. congruence.
  - split; intros H.
    + inversion H as [|l0 r0 _ R]; subst. apply IH in R. cbn. lia.
    + constructor; [exists k, v; now apply pair_some|]. apply IH. cbn in H. lia.
Qed.
Lemma repeats_total : forall l a, exists ks, repeats a l ks.
Proof.
  induction l as [|k r IH]; intros a; [exists []; constructor|]. destruct (IH (a ++ [k])%list) as (ks & H). destruct (in_dec string_dec k a) as [I|I]; [exists ks; apply repeats_other; auto|].
  destruct (in_dec string_dec k r) as [J|J]; [exists (k :: ks); now apply repeats_first|exists ks; apply repeats_other; auto].
Qed.
Lemma repeats_unique : forall l a ks ks', repeats a l ks -> repeats a l ks' -> ks = ks'.
Proof.
  induction l as [|k r IH]; intros a ks ks' H H'; inversion H; subst; inversion H'; subst; try reflexivity; try tauto.
  - f_equal. eapply IH; eassumption.
  - eapply IH; eassumption.
Qed.

(** ** actions in a group *)
Lemma dependent_iff : forall t, own_action t <-> action_type_of t = DependentAction.
Proof.
  intros t. unfold own_action. rewrite <- complete_iff. unfold Sections.complete. split.
  - intros [A C]. destruct (action_type_of t) eqn:E; try reflexivity; [|now elim C]. exfalso. apply (C75_headers t) in A. unfold action_section_type in A. unfold action_type_of in E. cbv zeta in *.
    destruct (regex_match (header_whole t) NamedActionHeaderRegex); [discriminate|]. rewrite orb_false_r in A. pose proof (action_capture (header_whole t)) as C'. destruct (regex_capture (header_whole t) ActionHeaderRegex 3) as [g|].
    + destruct (String.eqb (nth 2 g "") ""); discriminate.
    + destruct (regex_match (header_whole t) ActionHeaderRegex) eqn:R; [|discriminate]. apply (match_reads ActionHeaderRegex _ ltac:(discriminate) action_text) in R. destruct R as [Ne R].
      destruct C' as [C'|C']; [contradiction|]. now apply C', action_text.
  - intros E. split; [|rewrite E; discriminate]. pose proof (dependent_action t E) as N. apply (C75_headers t). destruct (action_range t) as [A|A]; [exact A|contradiction].
Qed.

(** ** the name of a group *)
Definition group_re : re :=
  Cat (Star blank_re) (Cat (Set_ false (map (fun d => (byte d, byte d)) ["G"; "g"]%char)) (Cat (Set_ false [(byte "r", byte "r")]) (Cat (Set_ false [(byte "o", byte "o")]) (Cat (Set_ false [(byte "u", byte "u")]) (Cat (Set_ false [(byte "p", byte "p")])
    (Cat gap_re (Cat (Grp 1 name_re) (Cat (Star blank_re) Eps)))))))).
Lemma group_compiled : compile GroupHeaderRegex = Some (true, group_re, true).
Proof. vm_compute. reflexivity. Qed.
Lemma blank_no_bracket : forall s, blanks s -> no_brackets s.
Proof. intros s. unfold blanks, no_brackets, all. rewrite !Forall_forall. intros H c I. apply H in I. destruct I as [-> | ->]; cbn; intuition discriminate. Qed.
Lemma group_capture : forall x, match regex_capture x GroupHeaderRegex 3 with
  | None => forall n, ~ group_words x n
  | Some g => exists n, group_words x n /\ trim (nth 1 g "") = trim n
  end.
Proof.
  intros x. pose proof (capture_whole GroupHeaderRegex _ x 3 ltac:(discriminate) group_compiled) as H. destruct (regex_capture x GroupHeaderRegex 3) as [g|].
  - destruct H as (N & l & C & ->). unfold group_re in C.
    apply caps_cat_inv in C as (p1 & q1 & m1 & n1 & E & -> & C1 & C). apply caps_plain in C1 as [-> L1]; [|reflexivity].
    apply caps_set_cat in C as (d & t1 & -> & D & C). apply pick_set in D. apply caps_lit in C as (t2 & -> & C). apply caps_lit in C as (t3 & -> & C). apply caps_lit in C as (t4 & -> & C). apply caps_lit in C as (t5 & -> & C).
    apply caps_cat_inv in C as (p3 & q3 & m3 & n3 & -> & -> & C3 & C). apply caps_plain in C3 as [-> L3]; [|reflexivity]. apply gap_lang in L3 as (c & b & -> & Cc & Cb).
    apply caps_cat_inv in C as (p4 & q4 & m4 & n4 & -> & -> & C4 & C). apply caps_grp_plain in C4 as [-> L4]; [|reflexivity]. apply name_lang in L4 as [N4 B4].
    apply caps_cat_inv in C as (p7 & q7 & m7 & n7 & -> & -> & C7 & C). apply caps_plain in C7 as [-> L7]; [|reflexivity]. apply caps_eps_inv in C as [-> ->]. rewrite append_nil_r in *.
    apply blanks_lang in L1. apply blanks_lang in L7. exists (b +++ p4 +++ p7). split.
    + exists (c_text x), p1, (String d "roup"), c. split; [exact N|]. split; [now apply before_c_text|]. split; [exact E|]. split; [exact L1|].
      split; [destruct D as [Ed|[Ed|[]]]; rewrite <- Ed; cbn; auto|]. split; [exact Cc|]. split; [intros Z; destruct b; [destruct p4; [now elim N4|discriminate]|discriminate]|].
      unfold no_brackets. apply all_app. split; [now apply blank_no_bracket|]. apply all_app. split; [exact B4|now apply blank_no_bracket].
    + cbn [nth groups]. rewrite trim_before by now apply blank_white. rewrite trim_more by now apply blank_white. reflexivity.
  - intros n (u & l & w & c & N & B & E & L & W & C & Nn & Nb). apply before_c_text in B. subst u. destruct H as [H|H]; [contradiction|]. apply H.
    assert (X : lang (whole GroupHeaderRegex) (c_text x)).
    { apply group_text. exists l, w, (String c n). split; [exact E|]. split; [exact L|]. split; [exact W|]. destruct n as [|d n]; [now elim Nn|]. now exists c, d, n. }
    revert X. unfold whole. now rewrite group_compiled.
Qed.
Lemma group_words_unique : forall x n n', group_words x n -> group_words x n' -> n = n'.
Proof.
  intros x n n' (u & l & w & c & _ & B & E & L & W & C & _) (u' & l' & w' & c' & _ & B' & E' & L' & W' & C' & _). apply before_c_text in B, B'. subst u u'. rewrite E in E'. clear E.
  destruct W as [<-|[<-|[]]]; destruct W' as [<-|[<-|[]]]; cbn in E';
    (apply blank_no_open in E' as [_ E']; [now injection E'|exact L|exact L'|intros [K|K]; discriminate]) || (exfalso; revert l' L' E'; clear - L; induction l as [|a l IH]; intros [|b l'] L' E'; cbn in E'; [discriminate| | |]).
  - injection E' as <- _. apply all_cons in L' as [[K|K] _]; discriminate.
  - injection E' as -> _. apply all_cons in L as [[K|K] _]; discriminate.
  - injection E' as -> E'. apply all_cons in L as [_ L]. apply all_cons in L' as [_ L']. exact (IH L l' L' E').
  - injection E' as <- _. apply all_cons in L' as [[K|K] _]; discriminate.
  - injection E' as -> _. apply all_cons in L as [[K|K] _]; discriminate.
  - injection E' as -> E'. apply all_cons in L as [_ L]. apply all_cons in L' as [_ L']. exact (IH L l' L' E').
Qed.
Lemma group_named_iff : forall t name, group_named t name <-> name = group_title t.
Proof.
  intros t name. unfold group_named, group_title. rewrite text_is. pose proof (group_capture (t_text t)) as H. destruct (regex_capture (t_text t) GroupHeaderRegex 3) as [g|].
  - destruct H as (n & W & ->). split.
    + intros [(m & W' & T)|[N _]]; [|now elim (N n)]. apply trims_is in T as ->. now rewrite (group_words_unique _ _ _ W W').
    + intros ->. left. exists n. split; [exact W|now apply trims_is].
  - split; [|intros ->; right; now split]. intros [(n & W & _)|[_ E]]; [now elim (H n)|exact E].
Qed.

(** ** descriptions *)
Lemma description_unique : forall source d s x y, s <> String LF "" -> description source s d x -> description source s d y -> x = y.
Proof.
  intros source. induction d as [|t d IH]; intros s x y N H H'.
  - inversion H; subst. now inversion H'.
  - assert (Tn : forall c, PayloadsSpec.trims (text_at source (covered (place t))) c -> c <> String LF "").
    { intros c T. apply trims_is in T as ->. destruct (trim_spec (text_at source (covered (place t)))) as (a & b & _ & _ & _ & F & _). intros E. apply (F LF "" E). vm_compute. auto 10. }
    inversion H as [|t0 l0 c0 d0 T0 R0|s0 s1 t0 l0 c0 d0 N0 P0 T0 R0]; subst; inversion H' as [|t2 l2 c2 d2 T2 R2|s2 s3 t2 l2 c2 d2 N2 P2 T2 R2]; subst; try congruence.
    + apply trims_is in T0, T2. subst c0 c2. apply (IH _ _ _ (Tn _ ltac:(now apply trims_is)) R0 R2).
    + apply padded_iff in P0; [|exact N0|exact N]. apply padded_iff in P2; [|exact N0|exact N]. rewrite P0 in P2. injection P2 as <-. apply trims_is in T0, T2. subst c0 c2.
      refine (IH _ _ _ _ R0 R2). destruct (C41_two_new_lines s N0 N) as (k & u & E & Q & _). rewrite E in P0. injection P0 as <-. rewrite Q. intros Z. apply (f_equal String.length) in Z. rewrite !length_append, run_length in Z. cbn in Z. lia.
Qed.
