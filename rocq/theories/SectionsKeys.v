From Verif Require Import Base StringUtility StringSpec StringProofs Regex RegexSpec RegexProofs ByteBuffer Markdown MarkdownSpec Keywords KeywordsSpec KeywordsProofs KeywordsOrder Prop_Keywords RegexCaps TypeTables Sections SectionsSpec.
Local Open Scope string_scope.

(** ** a method and a path *)
Definition only_method : re := Cat (Star blank_re) (Cat METHOD_re (Star blank_re)).
Definition method_path : re := Cat (Star blank_re) (Cat METHOD_re (Cat (Star blank_re) path_re)).
Definition only_path : re := Cat (Star blank_re) path_re.
Definition method_gap_path : re := Cat (Star blank_re) (Cat METHOD_re (Cat gap_re path_re)).
Lemma method_or_path : apart 1000 only_method method_path = true /\ apart 1000 only_path method_gap_path = true.
Proof. split; vm_compute; reflexivity. Qed.
Lemma method_path_lang : forall s, lang method_path s <-> word_then methods (fun t => exists b x, t = b +++ x /\ blanks b /\ path x) s.
Proof.
  intros s. unfold method_path, word_then. rewrite lang_cat_iff. split.
  - intros (l & q & -> & L & H). apply lang_cat_iff in H as (m & t & -> & M & H). apply lang_cat_iff in H as (b & x & -> & Bl & P).
    exists l, m, (b +++ x). split; [reflexivity|]. split; [now apply blanks_lang|]. split; [now apply method_lang|]. exists b, x. split; [reflexivity|]. split; [now apply blanks_lang|now apply path_lang].
  - intros (l & m & t & -> & L & M & b & x & -> & Bl & P). exists l, (m +++ b +++ x). split; [reflexivity|]. split; [now apply blanks_lang|].
    apply lang_cat_iff. exists m, (b +++ x). split; [reflexivity|]. split; [now apply method_lang|]. apply lang_cat_iff. exists b, x. split; [reflexivity|]. split; [now apply blanks_lang|now apply path_lang].
Qed.
Lemma method_gap_path_lang : forall s, lang method_gap_path s <-> reads_method_path s.
Proof.
  intros s. unfold method_gap_path, reads_method_path, word_then, gap_then. rewrite lang_cat_iff. split.
  - intros (l & q & -> & L & H). apply lang_cat_iff in H as (m & t & -> & M & H). apply lang_cat_iff in H as (b & x & -> & Bl & P). apply gap_lang in Bl as (c & b' & -> & C & Bl).
    exists l, m, (String c b' +++ x). split; [reflexivity|]. split; [now apply blanks_lang|]. split; [now apply method_lang|]. exists b', c, x. split; [reflexivity|]. split; [exact C|]. split; [exact Bl|now apply path_lang].
  - intros (l & m & t & -> & L & M & b & c & x & -> & C & Bl & P). exists l, (m +++ String c (b +++ x)). split; [reflexivity|]. split; [now apply blanks_lang|].
    apply lang_cat_iff. exists m, (String c b +++ x). split; [reflexivity|]. split; [now apply method_lang|]. apply lang_cat_iff. exists (String c b), x. split; [reflexivity|].
    split; [apply gap_lang; eauto|now apply path_lang].
Qed.
Lemma path_not_empty : forall x, path x -> x <> "".
Proof. intros x (y & ->). discriminate. Qed.
(** the groups of an action's header *)
Lemma action_capture : forall t, match regex_capture t ActionHeaderRegex 3 with
  | None => t = "" \/ ~ lang (whole ActionHeaderRegex) (c_text t)
  | Some g => t <> "" /\ exists l m b x, c_text t = l +++ m +++ b +++ x /\ blanks l /\ In m methods /\ blanks b /\ (x = "" \/ path x) /\ g = [c_text t; m; x]
  end.
Proof.
  intros t. pose proof (capture_whole ActionHeaderRegex _ t 3 ltac:(discriminate) action_re) as H. destruct (regex_capture t ActionHeaderRegex 3) as [g|].
  - destruct H as (N & l & C & ->). split; [exact N|].
    apply caps_cat_inv in C as (p1 & q1 & m1 & n1 & E & -> & C1 & C). apply caps_plain in C1 as [-> L1]; [|reflexivity].
    apply caps_cat_inv in C as (p2 & q2 & m2 & n2 & -> & -> & C2 & C). apply caps_grp_plain in C2 as [-> L2]; [|exact method_plain].
    apply caps_cat_inv in C as (p3 & q3 & m3 & n3 & -> & -> & C3 & C). apply caps_plain in C3 as [-> L3]; [|reflexivity].
    apply caps_cat_inv in C as (p4 & q4 & m4 & n4 & -> & -> & C4 & C). apply caps_eps_inv in C as [-> ->].
    exists p1, p2, p3, p4. rewrite append_nil_r in E. split; [exact E|]. split; [now apply blanks_lang|]. split; [now apply method_lang|]. split; [now apply blanks_lang|].
    apply caps_alt_inv in C4 as [C4|C4].
    + apply caps_grp_plain in C4 as [-> L4]; [|reflexivity]. split; [right; now apply path_lang|reflexivity].
    + apply caps_eps_inv in C4 as [-> ->]. split; [now left|reflexivity].
  - destruct H as [H|H]; [now left|right]. unfold whole. now rewrite action_re.
Qed.
Lemma complete_iff : forall t, complete t = true <-> complete_h t.
Proof.
  intros [ty x z m cs]. unfold complete, complete_h, action_type_of, header_whole, is_header, header_says_whole. cbn [t_type t_text].
  destruct ty; try (split; [discriminate|tauto]). rewrite <- says_whole. set (s := trim x). clearbody s.
  destruct (regex_match s NamedActionHeaderRegex) eqn:E.
  - split; [discriminate|]. intros (N & _ & H). elim H. apply (match_reads NamedActionHeaderRegex _ ltac:(discriminate) named_action_text) in E. exact (proj2 E).
  - assert (Nb : s <> "" -> ~ in_brackets (c_text s)).
    { intros N H. enough (X : regex_match s NamedActionHeaderRegex = true) by congruence. apply (match_reads NamedActionHeaderRegex _ ltac:(discriminate) named_action_text). now split. }
    pose proof (action_capture s) as H. destruct (regex_capture s ActionHeaderRegex 3) as [g|].
    + destruct H as (N & l & m0 & b & y & Es & L & M & Bl & P & ->). cbn [nth]. destruct (String.eqb_spec y "") as [->|Ny].
      * split; [discriminate|]. intros (_ & H & _). exfalso. apply method_path_lang in H. refine (apart_sound _ _ _ (proj1 method_or_path) _ _ H).
        rewrite Es, append_nil_r. apply lang_cat_iff. exists l, (m0 +++ b). split; [reflexivity|]. split; [now apply blanks_lang|]. apply lang_cat_iff.
        exists m0, b. split; [reflexivity|]. split; [now apply method_lang|now apply blanks_lang].
      * split; [|reflexivity]. intros _. split; [exact N|]. split; [|now apply Nb]. exists l, m0, (b +++ y). split; [exact Es|]. split; [exact L|]. split; [exact M|].
        exists b, y. destruct P as [->|P]; [contradiction|]. auto.
    + split; [discriminate|]. intros (N & (l & m0 & r & Es & L & M & b & y & -> & Bl & P) & _). exfalso. destruct H as [H|H]; [contradiction|]. apply H, action_text.
      exists l, m0, (b +++ y). split; [exact Es|]. split; [exact L|]. split; [exact M|]. exists b, y. auto.
Qed.
(** the groups of a resource's header *)
Lemma resource_capture : forall t, match regex_capture t ResourceHeaderRegex 4 with
  | None => t = "" \/ ~ lang (whole ResourceHeaderRegex) (c_text t)
  | Some g => t <> "" /\ exists l x, blanks l /\ path x /\
      ((c_text t = l +++ x /\ g = [c_text t; ""; ""; x]) \/
       exists m c b, c_text t = l +++ m +++ String c b +++ x /\ In m methods /\ blank_char c /\ blanks b /\ g = [c_text t; m +++ String c b; m; x])
  end.
Proof.
  intros t. pose proof (capture_whole ResourceHeaderRegex _ t 4 ltac:(discriminate) resource_re) as H. destruct (regex_capture t ResourceHeaderRegex 4) as [g|].
  - destruct H as (N & l & C & ->). split; [exact N|].
    apply caps_cat_inv in C as (p1 & q1 & m1 & n1 & E & -> & C1 & C). apply caps_plain in C1 as [-> L1]; [|reflexivity].
    apply caps_cat_inv in C as (p2 & q2 & m2 & n2 & -> & -> & C2 & C).
    apply caps_cat_inv in C as (p3 & q3 & m3 & n3 & -> & -> & C3 & C). apply caps_grp_plain in C3 as [-> L3]; [|reflexivity]. apply caps_eps_inv in C as [-> ->].
    exists p1, p3. rewrite append_nil_r in E. split; [now apply blanks_lang|]. split; [now apply path_lang|]. apply caps_alt_inv in C2 as [C2|C2].
    + right. apply caps_grp_inv in C2 as (k & -> & C2). apply caps_cat_inv in C2 as (a & b & k1 & k2 & -> & -> & C2 & C4). apply caps_grp_plain in C2 as [-> L2]; [|exact method_plain].
      apply caps_cat_inv in C4 as (g1 & g2 & k3 & k4 & -> & -> & C4 & C5). apply caps_plain in C4 as [-> L4]; [|reflexivity]. apply caps_eps_inv in C5 as [-> ->].
      apply gap_lang in L4 as (c & b & -> & Cc & Cb). rewrite append_nil_r in E. exists a, c, b. rewrite append_assoc in E. split; [exact E|]. split; [now apply method_lang|]. split; [exact Cc|]. split; [exact Cb|].
      rewrite append_nil_r. reflexivity.
    + left. apply caps_eps_inv in C2 as [-> ->]. split; [exact E|reflexivity].
  - destruct H as [H|H]; [now left|right]. unfold whole. now rewrite resource_re.
Qed.
Lemma before_c_text : forall s u, before "000" s u <-> u = c_text s.
Proof.
  induction s as [|c s IH]; intros u; cbn.
  - unfold before. split; [intros [[_ ->]|(r & E & _)]; [reflexivity|now destruct u]|intros ->; left; split; [intros []|reflexivity]].
  - destruct (Ascii.eqb_spec c NUL) as [->|N].
    + split.
      * intros [[H _]|(r & E & H)]; [elim H; now left|]. destruct u as [|d u]; [reflexivity|]. injection E as <- _. elim H. now left.
      * intros ->. right. exists s. split; [reflexivity|intros []].
    + split.
      * intros [[H ->]|(r & E & H)].
        -- f_equal. apply IH. left. split; [intros K; apply H; now right|reflexivity].
        -- destruct u as [|d u]; [injection E as -> _; now elim N|]. injection E as <- E. f_equal. apply IH. right. exists r. split; [exact E|intros K; apply H; now right].
      * intros ->. destruct (proj2 (IH _) eq_refl) as [[H E]|(r & E & H)].
        -- left. split; [intros [->|K]; [now elim N|now apply H]|now rewrite E].
        -- right. exists r. split; [cbn; now rewrite <- E|intros [->|K]; [now elim N|now apply H]].
Qed.
Lemma path_lang_iff : forall s, lang only_path s <-> reads_path s.
Proof.
  intros s. unfold only_path, reads_path. rewrite lang_cat_iff. split.
  - intros (l & q & -> & L & H). exists l, q. split; [reflexivity|]. split; [now apply blanks_lang|now apply path_lang].
  - intros (l & q & -> & L & H). exists l, q. split; [reflexivity|]. split; [now apply blanks_lang|now apply path_lang].
Qed.
Lemma endpoint_re : exists r, compile NamedEndpointHeaderRegex = Some (true, r, true).
Proof. destruct (compile NamedEndpointHeaderRegex) as [[[b r] e]|] eqn:E; [|vm_compute in E; discriminate]. exists r. revert E. vm_compute. intros E. now injection E as <- _ <-. Qed.
Lemma endpoint_iff : forall t, endpoint t = true <-> endpoint_h t.
Proof.
  intros [ty x z m cs]. unfold endpoint, endpoint_h. cbn [t_text].
  assert (X : forall P : string -> Prop, (exists u, x <> "" /\ before "000" x u /\ P u) <-> x <> "" /\ P (c_text x)).
  { intros P. split.
    - intros (u & N & E & H). apply before_c_text in E. now subst u.
    - intros (N & H). exists (c_text x). split; [exact N|]. split; [now apply before_c_text|exact H]. }
  rewrite (X (fun u => reads_method_path u \/ (named (method_then (gap_then path)) u /\ ~ reads_path u))). clear X. pose proof (resource_capture x) as H. destruct (regex_capture x ResourceHeaderRegex 4) as [g|].
  - destruct H as (N & l & y & L & P & [(E & ->)|(m0 & c & b & E & M & C & Bl & ->)]); cbn [nth].
    + assert (R : reads_path (c_text x)) by (exists l, y; auto). split; [discriminate|]. intros (_ & [H|[_ H]]); [|contradiction]. exfalso.
      apply method_gap_path_lang in H. apply path_lang_iff in R. exact (apart_sound _ _ _ (proj2 method_or_path) _ R H).
    + assert (Em : m0 <> "") by (intros ->; revert M; vm_compute; intuition discriminate). destruct (String.eqb_spec m0 "") as [->|_]; [contradiction|]. split; [|reflexivity]. intros _. split; [exact N|].
      left. exists l, m0, (String c b +++ y). split; [exact E|]. split; [exact L|]. split; [exact M|]. exists b, c, y. auto.
  - destruct endpoint_re as (r & Er). pose proof (capture_whole NamedEndpointHeaderRegex r x 5 ltac:(discriminate) Er) as G. destruct (regex_capture x NamedEndpointHeaderRegex 5) as [g|].
    + destruct G as (N & q & G & _). split; [|reflexivity]. intros _. split; [exact N|]. right. split.
      * apply named_endpoint_text. unfold whole. rewrite Er. now apply caps_lang in G.
      * intros R. destruct H as [H|H]; [contradiction|]. apply H, resource_text. now left.
    + split; [discriminate|]. intros (N & [Q|[Q _]]); exfalso.
      * destruct H as [H|H]; [contradiction|]. apply H, resource_text. now right.
      * apply named_endpoint_text in Q. destruct G as [G|G]; [contradiction|]. apply G. revert Q. unfold whole. now rewrite Er.
Qed.
