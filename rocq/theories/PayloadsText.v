(** Lemmas for C77: texts and the expressions of first lines *)
From Verif Require Import Base StringUtility StringSpec StringProofs SignatureProofs Regex RegexSpec RegexProofs ByteBuffer ByteSpec Markdown MarkdownSpec MarkdownTree Keywords KeywordsSpec KeywordsProofs KeywordsOrder Prop_Keywords Prop_Strings RegexCaps TypeTables SectionsSpec SectionsKeys.
From Verif Require Import Source Headers HeadersSpec HeadersProofs Payloads PayloadsSpec.
Local Open Scope string_scope.

(** ** texts *)
Lemma lines_iff : forall x a b, lines x a b <-> first_line x "" = (a, b).
Proof.
  intros x a b. unfold lines. split.
  - intros [(N & -> & ->)|(-> & N)].
    + exact (proj2 (C41_first_line x "" "" N)).
    + exact (proj1 (C41_first_line a b "" N)).
  - intros H. destruct (HeadersProofs.has_dec LF x) as [Y|N].
    + apply has_split in Y as (p & q & -> & N). rewrite (proj1 (C41_first_line p q "" N)) in H. injection H as <- <-. right. now split.
    + rewrite (proj2 (C41_first_line x "" "" N)) in H. injection H as <- <-. now left.
Qed.
Lemma trims_is : forall s t, PayloadsSpec.trims s t <-> t = trim s.
Proof. exact trims_iff. Qed.
Lemma padded_iff : forall s t, s <> "" -> s <> String LF "" -> (padded s t <-> two_new_lines s = Val t).
Proof.
  intros s t A C. destruct (C41_two_new_lines s A C) as (k & u & E & P & M). rewrite E. split.
  - intros (j & v & -> & Q & L). assert (j = k) as ->; [|reflexivity]. apply Nat.le_antisymm; [exact (L _ _ P)|exact (M _ _ Q)].
  - intros H. injection H as <-. exists k, u. split; [reflexivity|]. split; [exact P|exact M].
Qed.

(** ** captures *)
Lemma caps_set_cat : forall n l r s m, caps (Cat (Set_ n l) r) s m -> exists c t, s = String c t /\ in_set n l c = true /\ caps r t m.
Proof.
  intros n l r s m H. apply caps_cat_inv in H as (p & q & k & o & -> & -> & A & C). inversion A; subst. cbn. eauto.
Qed.
Lemma pick_set : forall l c, in_set false (map (fun d => (byte d, byte d)) l) c = true <-> In c l.
Proof.
  intros l c. rewrite in_set_spec. split.
  - intros [_ H]. apply exact_set. now apply H.
  - intros H. split; [reflexivity|]. intros _. now apply exact_set.
Qed.
Lemma caps_lit : forall d r s m, caps (Cat (Set_ false [(byte d, byte d)]) r) s m -> exists t, s = String d t /\ caps r t m.
Proof.
  intros d r s m H. apply caps_set_cat in H as (c & t & -> & I & C). apply (proj1 (pick_set [d] c)) in I as [<-|[]]. eauto.
Qed.
Lemma lang_pick : forall l c r t, In c l -> lang r t -> lang (Cat (Set_ false (map (fun d => (byte d, byte d)) l)) r) (String c t).
Proof.
  intros l c r t I H. apply lang_cat_iff. exists (String c ""), t. split; [reflexivity|]. split; [|exact H]. apply lang_set_iff. exists c. split; [reflexivity|now apply pick_set].
Qed.
Lemma lang_lit : forall d r t, lang r t -> lang (Cat (Set_ false [(byte d, byte d)]) r) (String d t).
Proof. intros d r t H. apply (lang_pick [d]); [now left|exact H]. Qed.
Lemma lang_cat : forall a b p q, lang a p -> lang b q -> lang (Cat a b) (p +++ q).
Proof. intros a b p q A C. apply lang_cat_iff. eauto. Qed.
Lemma lang_eps : lang Eps "".
Proof. now apply lang_eps_iff. Qed.
(** a match of a pattern without an anchor at its end *)
Lemma capture_prefix : forall p r t n, p <> "" -> compile p = Some (true, r, false) ->
  match regex_capture t p n with
  | None => t = "" \/ forall u v, c_text t = u +++ v -> ~ lang r u
  | Some g => t <> "" /\ exists u v l, c_text t = u +++ v /\ caps r u l /\ g = groups u l n /\
      forall u' v', c_text t = u' +++ v' -> lang r u' -> String.length u' <= String.length u
  end.
Proof.
  intros p r t n Np E. unfold regex_capture. destruct (String.eqb_spec t "") as [->|Nt]; [now left|]. destruct (String.eqb_spec p "") as [->|_]; [contradiction|]. cbn [orb].
  rewrite E. set (s := c_text t). clearbody s.
  assert (X : forall k, (forall n, longest k r anything s = Some n -> forall u v, s = u +++ v -> lang r u -> String.length u <= k -> String.length u <= n)).
  { induction k as [|k IH]; intros m H u v Es L B.
    - cbn [longest] in H. destruct (_ && _)%bool in H; [|discriminate]. injection H as <-. exact B.
    - cbn [longest] in H. destruct (matchb r (substring 0 (S k) s) && matchb anything (from s (S k)))%bool eqn:F in H.
      + injection H as <-. exact B.
      + destruct (Nat.eq_dec (String.length u) (S k)) as [Q|Q].
        * exfalso. apply andb_false_iff in F as [F|F].
          -- destruct (cut_at u v) as [Y _]. rewrite <- Es, Q in Y. rewrite Y in F. apply matchb_spec in L. congruence.
          -- assert (matchb anything (from s (S k)) = true) by (apply matchb_spec, anything_spec). congruence.
        * apply (IH m H u v Es L). lia. }
  destruct (longest (String.length s) r anything s) as [k|] eqn:F.
  - split; [exact Nt|]. destruct (longest_some _ _ _ _ _ F) as (B & L & _). exists (substring 0 k s), (from s k), (captures r (substring 0 k s)).
    split; [now rewrite cut_back|]. split; [now apply caps_of|]. split; [reflexivity|]. intros u v Es Lu.
    assert (Y : String.length (substring 0 k s) = k).
    { now apply sub_len. }
    rewrite Y. apply (X _ _ F u v Es Lu). rewrite Es, length_append. lia.
  - right. intros u v Es L. apply (longest_none _ _ _ _ F (String.length u)).
    + rewrite Es, length_append. lia.
    + rewrite Es. now rewrite (proj1 (cut_at u v)).
    + apply anything_spec.
Qed.

(** ** whitespace *)
Lemma blank_white : forall s, blanks s -> all white s.
Proof. intros s. unfold blanks, all. rewrite !Forall_forall. intros H x I. destruct (H x I) as [-> | ->]; cbn; tauto. Qed.
Lemma trim_white : forall s, trim s = "" <-> all white s.
Proof.
  intros s. split.
  - intros H. destruct (trim_spec s) as (a & b & E & A & C & _). rewrite H in E. rewrite E. apply all_app. now split.
  - intros H. apply (trimmed_unique s _ _ ""). split; [cbn; now rewrite append_nil_r| ]. split; [exact H|]. split; [apply Forall_nil|]. split; [discriminate|]. intros r c E. now destruct r.
Qed.
Lemma trim_more : forall n z, all white z -> trim (n +++ z) = trim n.
Proof.
  intros n z W. destruct (trim_spec n) as (a & b & E & A & C & H1 & H2). apply (trimmed_unique a _ _ (b +++ z)). split; [rewrite E at 1; now rewrite !append_assoc|].
  split; [exact A|]. split; [apply all_app; now split|now split].
Qed.
Lemma trim_before : forall n z, all white z -> trim (z +++ n) = trim n.
Proof.
  intros n z W. destruct (trim_spec n) as (a & b & E & A & C & H1 & H2). apply (trimmed_unique (z +++ a) _ _ b). split; [rewrite E at 1; now rewrite !append_assoc|].
  split; [apply all_app; now split|]. split; [exact C|now split].
Qed.

(** ** references *)
Definition reference_re : re :=
  Cat (Star blank_re) (Cat open_re (Cat (Grp 1 name_re) (Cat close_re (Cat open_re (Cat close_re (Cat (Star blank_re) Eps)))))).
Lemma reference_compiled : compile ModelReferenceRegex = Some (true, reference_re, true).
Proof. vm_compute. reflexivity. Qed.
Lemma name_lang : forall n, lang name_re n <-> n <> "" /\ no_brackets n.
Proof.
  intros n. unfold name_re. rewrite seq_of_spec. match goal with |- langs ?l n <-> _ => change l with [NB; Star NB] end. rewrite (nb_plus [] n). split.
  - intros (d & m & t & -> & H & E). cbn in E. subst t. rewrite append_nil_r. split; [discriminate|exact H].
  - intros [N H]. destruct n as [|d m]; [congruence|]. exists d, m, "". split; [now rewrite append_nil_r|]. split; [exact H|reflexivity].
Qed.
Definition reference_text (v n : string) : Prop := exists l r, v = l +++ "[" +++ n +++ "][]" +++ r /\ blanks l /\ blanks r /\ n <> "" /\ no_brackets n.
Lemma blank_no_open : forall l c x l' x', blanks l -> blanks l' -> ~ blank_char c -> l +++ String c x = l' +++ String c x' -> l = l' /\ x = x'.
Proof.
  induction l as [|d l IH]; intros c x [|d' l'] x' A C N E; cbn in E.
  - injection E as ->. now split.
  - injection E as -> _. apply all_cons in C as [C _]. contradiction.
  - injection E as -> _. apply all_cons in A as [A _]. contradiction.
  - injection E as -> E. apply all_cons in A as [_ A]. apply all_cons in C as [_ C]. destruct (IH _ _ _ _ A C N E) as [-> ->]. now split.
Qed.
Lemma until_char : forall (P : ascii -> Prop) c a x b y, ~ P c -> all P a -> all P b -> a +++ String c x = b +++ String c y -> a = b /\ x = y.
Proof.
  intros P c. induction a as [|d a IH]; intros x [|e b] y N A C E; cbn in E.
  - injection E as ->. now split.
  - injection E as -> _. apply all_cons in C as [C _]. contradiction.
  - injection E as -> _. apply all_cons in A as [A _]. contradiction.
  - injection E as -> E. apply all_cons in A as [_ A]. apply all_cons in C as [_ C]. destruct (IH _ _ _ N A C E) as [-> ->]. now split.
Qed.
Lemma reference_unique : forall v n m, reference_text v n -> reference_text v m -> n = m.
Proof.
  intros v n m (l & r & -> & L & R & _ & N) (l' & r' & E & L' & R' & _ & N'). apply (blank_no_open l "[" _ l' _ L L') in E as [_ E]; [|intros [H|H]; discriminate].
  refine (proj1 (until_char (fun c => ~ In c ["["; "]"; "("; ")"]%char) "]" n _ m _ _ N N' E)). cbn. tauto.
Qed.
Lemma reference_capture : forall s, match regex_capture s ModelReferenceRegex 3 with
  | None => s = "" \/ forall n, ~ reference_text (c_text s) n
  | Some g => s <> "" /\ exists n, reference_text (c_text s) n /\ nth 1 g "" = n
  end.
Proof.
  intros s. pose proof (capture_whole ModelReferenceRegex _ s 3 ltac:(discriminate) reference_compiled) as H. destruct (regex_capture s ModelReferenceRegex 3) as [g|].
  - destruct H as (N & l & C & ->). split; [exact N|]. unfold reference_re in C.
    apply caps_cat_inv in C as (p1 & q1 & m1 & n1 & E & -> & C1 & C). apply caps_plain in C1 as [-> L1]; [|reflexivity].
    apply (caps_lit "[") in C as (q2 & -> & C). apply caps_cat_inv in C as (p3 & q3 & m3 & n3 & -> & -> & C3 & C). apply caps_grp_plain in C3 as [-> L3]; [|reflexivity].
    apply (caps_lit "]") in C as (q4 & -> & C). apply (caps_lit "[") in C as (q5 & -> & C). apply (caps_lit "]") in C as (q6 & -> & C).
    apply caps_cat_inv in C as (p7 & q7 & m7 & n7 & -> & -> & C7 & C). apply caps_plain in C7 as [-> L7]; [|reflexivity]. apply caps_eps_inv in C as [-> ->].
    exists p3. split; [|reflexivity]. apply name_lang in L3 as [L3 L4]. exists p1, p7. rewrite append_nil_r in E. split; [exact E|]. split; [now apply blanks_lang|]. split; [now apply blanks_lang|now split].
  - destruct H as [H|H]; [now left|right]. intros n (l & r & E & L & R & Nn & Nb). apply H. rewrite E. apply lang_cat; [now apply blanks_lang|].
    apply (lang_lit "["). apply lang_cat; [apply lang_grp_iff, name_lang; now split|]. apply (lang_lit "]"), (lang_lit "["), (lang_lit "]").
    rewrite <- (append_nil_r r). apply lang_cat; [now apply blanks_lang|exact lang_eps].
Qed.
Lemma refers_iff : forall s id, refers s id <-> model_reference (trim s) = Some id.
Proof.
  intros s id. unfold model_reference. pose proof (reference_capture (trim s)) as H. split.
  - intros (u & v & l & n & r & T & Nu & V & E & L & R & Nn & Nb & I). apply trims_is in T. subst u. apply before_c_text in V. subst v. apply trims_is in I. subst id.
    assert (X : reference_text (c_text (trim s)) n) by (exists l, r; auto). destruct (regex_capture (trim s) ModelReferenceRegex 3) as [g|].
    + destruct H as (_ & m & M & ->). now rewrite (reference_unique _ _ _ M X).
    + destruct H as [H|H]; [contradiction|]. now elim (H n).
  - destruct (regex_capture (trim s) ModelReferenceRegex 3) as [g|]; [|discriminate]. intros E. injection E as <-. destruct H as (N & n & (l & r & E & L & R & Nn & Nb) & ->).
    exists (trim s), (c_text (trim s)), l, n, r. split; [now apply trims_is|]. split; [exact N|]. split; [now apply before_c_text|]. split; [exact E|]. split; [exact L|]. split; [exact R|]. split; [exact Nn|].
    split; [exact Nb|now apply trims_is].
Qed.
Lemma refers_none : forall s, (forall id, ~ refers s id) <-> model_reference (trim s) = None.
Proof.
  intros s. split.
  - intros H. destruct (model_reference (trim s)) as [id|] eqn:E; [|reflexivity]. elim (H id). now apply refers_iff.
  - intros H id R. apply refers_iff in R. congruence.
Qed.
