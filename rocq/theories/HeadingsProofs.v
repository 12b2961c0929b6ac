(** Lemmas for C89: the headers of resources and actions *)
From Verif Require Import Base StringUtility StringSpec StringProofs Regex RegexSpec RegexProofs ByteBuffer Markdown MarkdownSpec Keywords KeywordsSpec KeywordsProofs KeywordsOrder Prop_Keywords RegexCaps SectionsKeys
  SignatureSpec SignatureProofs LookaheadText HeadingsSpec.
From Verif Require PayloadsSpec.
Local Open Scope string_scope.

(** ** the longest run *)
Definition stops (P : ascii -> Prop) (r : string) : Prop := forall c x, r = String c x -> ~ P c.
Lemma run_unique : forall P m m' r r', all P m -> all P m' -> stops P r -> stops P r' -> m +++ r = m' +++ r' -> m = m' /\ r = r'.
Proof.
  intros P. induction m as [|c m IH]; intros [|c' m'] r r' A A' S S' E; cbn in E.
  - now split.
  - exfalso. apply (S _ _ E). now inversion A'.
  - exfalso. symmetry in E. apply (S' _ _ E). now inversion A.
  - injection E as <- E. inversion A as [|? ? _ A1]; subst. inversion A' as [|? ? _ A2]; subst. destruct (IH _ _ _ A1 A2 S S' E) as [-> ->]. now split.
Qed.
Definition capital (c : ascii) : Prop := (65 <= byte c <= 90)%N.
Lemma blank_no_capital : forall c, blank_char c -> ~ capital c.
Proof. intros c [-> | ->]; unfold capital; cbn; lia. Qed.
Lemma method_capital : forall m, In m methods -> all capital m /\ exists c x, m = String c x.
Proof. intros m I. cbn in I. repeat (destruct I as [<-|I]; [split; [repeat (constructor; [unfold capital; cbn; lia|]); constructor|do 2 eexists; reflexivity]|]). destruct I. Qed.
Lemma stops_slash : forall u, path u -> stops blank_char u /\ stops capital u.
Proof. intros u (y & ->). split; intros c x E; injection E as <- _; [intros [H|H]; discriminate|unfold capital; cbn; lia]. Qed.
Lemma stops_method : forall m r, In m methods -> stops blank_char (m +++ r).
Proof. intros m r I c x E B. apply method_capital in I as (A & d & y & ->). cbn in E. injection E as -> _. inversion A; subst. now apply (blank_no_capital c). Qed.
Lemma stops_blank : forall b r, blanks b -> stops capital r -> stops capital (b +++ r).
Proof. intros [|d b] r B S c x E; [exact (S _ _ E)|]. cbn in E. injection E as -> _. apply blank_no_capital. now inversion B. Qed.
Lemma path_end : forall u r, u = "" \/ path u -> r = "" \/ r = "]" -> stops blank_char (u +++ r) /\ stops capital (u +++ r).
Proof.
  intros u r [->|(y & ->)] R; [destruct R as [->| ->]|]; split; intros c x E; cbn in E; try discriminate; injection E as <- _; try (intros [H|H]; discriminate); unfold capital; cbn; lia.
Qed.
(** a method, blanks and the rest *)
Lemma method_split : forall m b u r m' b' u' r', In m methods -> In m' methods -> blanks b -> blanks b' -> u = "" \/ path u -> u' = "" \/ path u' -> r = "" \/ r = "]" -> r' = "" \/ r' = "]" ->
  m +++ b +++ u +++ r = m' +++ b' +++ u' +++ r' -> m = m' /\ u +++ r = u' +++ r'.
Proof.
  intros m b u r m' b' u' r' M M' B B' U U' R R' E. destruct (path_end u r U R) as [P1 P2], (path_end u' r' U' R') as [Q1 Q2].
  destruct (run_unique capital m m' _ _ (proj1 (method_capital _ M)) (proj1 (method_capital _ M')) (stops_blank _ _ B P2) (stops_blank _ _ B' Q2) E) as [-> E'].
  split; [reflexivity|]. exact (proj2 (run_unique blank_char b b' _ _ B B' P1 Q1 E')).
Qed.
Lemma append_cancel : forall x y c, x +++ String c "" = y +++ String c "" -> x = y.
Proof.
  induction x as [|a x IH]; intros [|d y] c E; cbn in E; [reflexivity|injection E as _ E; destruct y; discriminate|injection E as _ E; destruct x; discriminate|].
  injection E as -> E. f_equal. exact (IH _ _ E).
Qed.
(** ** resources *)
Lemma before_slash : forall p p' u u', all (fun c => c <> "/"%char) p -> all (fun c => c <> "/"%char) p' -> path u -> path u' -> p +++ u = p' +++ u' -> u = u'.
Proof.
  intros p p' u u' A A' (y & ->) (y' & ->) E. refine (proj2 (run_unique (fun c => c <> "/"%char) p p' _ _ A A' _ _ E)); intros c x F; injection F as <- _; tauto.
Qed.
Lemma blanks_slash : forall b, blanks b -> all (fun c => c <> "/"%char) b.
Proof. intros b. apply Forall_impl. intros c [-> | ->]; discriminate. Qed.
Lemma method_slash : forall m, In m methods -> all (fun c => c <> "/"%char) m.
Proof. intros m I. apply method_capital in I as [A _]. revert A. apply Forall_impl. intros c H ->. unfold capital in H. cbn in H. lia. Qed.
Definition leads (p : string) : Prop := exists l, blanks l /\ (p = l \/ exists m c b, In m methods /\ blank_char c /\ blanks b /\ p = l +++ m +++ String c b).
Lemma leads_slash : forall p, leads p -> all (fun c => c <> "/"%char) p.
Proof.
  intros p (l & L & [->|(m & c & b & M & C & B & ->)]); [now apply blanks_slash|]. apply all_app. split; [now apply blanks_slash|]. apply all_app. split; [now apply method_slash|].
  apply blanks_slash. now constructor.
Qed.
Lemma reads_leads : forall s, (reads_path s \/ reads_method_path s) <-> exists p u, s = p +++ u /\ leads p /\ path u.
Proof.
  intros s. split.
  - intros [(l & t & -> & L & P)|(l & w & t & -> & L & W & (b & c & x & -> & C & B & P))].
    + exists l, t. split; [reflexivity|]. split; [|exact P]. exists l. split; [exact L|now left].
    + exists (l +++ w +++ String c b), x. split; [now rewrite !append_assoc|]. split; [|exact P]. exists l. split; [exact L|]. right. now exists w, c, b.
  - intros (p & u & -> & (l & L & [->|(m & c & b & M & C & B & ->)]) & P); [left; now exists l, u|right]. exists l, m, (String c b +++ u). split; [now rewrite !append_assoc|].
    split; [exact L|]. split; [exact M|]. exists b, c, u. now split.
Qed.
Lemma resource_capture : forall t, match regex_capture t ResourceHeaderRegex 4 with
  | None => t = "" \/ ~ (reads_path (c_text t) \/ reads_method_path (c_text t))
  | Some g => exists p u, c_text t = p +++ u /\ leads p /\ path u /\ nth 3 g "" = u
  end.
Proof.
  intros t. pose proof (capture_whole ResourceHeaderRegex _ t 4 ltac:(discriminate) resource_re) as H. destruct (regex_capture t ResourceHeaderRegex 4) as [g|].
  - destruct H as (_ & l & C & ->).
    apply caps_cat_inv in C as (p1 & q1 & m1 & n1 & E & -> & C1 & C). apply caps_plain in C1 as [-> L1]; [|reflexivity]. apply blanks_lang in L1.
    apply caps_cat_inv in C as (p2 & q2 & m2 & n2 & -> & -> & C2 & C).
    apply caps_cat_inv in C as (p3 & q3 & m3 & n3 & -> & -> & C3 & C). apply caps_grp_plain in C3 as [-> L3]; [|reflexivity]. apply path_lang in L3. apply caps_eps_inv in C as [-> ->].
    rewrite append_nil_r in E. apply caps_alt_inv in C2 as [C2|C2].
    + apply caps_grp_inv in C2 as (k & -> & C2). apply caps_cat_inv in C2 as (p4 & q4 & m4 & n4 & -> & -> & C4 & C2). apply caps_grp_plain in C4 as [-> L4]; [|exact method_plain]. apply method_lang in L4.
      apply caps_plain in C2 as [-> L5]; [|reflexivity]. apply lang_cat_iff in L5 as (p5 & q5 & -> & L5 & L6). apply lang_eps_iff in L6 as ->. apply gap_lang in L5 as (c & b & -> & Cc & Cb).
      exists (p1 +++ p4 +++ String c b), p3. rewrite append_nil_r in E. split; [rewrite E; now rewrite !append_assoc|]. split; [|now split]. exists p1. split; [exact L1|]. right. now exists p4, c, b.
    + apply caps_eps_inv in C2 as [-> ->]. exists p1, p3. split; [exact E|]. split; [|now split]. exists p1. split; [exact L1|now left].
  - destruct H as [H|H]; [now left|right]. intros K. apply H. apply resource_text in K. revert K. unfold whole. now rewrite resource_re.
Qed.
Lemma endpoint_whole : compile NamedEndpointHeaderRegex =
  Some (true, Cat (Star blank_re) (Cat (Grp 1 name_re) (Cat gap_re (Cat open_re (Cat (Grp 2 METHOD_re) (Cat gap_re (Cat (Grp 3 path_re) (Cat close_re Eps))))))), true).
Proof. vm_compute. reflexivity. Qed.
Lemma endpoint_capture : forall t, match regex_capture t NamedEndpointHeaderRegex 5 with
  | None => t = "" \/ ~ named (method_then (gap_then path)) (c_text t)
  | Some g => exists l n b m d e x, c_text t = (l +++ n +++ b) +++ String "[" (m +++ (String d e) +++ x +++ "]") /\ blanks l /\ no_brackets n /\ n <> "" /\ blanks b /\ b <> "" /\
      In m methods /\ blank_char d /\ blanks e /\ path x /\ nth 1 g "" = n /\ nth 3 g "" = x
  end.
Proof.
  intros t. pose proof (capture_whole NamedEndpointHeaderRegex _ t 5 ltac:(discriminate) endpoint_whole) as H. destruct (regex_capture t NamedEndpointHeaderRegex 5) as [g|].
  - destruct H as (_ & l & C & ->).
    apply caps_cat_inv in C as (p1 & q1 & m1 & n1 & E & -> & C1 & C). apply caps_plain in C1 as [-> L1]; [|reflexivity].
    apply caps_cat_inv in C as (p2 & q2 & m2 & n2 & -> & -> & C2 & C). apply caps_grp_plain in C2 as [-> L2]; [|reflexivity].
    apply caps_cat_inv in C as (p3 & q3 & m3 & n3 & -> & -> & C3 & C). apply caps_plain in C3 as [-> L3]; [|reflexivity].
    apply caps_cat_inv in C as (p4 & q4 & m4 & n4 & -> & -> & C4 & C). apply caps_plain in C4 as [-> L4]; [|reflexivity].
    apply caps_cat_inv in C as (p5 & q5 & m5 & n5 & -> & -> & C5 & C). apply caps_grp_plain in C5 as [-> L5]; [|exact method_plain].
    apply caps_cat_inv in C as (p6 & q6 & m6 & n6 & -> & -> & C6 & C). apply caps_plain in C6 as [-> L6]; [|reflexivity].
    apply caps_cat_inv in C as (p7 & q7 & m7 & n7 & -> & -> & C7 & C). apply caps_grp_plain in C7 as [-> L7]; [|reflexivity].
    apply caps_cat_inv in C as (p8 & q8 & m8 & n8 & -> & -> & C8 & C). apply caps_plain in C8 as [-> L8]; [|reflexivity]. apply caps_eps_inv in C as [-> ->].
    apply open_lang in L4. apply close_lang in L8. subst p4 p8. apply name_lang in L2 as [L2 L2']. apply gap_lang in L3 as (c & b & -> & Cc & Cb). apply gap_lang in L6 as (d & e & -> & Dc & De).
    apply method_lang in L5. apply path_lang in L7. apply blanks_lang in L1. exists p1, p2, (String c b), p5, d, e, p7. rewrite append_nil_r in E.
    split; [rewrite E; now rewrite !append_assoc|]. split; [exact L1|]. split; [exact L2|]. split; [exact L2'|]. split; [now constructor|]. split; [discriminate|]. auto 8.
  - destruct H as [H|H]; [now left|right]. intros K. apply H. apply named_endpoint_text in K. revert K. unfold whole. now rewrite endpoint_whole.
Qed.
Lemma front : forall l n b, blanks l -> no_brackets n -> n <> "" -> blanks b -> b <> "" ->
  exists n0 c, l +++ n +++ b = n0 +++ String c "" /\ no_brackets n0 /\ n0 <> "" /\ blank_char c /\ trim n0 = trim n.
Proof.
  intros l n b L N Nn B Nb. destruct b as [|c0 b0]; [contradiction|]. destruct (last_of c0 b0) as (q & z & Eb).
  exists (l +++ n +++ q), z. rewrite Eb in B |- *. apply (proj1 (all_app _ _ _)) in B as [Bq Bz]. split; [now rewrite !append_assoc|].
  split; [apply no_brackets_app; split; [now apply blank_no_bracket|]; apply no_brackets_app; split; [exact N|now apply blank_no_bracket]|].
  split; [intros F; destruct l; [destruct n; [contradiction|discriminate]|discriminate]|]. split; [now inversion Bz|now apply trim_around].
Qed.
Lemma same_front : forall n c n' c' r r', no_brackets n -> no_brackets n' -> blank_char c -> blank_char c' ->
  n +++ String c (String "[" r) = n' +++ String c' (String "[" r') -> trim n = trim n' /\ r = r'.
Proof.
  intros n c n' c' r r' N N' C C' E. assert (K : forall n c r, n +++ String c (String "[" r) = (n +++ String c "") +++ String "[" r) by (intros; now rewrite append_assoc). rewrite !K in E.
  assert (Nb : forall n c, no_brackets n -> blank_char c -> no_brackets (n +++ String c "")) by (intros; apply no_brackets_app; split; [assumption|apply blank_no_bracket; now constructor]).
  pose proof (bracket_split _ _ _ _ (Nb _ _ N C) (Nb _ _ N' C') E) as F. split; [|rewrite F in E; apply append_inj_l in E; now injection E].
  assert (T : forall n c, blank_char c -> trim (n +++ String c "") = trim n) by (intros x y Y; exact (trim_around "" x (String y "") (Forall_nil _) (Forall_cons _ Y (Forall_nil _)))).
  rewrite <- (T n c C), <- (T n' c' C'). now rewrite F.
Qed.
Lemma path_no_method : forall u m r r', path u -> In m methods -> u +++ r <> m +++ r'.
Proof. intros u m r r' (y & ->) I E. apply method_capital in I as (A & c & x & ->). cbn in E. injection E as <- _. inversion A as [|? ? H _]; subst. unfold capital in H. cbn in H. lia. Qed.
Lemma heading_leads : forall s n u, resource_heading s n u -> (exists p, s = p +++ u /\ leads p /\ path u /\ n = "") \/ ~ (reads_path s \/ reads_method_path s).
Proof.
  intros s n u H. destruct H as [l u L P|l m c b u L M C B P|n c u name N Nn C P T A B|n c m d b u name N Nn C M D B P T A A'].
  - left. exists l. split; [reflexivity|]. split; [|now split]. exists l. split; [exact L|now left].
  - left. exists (l +++ m +++ String c b). split; [now rewrite !append_assoc|]. split; [|now split]. exists l. split; [exact L|]. right. now exists m, c, b.
  - right. tauto.
  - right. tauto.
Qed.
Lemma heading_unique : forall s n u n' u', resource_heading s n u -> resource_heading s n' u' -> n = n' /\ u = u'.
Proof.
  intros s n u n' u' H H'. destruct (heading_leads _ _ _ H) as [(p & E & L & P & ->)|Q], (heading_leads _ _ _ H') as [(p' & E' & L' & P' & ->)|Q'].
  - split; [reflexivity|]. rewrite E in E'. exact (before_slash _ _ _ _ (leads_slash _ L) (leads_slash _ L') P P' E').
  - exfalso. apply Q', reads_leads. now exists p, u.
  - exfalso. apply Q, reads_leads. now exists p', u'.
  - destruct H as [l u L P|l m c b u L M C B P|n c u name N Nn C P T A B|n c m d b u name N Nn C M D B P T A A'].
    + elim Q. left. now exists l, u.
    + elim Q. apply reads_leads. exists (l +++ m +++ String c b), u. split; [now rewrite !append_assoc|]. split; [|exact P]. exists l. split; [exact L|]. right. now exists m, c, b.
    + remember (n +++ String c ("[" +++ u +++ "]")) as s eqn:E. destruct H' as [l1 u1 L1 P1|l1 m1 c1 b1 u1 L1 M1 C1 B1 P1|n1 c1 u1 name1 N1 Nn1 C1 P1 T1 A1 B1|n1 c1 m1 d1 b1 u1 name1 N1 Nn1 C1 M1 D1 B1 P1 T1 A1 A1'].
      * elim A. now exists l1, u1.
      * elim B. exists l1, m1, (String c1 b1 +++ u1). split; [now rewrite ?append_assoc|]. split; [exact L1|]. split; [exact M1|]. exists b1, c1, u1. now split.
      * apply same_front in E as [E1 E2]; [|assumption..]. apply trims_iff in T, T1. split; [congruence|]. symmetry. exact (append_cancel _ _ _ E2).
      * apply same_front in E as [E1 E2]; [|assumption..]. exfalso. symmetry in E2. exact (path_no_method _ _ _ _ P M1 E2).
    + remember (n +++ String c ("[" +++ m +++ String d b +++ u +++ "]")) as s eqn:E. destruct H' as [l1 u1 L1 P1|l1 m1 c1 b1 u1 L1 M1 C1 B1 P1|n1 c1 u1 name1 N1 Nn1 C1 P1 T1 A1 B1|n1 c1 m1 d1 b1 u1 name1 N1 Nn1 C1 M1 D1 B1 P1 T1 A1 A1'].
      * elim A. now exists l1, u1.
      * elim A'. exists l1, m1, (String c1 b1 +++ u1). split; [now rewrite ?append_assoc|]. split; [exact L1|]. split; [exact M1|]. exists b1, c1, u1. now split.
      * apply same_front in E as [E1 E2]; [|assumption..]. exfalso. exact (path_no_method _ _ _ _ P1 M E2).
      * apply same_front in E as [E1 E2]; [|assumption..]. apply trims_iff in T, T1. split; [congruence|]. symmetry.
        destruct (method_split m1 (String d1 b1) u1 "]" m (String d b) u "]") as [_ F]; [assumption|assumption|now constructor|now constructor|now right|now right|now right|now right|exact E2|]. exact (append_cancel _ _ _ F).
Qed.
Lemma resource_capture_total : forall t, (exists n u, resource_heading (c_text t) n u) ->
  match regex_capture t ResourceHeaderRegex 4 with
  | Some g => resource_heading (c_text t) "" (nth 3 g "")
  | None =>
    match regex_capture t NamedEndpointHeaderRegex 5 with
    | Some g => resource_heading (c_text t) (trim (nth 1 g "")) (nth 3 g "")
    | None => match regex_capture t NamedResourceHeaderRegex 4 with Some g => resource_heading (c_text t) (trim (nth 1 g "")) (nth 2 g "") | None => False end
    end
  end.
Proof.
  intros t (n0 & u0 & H0). assert (Nt : t <> "").
  { intros ->. cbn in H0. assert (Z : forall a b c, String.length (a +++ String b c) = 0 -> False) by (intros [|x a]; discriminate).
    remember "" as s eqn:E. destruct H0 as [l u L (y & ->)|l m c b u L M C B P|n c u name N Nn C P T A B|n c m d b u name N Nn C M D B P T A A']; [exact (Z _ _ _ (f_equal String.length E))| |exact (Z _ _ _ (f_equal String.length E))|exact (Z _ _ _ (f_equal String.length E))].
    destruct l; [destruct m; discriminate|discriminate]. }
  pose proof (resource_capture t) as R. destruct (regex_capture t ResourceHeaderRegex 4) as [g|].
  - destruct R as (p & u & E & (l & L & [->|(m & c & b & M & C & B & ->)]) & P & ->); rewrite E; [now apply heading_path|]. rewrite !append_assoc. now apply heading_method.
  - destruct R as [R|R]; [contradiction|]. pose proof (endpoint_capture t) as Q. destruct (regex_capture t NamedEndpointHeaderRegex 5) as [g|].
    + destruct Q as (l & n & b & m & d & e & x & E & L & N & Nn & B & Nb & M & D & Ce & P & -> & ->). destruct (front l n b L N Nn B Nb) as (n1 & c & F & N1 & Nn1 & C & T).
      assert (E' : c_text t = n1 +++ String c ("[" +++ m +++ String d e +++ x +++ "]")) by (rewrite E, F; now rewrite append_assoc). rewrite E' in R |- *.
      apply heading_endpoint; try assumption; [apply trims_iff; now symmetry|tauto|tauto].
    + pose proof (named_capture t) as K. destruct (regex_capture t NamedResourceHeaderRegex 4) as [g|].
      * destruct K as (_ & l & n & b & x & E & L & N & Nn & B & Nb & P & ->). cbn [nth]. destruct (front l n b L N Nn B Nb) as (n1 & c & F & N1 & Nn1 & C & T).
        assert (E' : c_text t = n1 +++ String c ("[" +++ x +++ "]")) by (rewrite E, F; now rewrite append_assoc). rewrite E' in R |- *.
        apply heading_named; try assumption; [apply trims_iff; now symmetry|tauto|tauto].
      * destruct Q as [Q|Q]; [contradiction|]. destruct K as [K|K]; [contradiction|]. destruct (heading_leads _ _ _ H0) as [(p & E & Lp & P & _)|_]; [apply R, reads_leads; now exists p, u0|].
        destruct H0 as [l u L P|l m c b u L M C B P|n c u name N Nn C P T A B|n c m d b u name N Nn C M D B P T A A'].
        -- apply R. left. now exists l, u.
        -- apply R, reads_leads. exists (l +++ m +++ String c b), u. split; [now rewrite !append_assoc|]. split; [|exact P]. exists l. split; [exact L|]. right. now exists m, c, b.
        -- apply K. destruct n as [|d n]; [contradiction|]. exists d, n, c, u. now split.
        -- apply Q. destruct n as [|d0 n]; [contradiction|]. exists d0, n, c, (m +++ String d b +++ u). split; [now rewrite !append_assoc|]. split; [exact N|]. split; [exact C|].
           exists m, (String d b +++ u). split; [reflexivity|]. split; [exact M|]. exists b, d, u. now split.
Qed.
(** ** the groups of the longest first part *)
Lemma longest_max : forall k p q s n, longest k p q s = Some n -> forall n', n' <= k -> lang p (substring 0 n' s) -> lang q (from s n') -> n' <= n.
Proof.
  induction k as [|k IH]; intros p q s n H n' L A C; [lia|]. cbn [longest] in H.
  destruct (matchb p (substring 0 (S k) s) && matchb q (from s (S k)))%bool eqn:E; [injection H as <-; exact L|].
  destruct (Nat.eq_dec n' (S k)) as [->|N]; [exfalso; apply matchb_spec in A, C; rewrite A, C in E; discriminate|]. apply (IH _ _ _ _ H); [lia|exact A|exact C].
Qed.
Lemma cat_longest : forall a b s, lang (Cat a b) s -> exists p q, s = p +++ q /\ captures (Cat a b) s = (captures a p ++ captures b q)%list /\ lang a p /\ lang b q /\
  forall p' q', s = p' +++ q' -> lang a p' -> lang b q' -> String.length p' <= String.length p.
Proof.
  intros a b s H. apply lang_cat_iff in H as (x & y & -> & A & B). cbn [captures]. destruct (longest (String.length (x +++ y)) a b (x +++ y)) as [k|] eqn:E.
  - pose proof (longest_some _ _ _ _ _ E) as (L & X & Y). exists (substring 0 k (x +++ y)), (from (x +++ y) k). split; [symmetry; now apply cut_back|]. split; [reflexivity|]. split; [exact X|]. split; [exact Y|].
    assert (K : String.length (substring 0 k (x +++ y)) = k).
    { clear - L. revert L. generalize (x +++ y). induction k as [|k IH]; intros s H; [now destruct s|]. destruct s as [|c s]; cbn in *; [lia|]. f_equal. apply IH. lia. }
    intros p' q' F A' B'. rewrite K. destruct (cut_at p' q') as [G1 G2]. apply (longest_max _ _ _ _ _ E); rewrite F; [rewrite length_append; lia|now rewrite G1|now rewrite G2].
  - exfalso. destruct (cut_at x y) as [X Y]. apply (longest_none _ _ _ _ E (String.length x)); [rewrite length_append; lia|now rewrite X|now rewrite Y].
Qed.
Lemma capture_exact : forall p r t n, p <> "" -> compile p = Some (true, r, true) ->
  match regex_capture t p n with
  | None => t = "" \/ ~ lang r (c_text t)
  | Some g => t <> "" /\ lang r (c_text t) /\ g = groups (c_text t) (captures r (c_text t)) n
  end.
Proof.
  intros p r t n Np E. unfold regex_capture. destruct (String.eqb_spec t "") as [->|Nt]; [now left|]. destruct (String.eqb_spec p "") as [->|_]; [contradiction|]. cbn [orb].
  rewrite E. destruct (matchb r (c_text t)) eqn:M.
  - split; [exact Nt|]. rewrite substring_all. split; [now apply matchb_spec|reflexivity].
  - right. intros L. apply matchb_spec in L. congruence.
Qed.
Definition any_re : re := Cat (Cat (Set_ true []) anything) Eps.
Lemma any_lang : forall s, lang any_re s <-> s <> "".
Proof.
  intros s. unfold any_re. rewrite lang_cat_iff. split.
  - intros (p & q & -> & H & _). apply lang_cat_iff in H as (a & b & -> & A & _). apply lang_set_iff in A as (c & -> & _). discriminate.
  - intros N. destruct s as [|c s]; [contradiction|]. exists (String c s), "". split; [now rewrite append_nil_r|]. split; [|constructor].
    apply lang_cat_iff. exists (String c ""), s. split; [reflexivity|]. split; [apply lang_set_iff; exists c; now split|]. apply anything_spec.
Qed.
Definition inner_part : re := Cat open_re (Cat (Grp 2 METHOD_re) (Cat (Star blank_re) (Cat (Alt (Grp 3 path_re) Eps) (Cat close_re Eps)))).
Lemma action_whole : compile NamedActionHeaderRegex = Some (true, Cat (Star blank_re) (Cat (Grp 1 any_re) inner_part), true).
Proof. vm_compute. reflexivity. Qed.
Lemma inner_caps : forall q l, caps inner_part q l -> exists m b u, q = "[" +++ m +++ b +++ u +++ "]" /\ In m methods /\ blanks b /\ (u = "" \/ path u) /\ group 2 l = m /\ group 3 l = u.
Proof.
  intros q l C. apply caps_cat_inv in C as (p1 & q1 & m1 & n1 & -> & -> & C1 & C). apply caps_plain in C1 as [-> L1]; [|reflexivity]. apply open_lang in L1 as ->.
  apply caps_cat_inv in C as (p2 & q2 & m2 & n2 & -> & -> & C2 & C). apply caps_grp_plain in C2 as [-> L2]; [|exact method_plain]. apply method_lang in L2.
  apply caps_cat_inv in C as (p3 & q3 & m3 & n3 & -> & -> & C3 & C). apply caps_plain in C3 as [-> L3]; [|reflexivity]. apply blanks_lang in L3.
  apply caps_cat_inv in C as (p4 & q4 & m4 & n4 & -> & -> & C4 & C). apply caps_cat_inv in C as (p5 & q5 & m5 & n5 & -> & -> & C5 & C).
  apply caps_plain in C5 as [-> L5]; [|reflexivity]. apply close_lang in L5 as ->. apply caps_eps_inv in C as [-> ->].
  apply caps_alt_inv in C4 as [C4|C4].
  - apply caps_grp_plain in C4 as [-> L4]; [|reflexivity]. apply path_lang in L4. exists p2, p3, p4. repeat (split; [first [reflexivity|assumption|now right]|]). reflexivity.
  - apply caps_eps_inv in C4 as [-> ->]. exists p2, p3, "". repeat (split; [first [reflexivity|assumption|now left]|]). reflexivity.
Qed.
Lemma inner_lang : forall x, method_then (maybe path) x -> lang inner_part ("[" +++ x +++ "]").
Proof.
  intros x (m & y & -> & M & (b & u & -> & B & U)). unfold inner_part. apply lang_cat_iff. exists "[", ((m +++ b +++ u) +++ "]"). split; [reflexivity|]. split; [now apply open_lang|].
  apply lang_cat_iff. exists m, (b +++ u +++ "]"). split; [now rewrite !append_assoc|]. split; [apply lang_grp_iff; now apply method_lang|].
  apply lang_cat_iff. exists b, (u +++ "]"). split; [reflexivity|]. split; [now apply blanks_lang|].
  apply lang_cat_iff. exists u, "]". split; [reflexivity|]. split; [apply lang_alt_iff; destruct U as [->|U]; [right; constructor|left; apply lang_grp_iff; now apply path_lang]|].
  apply lang_cat_iff. exists "]", "". split; [reflexivity|]. split; [now apply close_lang|constructor].
Qed.
Lemma named_action_capture : forall t, match regex_capture t NamedActionHeaderRegex 4 with
  | None => t = "" \/ forall n x, c_text t = n +++ "[" +++ x +++ "]" -> n <> "" -> ~ method_then (maybe path) x
  | Some g => exists n m b u, c_text t = n +++ "[" +++ m +++ b +++ u +++ "]" /\ n <> "" /\ In m methods /\ blanks b /\ (u = "" \/ path u) /\
      (forall n' x', c_text t = n' +++ "[" +++ x' +++ "]" -> method_then (maybe path) x' -> String.length n' <= String.length n) /\ trim (nth 1 g "") = trim n /\ nth 2 g "" = m /\ nth 3 g "" = u
  end.
Proof.
  intros t. pose proof (capture_exact NamedActionHeaderRegex _ t 4 ltac:(discriminate) action_whole) as H. destruct (regex_capture t NamedActionHeaderRegex 4) as [g|].
  - destruct H as (_ & L & ->). destruct (cat_longest _ _ _ L) as (l & s1 & E & K & Ll & L1 & _). destruct (cat_longest _ _ _ L1) as (n & q & E1 & K1 & Ln & Lq & Max).
    assert (Nn : n <> "") by (apply lang_grp_iff in Ln; now apply any_lang in Ln). apply blanks_lang in Ll.
    destruct (inner_caps q _ (caps_of _ _ Lq)) as (m & b & u & Eq & M & B & U & G2 & G3).
    assert (Kc : captures (Cat (Star blank_re) (Cat (Grp 1 any_re) inner_part)) (c_text t) = ((1, n) :: captures inner_part q)%list) 
      by (rewrite K, K1; change (captures (Grp 1 any_re) n) with ((1, n) :: captures any_re n); rewrite (caps_none any_re n _ (caps_of any_re n (proj1 (lang_grp_iff _ _ _) Ln)) eq_refl); reflexivity). rewrite Kc.
    exists (l +++ n), m, b, u. split; [rewrite E, E1, Eq; now rewrite !append_assoc|]. split; [destruct l; [exact Nn|discriminate]|]. split; [exact M|]. split; [exact B|]. split; [exact U|].
    split; [|cbn [groups map seq nth group Nat.eqb]; split; [|split; [exact G2|exact G3]]].
    + intros n' x' F Mx. destruct (Nat.le_gt_cases (String.length n') (String.length (l +++ n))) as [|Gt]; [assumption|exfalso]. rewrite length_append in Gt.
      assert (P : exists k, n' = l +++ k).
      { rewrite E in F. clear - F Gt. revert n' F Gt. induction l as [|c l IH]; intros n' F Gt; [now exists n'|]. destruct n' as [|c' n']; cbn in Gt; [lia|]. cbn in F. injection F as <- F.
        destruct (IH n' F) as (k & ->); [lia|]. now exists k. }
      destruct P as (k & ->). rewrite E in F. rewrite append_assoc in F. apply append_inj_l in F. rewrite length_append in Gt.
      assert (Lk : lang (Grp 1 any_re) k) by (apply lang_grp_iff, any_lang; intros ->; cbn in Gt; lia).
      pose proof (Max k _ F Lk (inner_lang _ Mx)). lia.
    + pose proof (trim_around l n "" Ll (Forall_nil _)) as T. rewrite append_nil_r in T. now symmetry.
  - destruct H as [H|H]; [now left|right]. intros n x E Nn Mx. apply H. rewrite E. apply lang_cat_iff. exists "", (n +++ "[" +++ x +++ "]"). split; [reflexivity|]. split; [now apply blanks_lang; constructor|].
    apply lang_cat_iff. exists n, ("[" +++ x +++ "]"). split; [reflexivity|]. split; [apply lang_grp_iff; now apply any_lang|now apply inner_lang].
Qed.
Lemma plain_capture : forall t, match regex_capture t ActionHeaderRegex 3 with
  | None => t = "" \/ ~ word_then methods (maybe path) (c_text t)
  | Some g => exists l m b x, c_text t = l +++ m +++ b +++ x /\ blanks l /\ In m methods /\ blanks b /\ (x = "" \/ path x) /\ nth 1 g "" = m
  end.
Proof.
  intros t. pose proof (capture_whole ActionHeaderRegex _ t 3 ltac:(discriminate) action_re) as H. destruct (regex_capture t ActionHeaderRegex 3) as [g|].
  - destruct H as (_ & l & C & ->). apply caps_cat_inv in C as (p1 & q1 & m1 & n1 & E & -> & C1 & C). apply caps_plain in C1 as [-> L1]; [|reflexivity]. apply blanks_lang in L1.
    apply caps_cat_inv in C as (p2 & q2 & m2 & n2 & -> & -> & C2 & C). apply caps_grp_plain in C2 as [-> L2]; [|exact method_plain]. apply method_lang in L2.
    apply caps_cat_inv in C as (p3 & q3 & m3 & n3 & -> & -> & C3 & C). apply caps_plain in C3 as [-> L3]; [|reflexivity]. apply blanks_lang in L3.
    apply caps_cat_inv in C as (p4 & q4 & m4 & n4 & -> & -> & C4 & C). apply caps_eps_inv in C as [-> ->]. rewrite append_nil_r in E. exists p1, p2, p3, p4.
    split; [exact E|]. split; [exact L1|]. split; [exact L2|]. split; [exact L3|]. split; [|reflexivity].
    apply caps_alt_inv in C4 as [C4|C4]; [right; apply caps_grp_plain in C4 as [_ L4]; [|reflexivity]; now apply path_lang|left; now apply caps_eps_inv in C4].
  - destruct H as [H|H]; [now left|right]. intros K. apply H. apply action_text in K. revert K. unfold whole. now rewrite action_re.
Qed.
