(** Property C89: names, methods and paths in the headers of resources and actions *)
From Verif Require Import Base StringUtility StringSpec StringProofs Regex RegexSpec RegexProofs ByteBuffer Markdown MarkdownSpec Keywords KeywordsSpec KeywordsProofs KeywordsOrder Prop_Keywords RegexCaps SectionsKeys
  SignatureSpec SignatureProofs LookaheadText HeadingsSpec HeadingsProofs.
From Verif Require Payloads PayloadsSpec PayloadsText Transactions.
Import Transactions(resource_header, action_signature).
Import PayloadsSpec(the_text, lines).
Local Open Scope string_scope.

(** ** resources: the name and the path are those of the header *)
Theorem C89_resource : forall t s name uri, text_of_resource t s -> resource_heading s name uri -> resource_header t = (name, uri).
Proof.
  intros t s name uri T H. apply before_c_text in T. subst s. assert (X : t_text t = the_text t) by now destruct t. unfold resource_header. rewrite X.
  pose proof (resource_capture_total (the_text t) (ex_intro _ name (ex_intro _ uri H))) as K.
  destruct (regex_capture (the_text t) ResourceHeaderRegex 4) as [g|]; [destruct (heading_unique _ _ _ _ _ H K) as [-> ->]; reflexivity|].
  destruct (regex_capture (the_text t) NamedEndpointHeaderRegex 5) as [g|]; [destruct (heading_unique _ _ _ _ _ H K) as [-> ->]; reflexivity|].
  destruct (regex_capture (the_text t) NamedResourceHeaderRegex 4) as [g|]; [destruct (heading_unique _ _ _ _ _ H K) as [-> ->]; reflexivity|contradiction].
Qed.
Print Assumptions C89_resource.
(** and the headers that begin a resource (C75) have exactly one reading, with a path *)
Lemma heading_reads : forall s n u, resource_heading s n u -> reads_resource s /\ path u.
Proof.
  intros s n u H. destruct H as [l u L P|l m c b u L M C B P|n c u name N Nn C P T A B|n c m d b u name N Nn C M D B P T A A']; (split; [|exact P]).
  - left. now exists l, u.
  - right. left. exists l, m, (String c b +++ u). split; [reflexivity|]. split; [exact L|]. split; [exact M|]. exists b, c, u. now split.
  - right. right. left. destruct n as [|d n]; [contradiction|]. exists d, n, c, u. now split.
  - right. right. right. destruct n as [|e n]; [contradiction|]. exists e, n, c, (m +++ String d b +++ u). split; [now rewrite !append_assoc|]. split; [exact N|]. split; [exact C|].
    exists m, (String d b +++ u). split; [reflexivity|]. split; [exact M|]. exists b, d, u. now split.
Qed.
Lemma reads_heading : forall s, reads_resource s -> exists n u, resource_heading s n u.
Proof.
  intros s R. assert (D : (reads_path s \/ reads_method_path s) \/ ~ (reads_path s \/ reads_method_path s)).
  { destruct (matchb (whole ResourceHeaderRegex) s) eqn:M; [left; apply resource_text; now apply matchb_spec|right; intros K; apply resource_text in K; apply matchb_spec in K; congruence]. }
  destruct D as [D|D].
  - apply reads_leads in D as (p & u & -> & (l & L & [->|(m & c & b & M & C & B & ->)]) & P); [exists "", u; now apply heading_path|]. exists "", u. rewrite !append_assoc. now apply heading_method.
  - destruct R as [R|[R|[R|R]]]; [tauto|tauto| |].
    + destruct R as (d & n & c & x & -> & N & C & P). exists (trim (String d n)), x. apply heading_named; try assumption; [discriminate|now apply trims_iff|tauto|tauto].
    + destruct R as (d & n & c & x & -> & N & C & (m & y & -> & M & (b & e & u & -> & Ce & B & P))). exists (trim (String d n)), u.
      assert (E : String d n +++ String c ("[" +++ (m +++ String e (b +++ u)) +++ "]") = String d n +++ String c ("[" +++ m +++ String e b +++ u +++ "]")) by (change (String e (b +++ u)) with (String e b +++ u); now rewrite !append_assoc).
      rewrite E in *. apply heading_endpoint; try assumption; [discriminate|now apply trims_iff|tauto|tauto].
Qed.
Theorem C89_resource_once : forall s, reads_resource s <-> exists name uri, (resource_heading s name uri /\ path uri) /\ forall n u, resource_heading s n u -> n = name /\ u = uri.
Proof.
  intros s. split.
  - intros R. destruct (reads_heading s R) as (n & u & H). exists n, u. split; [split; [exact H|exact (proj2 (heading_reads _ _ _ H))]|]. intros n' u' H'. now apply heading_unique with s.
  - intros (n & u & (H & _) & _). exact (proj1 (heading_reads _ _ _ H)).
Qed.
Print Assumptions C89_resource_once.
(** other headers give neither *)
Theorem C89_resource_none : forall t s, text_of_resource t s -> ~ reads_resource s -> resource_header t = ("", "").
Proof.
  intros t s T N. apply before_c_text in T. subst s. assert (X : t_text t = the_text t) by now destruct t. unfold resource_header. rewrite X.
  pose proof (resource_capture (the_text t)) as A. destruct (regex_capture (the_text t) ResourceHeaderRegex 4) as [g|].
  - destruct A as (p & u & E & L & P & _). elim N. assert (R : reads_path (c_text (the_text t)) \/ reads_method_path (c_text (the_text t))) by (apply reads_leads; now exists p, u). unfold reads_resource. tauto.
  - pose proof (endpoint_capture (the_text t)) as B. destruct (regex_capture (the_text t) NamedEndpointHeaderRegex 5) as [g|].
    + destruct B as (l & n & b & m & d & e & x & E & L & Nb & Nn & Bl & Nbl & M & D & Ce & P & _). elim N. destruct (front l n b L Nb Nn Bl Nbl) as (n1 & c & F & N1 & Nn1 & C & _).
      right. right. right. destruct n1 as [|e1 n1]; [contradiction|]. exists e1, n1, c, (m +++ String d e +++ x). split; [rewrite E, F, !append_assoc; reflexivity|]. split; [exact N1|]. split; [exact C|].
      exists m, (String d e +++ x). split; [reflexivity|]. split; [exact M|]. exists e, d, x. now split.
    + pose proof (named_capture (the_text t)) as C. destruct (regex_capture (the_text t) NamedResourceHeaderRegex 4) as [g|]; [|reflexivity].
      destruct C as (_ & l & n & b & x & E & L & Nb & Nn & Bl & Nbl & P & _). elim N. destruct (front l n b L Nb Nn Bl Nbl) as (n1 & c & F & N1 & Nn1 & C & _).
      right. right. left. destruct n1 as [|e1 n1]; [contradiction|]. exists e1, n1, c, x. split; [rewrite E, F, !append_assoc; reflexivity|]. now split.
Qed.
Print Assumptions C89_resource_none.

(** ** actions *)
Lemma same_length : forall a b x y, String.length a = String.length b -> a +++ x = b +++ y -> a = b /\ x = y.
Proof.
  induction a as [|c a IH]; intros [|d b] x y L E; cbn in L, E; try discriminate; [now split|]. injection E as -> E. injection L as L. destruct (IH _ _ _ L E) as [-> ->]. now split.
Qed.
Lemma action_unique : forall s n m u n' m' u', action_heading s n m u -> action_heading s n' m' u' -> n = n' /\ m = m' /\ u = u'.
Proof.
  assert (W : forall s l m b x, s = l +++ m +++ b +++ x -> blanks l -> In m methods -> blanks b -> x = "" \/ path x -> word_then methods (maybe path) s).
  { intros s l m b x -> L M B X. exists l, m, (b +++ x). split; [reflexivity|]. split; [exact L|]. split; [exact M|]. now exists b, x. }
  intros s n m u n' m' u' [l m0 b x E L M B X|n0 m0 b u0 name E Nn M B U T No Mx] [l1 m1 b1 x1 E1 L1 M1 B1 X1|n1 m1 b1 u1 name1 E1 Nn1 M1 B1 U1 T1 No1 Mx1].
  - rewrite E in E1. destruct (run_unique blank_char l l1 _ _ L L1 (stops_method _ _ M) (stops_method _ _ M1) E1) as [_ E2].
    destruct (method_split m0 b x "" m1 b1 x1 "") as [-> _]; [assumption|assumption|assumption|assumption|assumption|assumption|now left|now left|now rewrite !append_nil_r|]. auto.
  - elim No1. exact (W s l m0 b x E L M B X).
  - elim No. exact (W s l1 m1 b1 x1 E1 L1 M1 B1 X1).
  - assert (D : forall m b u, In m methods -> blanks b -> u = "" \/ path u -> method_then (maybe path) (m +++ b +++ u)) by (intros m2 b2 u2 I2 J2 K2; exists m2, (b2 +++ u2); split; [reflexivity|]; split; [exact I2|]; now exists b2, u2).
    assert (A : forall n m b u, n +++ "[" +++ m +++ b +++ u +++ "]" = n +++ "[" +++ (m +++ b +++ u) +++ "]") by (intros; now rewrite !append_assoc).
    pose proof (Mx n1 (m1 +++ b1 +++ u1) ltac:(now rewrite E1, A) (D _ _ _ M1 B1 U1)) as G1. pose proof (Mx1 n0 (m0 +++ b +++ u0) ltac:(now rewrite E, A) (D _ _ _ M B U)) as G2.
    rewrite E in E1. destruct (same_length n0 n1 _ _ ltac:(lia) E1) as [-> F]. cbn in F. injection F as F.
    destruct (method_split m0 b u0 "]" m1 b1 u1 "]") as [-> F']; [assumption|assumption|assumption|assumption|assumption|assumption|now right|now right|exact F|].
    apply append_cancel in F'. subst u1. apply trims_iff in T, T1. subst. auto.
Qed.
Lemma action_read : forall t s, c_text t = s -> reads_action s ->
  match regex_capture t ActionHeaderRegex 3 with
  | Some g => action_heading s "" (nth 1 g "") ""
  | None => match regex_capture t NamedActionHeaderRegex 4 with Some g => action_heading s (trim (nth 1 g "")) (nth 2 g "") (nth 3 g "") | None => False end
  end.
Proof.
  intros t s E R. assert (Nt : t <> "").
  { intros ->. cbn in E. subst s. destruct R as [(l & w & x & F & L & W & _)|(n & x & F & _)].
    - apply method_capital in W as (_ & c & y & ->). destruct l; discriminate.
    - destruct n; discriminate. }
  pose proof (plain_capture t) as A. destruct (regex_capture t ActionHeaderRegex 3) as [g|].
  - destruct A as (l & m & b & x & F & L & M & B & X & ->). rewrite E in F. exact (heading_plain s l m b x F L M B X).
  - destruct A as [A|A]; [contradiction|]. rewrite E in A. pose proof (named_action_capture t) as B. destruct (regex_capture t NamedActionHeaderRegex 4) as [g|].
    + destruct B as (n & m & b & u & F & Nn & M & B & U & Mx & G1 & -> & ->). rewrite E in F, Mx. exact (heading_action s n m b u _ F Nn M B U (proj2 (trims_iff _ _) G1) A Mx).
    + destruct B as [B|B]; [contradiction|]. destruct R as [R|(n & x & F & Nn & Mx)]; [contradiction|]. rewrite E in B. exact (B n x F Nn Mx).
Qed.
Theorem C89_action : forall t s name method uri, text_of_action t s -> action_heading s name method uri -> action_signature t = (name, method, uri).
Proof.
  intros t s name method uri (first & rest & u & L & T & B) H. apply PayloadsText.lines_iff in L. apply trims_iff in T. apply before_c_text in B. assert (X : t_text t = the_text t) by now destruct t.
  unfold action_signature. rewrite X, L. cbn [fst]. rewrite <- T.
  assert (R : reads_action s).
  { destruct H as [l m b x E Lb M Bl P|n m b v name E Nn M Bl P Tr No Mx].
    - left. exists l, m, (b +++ x). split; [exact E|]. split; [exact Lb|]. split; [exact M|]. now exists b, x.
    - right. exists n, (m +++ b +++ v). split; [rewrite E; now rewrite !append_assoc|]. split; [exact Nn|]. exists m, (b +++ v). split; [reflexivity|]. split; [exact M|]. now exists b, v. }
  pose proof (action_read u s (eq_sym B) R) as K. destruct (regex_capture u ActionHeaderRegex 3) as [g|]; [destruct (action_unique _ _ _ _ _ _ _ H K) as (-> & -> & ->); reflexivity|].
  destruct (regex_capture u NamedActionHeaderRegex 4) as [g|]; [destruct (action_unique _ _ _ _ _ _ _ H K) as (-> & -> & ->); reflexivity|contradiction].
Qed.
Print Assumptions C89_action.
(** the headers that begin an action (C75) have exactly one reading, with a method *)
Theorem C89_action_once : forall t s, text_of_action t s -> (reads_action s <-> exists name method uri, (action_heading s name method uri /\ In method methods) /\
  forall n m u, action_heading s n m u -> n = name /\ m = method /\ u = uri).
Proof.
  intros t s (first & rest & v & _ & _ & B). apply before_c_text in B. split.
  - intros R. assert (H : exists n m u, action_heading s n m u).
    { pose proof (action_read v s (eq_sym B) R) as K. destruct (regex_capture v ActionHeaderRegex 3); [now eauto|]. destruct (regex_capture v NamedActionHeaderRegex 4); [now eauto|contradiction]. }
    destruct H as (n & m & u & H). exists n, m, u. split; [split; [exact H|now destruct H]|]. intros n' m' u' H'. now apply action_unique with s.
  - intros (n & m & u & (H & _) & _). destruct H as [l m b x E Lb M Bl P|n m b w name E Nn M Bl P Tr No Mx].
    + left. exists l, m, (b +++ x). split; [exact E|]. split; [exact Lb|]. split; [exact M|]. now exists b, x.
    + right. exists n, (m +++ b +++ w). split; [rewrite E; now rewrite !append_assoc|]. split; [exact Nn|]. exists m, (b +++ w). split; [reflexivity|]. split; [exact M|]. now exists b, w.
Qed.
Print Assumptions C89_action_once.
Theorem C89_action_none : forall t s, text_of_action t s -> ~ reads_action s -> action_signature t = ("", "", "").
Proof.
  intros t s (first & rest & u & L & T & B) N. apply PayloadsText.lines_iff in L. apply trims_iff in T. apply before_c_text in B. assert (X : t_text t = the_text t) by now destruct t.
  unfold action_signature. rewrite X, L. cbn [fst]. rewrite <- T. pose proof (plain_capture u) as A. destruct (regex_capture u ActionHeaderRegex 3) as [g|].
  - destruct A as (l & m & b & x & F & Lb & M & Bl & P & _). elim N. left. exists l, m, (b +++ x). split; [now rewrite B|]. split; [exact Lb|]. split; [exact M|]. now exists b, x.
  - pose proof (named_action_capture u) as C. destruct (regex_capture u NamedActionHeaderRegex 4) as [g|]; [|reflexivity].
    destruct C as (n & m & b & w & F & Nn & M & Bl & P & _). elim N. right. exists n, (m +++ b +++ w). split; [rewrite B, F; now rewrite !append_assoc|]. split; [exact Nn|].
    exists m, (b +++ w). split; [reflexivity|]. split; [exact M|]. now exists b, w.
Qed.
Print Assumptions C89_action_none.

(** ** what is taken for a resource has a path, if no white space is around it; what is taken for an action has a method *)
Theorem C89_taken_resource : forall t, trims (the_text t) (the_text t) -> resource_type t = ResourceSection -> exists name uri, resource_header t = (name, uri) /\ path uri.
Proof.
  intros t Tr H. apply C75_headers in H. destruct t as [k x z m cs]; destruct k; try contradiction. destruct H as (a & s & b & u & T & _ & U & R). cbn [the_text] in Tr.
  assert (E : s = x) by (apply trims_iff in Tr; assert (trims x s) by (now exists a, b); apply trims_iff in H; congruence). subst s.
  apply C89_resource_once in R as (n & v & (Hh & P) & _). exists n, v. split; [|exact P]. apply C89_resource with u; [exact U|exact Hh].
Qed.
Print Assumptions C89_taken_resource.
Theorem C89_taken_action : forall t, one_line t -> action_section_type t = ActionSection -> exists name method uri, action_signature t = (name, method, uri) /\ In method methods.
Proof.
  intros t O H. apply C75_headers in H. destruct t as [k x z m cs]; destruct k; try contradiction. destruct H as (a & s & b & u & T & _ & U & R). cbn in O.
  assert (X : text_of_action (Tree HeaderNode x z m cs) u).
  { exists x, "", s. split; [left; now split|]. split; [now exists a, b|exact U]. }
  apply (C89_action_once _ _ X) in R as (n & me & v & (Hh & M) & _). exists n, me, v. split; [|exact M]. now apply C89_action with u.
Qed.
Print Assumptions C89_taken_action.
(** the section type is decided on the text without the white space around it, the name and the path on the text with it: white space behind the brackets loses both *)
Theorem C89_trailing_refuted : exists t, one_line t /\ resource_type t = ResourceSection /\ resource_header t = ("", "").
Proof.
  exists (Tree HeaderNode "A [/a] " 1 [] []). split; [|split; vm_compute; reflexivity]. intros H. cbn in H. repeat (destruct H as [H|H]; [discriminate H|]). destruct H.
Qed.
Print Assumptions C89_trailing_refuted.

(** ... for all headers with a name, and all white space *)
Lemma ascii_app : forall a b, list_ascii_of_string (a +++ b) = (list_ascii_of_string a ++ list_ascii_of_string b)%list.
Proof. induction a as [|c a IH]; intros b; cbn; [reflexivity|]. f_equal. apply IH. Qed.
Lemma cut_at : forall q s w v, ~ StringSpec.has "/" w -> s +++ w = q +++ String "/" v -> exists v1, s = q +++ String "/" v1.
Proof.
  induction q as [|c q IH]; intros [|d s] w v H E.
  - cbn in E. subst w. elim H. now left.
  - cbn in E. injection E as -> E. exists s. reflexivity.
  - cbn [append] in E. subst w. elim H. unfold StringSpec.has. change (String c (q +++ String "/" v)) with (String c q +++ String "/" v). rewrite ascii_app. apply in_or_app. right. now left.
  - cbn in E. injection E as -> E. destruct (IH s w v H E) as [v1 ->]. now exists v1.
Qed.
Lemma last_white : forall w s y c, all white w -> w <> "" -> s +++ w = y +++ String c "" -> white c.
Proof.
  intros w s y c A N E. unfold all in A. apply (f_equal list_ascii_of_string) in E. rewrite !ascii_app in E. cbn [list_ascii_of_string] in E.
  assert (K : list_ascii_of_string w <> []) by (destruct w; [contradiction|discriminate]). destruct (exists_last K) as (l & d & F). rewrite F in *. rewrite app_assoc in E. apply app_inj_tail in E as [_ <-].
  apply Forall_app in A as [_ A]. now inversion A.
Qed.
Theorem C89_trailing : forall t s w, text_of_resource t (s +++ w) -> ~ reads_path s -> ~ reads_method_path s -> all white w -> w <> "" -> resource_header t = ("", "").
Proof.
  intros t s w T P M A N. apply C89_resource_none with (s +++ w); [exact T|]. intros R.
  assert (NL : ~ (reads_path (s +++ w) \/ reads_method_path (s +++ w))).
  { intros K. apply reads_leads in K as (p & u & E & L & v & ->). assert (H : ~ StringSpec.has "/" w).
    { intros H. unfold all in A. rewrite Forall_forall in A. apply A in H. cbn in H. repeat (destruct H as [H|H]; [discriminate H|]). destruct H. }
    destruct (cut_at p s w v H E) as [v1 F]. assert (K : reads_path s \/ reads_method_path s) by (apply reads_leads; exists p, (String "/" v1); split; [exact F|split; [exact L|now exists v1]]). tauto. }
  assert (NW : ~ white "]") by (intros H; cbn in H; repeat (destruct H as [H|H]; [discriminate H|]); destruct H).
  destruct R as [R|[R|[(d & n & c & x & E & _)|(d & n & c & x & E & _)]]]; try tauto; apply NW; apply (last_white w s (String d n +++ String c ("[" +++ x)) "]" A N); rewrite E, !append_assoc; reflexivity.
Qed.
Print Assumptions C89_trailing.

(** ** samples *)
Definition heading (x : string) : tree := Tree HeaderNode x 1 [] [].
Example C89_a_resource : resource_heading "  My things [/things/{id}]" "My things" "/things/{id}".
Proof.
  apply (heading_named "  My things" " " "/things/{id}" "My things").
  - repeat (constructor; [intros H; cbn in H; repeat (destruct H as [H|H]; [discriminate H|]); destruct H|]). constructor.
  - discriminate.
  - now left.
  - now eexists.
  - apply trims_iff. reflexivity.
  - intros H. assert (K : lang (whole ResourceHeaderRegex) "  My things [/things/{id}]") by (apply resource_text; now left). apply matchb_spec in K. vm_compute in K. discriminate.
  - intros H. assert (K : lang (whole ResourceHeaderRegex) "  My things [/things/{id}]") by (apply resource_text; now right). apply matchb_spec in K. vm_compute in K. discriminate.
Qed.
Example C89_an_action : action_heading "Fetch [it] [GET /x[1]]" "Fetch [it]" "GET" "/x[1]" /\ text_of_action (heading "Fetch [it] [GET /x[1]]") "Fetch [it] [GET /x[1]]".
Proof.
  assert (T : text_of_action (heading "Fetch [it] [GET /x[1]]") "Fetch [it] [GET /x[1]]").
  { exists "Fetch [it] [GET /x[1]]", "", "Fetch [it] [GET /x[1]]". split; [apply PayloadsText.lines_iff; reflexivity|]. split; [apply trims_iff; reflexivity|apply before_c_text; reflexivity]. }
  split; [|exact T]. assert (R : reads_action "Fetch [it] [GET /x[1]]").
  { right. exists "Fetch [it] ", "GET /x[1]". split; [reflexivity|]. split; [discriminate|]. exists "GET", " /x[1]". split; [reflexivity|]. split; [now left|]. exists " ", "/x[1]".
    split; [reflexivity|]. split; [constructor; [now left|constructor]|]. right. now eexists. }
  apply (proj1 (C89_action_once _ _ T)) in R as (n & m & u & (H & _) & _). pose proof (C89_action _ _ _ _ _ T H) as E. vm_compute in E. injection E as <- <- <-. exact H.
Qed.
(** all forms; blanks in front of the bracket belong to the path; a path goes on to the end, whatever is in it; of several brackets the last count; the path of an action without a name is not kept *)
Example C89_forms : map (fun x => resource_header (heading x)) ["/a"; "GET /a"; "A b [/a]"; "A b [PUT /a]"; "/a [/b]"; "A [/a ]"; "A [B] [/a]"] =
  [("", "/a"); ("", "/a"); ("A b", "/a"); ("A b", "/a"); ("", "/a [/b]"); ("A", "/a "); ("", "")].
Proof. vm_compute. reflexivity. Qed.
Example C89_action_forms : map (fun x => action_signature (heading x)) ["GET"; "GET /a"; "A [GET]"; "A [PUT /a]"; "A [GET /a] [GET /b]"; "A(b)[PATCH]"; "A [get]"] =
  [("", "GET", ""); ("", "GET", ""); ("A", "GET", ""); ("A", "PUT", "/a"); ("A [GET /a]", "GET", "/b"); ("A(b)", "PATCH", ""); ("", "", "")].
Proof. vm_compute. reflexivity. Qed.
Example C89_taken : let r := heading "A b [PUT /a]" in let a := heading "A [PUT /a]" in
  trims (the_text r) (the_text r) /\ resource_type r = ResourceSection /\ one_line a /\ action_section_type a = ActionSection.
Proof.
  cbv zeta. split; [apply trims_iff; reflexivity|]. split; [vm_compute; reflexivity|]. split; [|vm_compute; reflexivity]. intros H. cbn in H. repeat (destruct H as [H|H]; [discriminate H|]). destruct H.
Qed.
Example C89_a_trailing : let s := "A b [PUT /a]" in text_of_resource (heading "A b [PUT /a]  ") (s +++ "  ") /\ ~ reads_path s /\ ~ reads_method_path s /\ all white "  " /\ named (method_then (gap_then path)) s.
Proof.
  cbv zeta. split; [apply before_c_text; reflexivity|]. split; [|split; [|split]].
  - intros H. assert (K : lang (whole ResourceHeaderRegex) "A b [PUT /a]") by (apply resource_text; now left). apply matchb_spec in K. vm_compute in K. discriminate.
  - intros H. assert (K : lang (whole ResourceHeaderRegex) "A b [PUT /a]") by (apply resource_text; now right). apply matchb_spec in K. vm_compute in K. discriminate.
  - repeat (constructor; [now left|]). constructor.
  - exists "A"%char, " b", " "%char, "PUT /a". split; [reflexivity|]. split; [repeat (constructor; [intros H; cbn in H; repeat (destruct H as [H|H]; [discriminate H|]); destruct H|]); constructor|]. split; [now left|].
    exists "PUT", " /a". split; [reflexivity|]. split; [cbn; tauto|]. exists "", " "%char, "/a". split; [reflexivity|]. split; [now left|]. split; [constructor|now eexists].
Qed.
