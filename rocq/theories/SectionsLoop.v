From Verif Require Import Base StringUtility StringSpec Regex ByteBuffer Markdown MarkdownSpec Keywords KeywordsSpec KeywordsOrder Prop_Keywords TypeTables Sections SectionsSpec SectionsKeys SectionsKinds SectionsItems SectionsMeta.
Local Open Scope string_scope.
Local Open Scope list_scope.

(** ** lists *)
Lemma nodes_app : forall a b, nodes_of (a ++ b) = nodes_of a ++ nodes_of b.
Proof. intros. unfold nodes_of. apply flat_map_app. Qed.
Lemma nodes_text : forall d, nodes_of (map Text d) = d.
Proof. induction d as [|t d IH]; [reflexivity|]. cbn. f_equal. exact IH. Qed.
Lemma nodes_meta : forall d, nodes_of (map Meta d) = d.
Proof. induction d as [|t d IH]; [reflexivity|]. cbn. f_equal. exact IH. Qed.
Lemma same_spec : forall (a b : list tree), (exists p, a = p ++ b) -> (same a b = true <-> a = b).
Proof.
  intros a b (p & E). unfold same. rewrite Nat.eqb_eq. split; [|now intros ->].
  intros H. subst a. rewrite app_length in H. destruct p; [reflexivity|cbn in H; lia].
Qed.
Lemma in_order_app : forall rule ps done qs rest, in_order rule done ps (nodes_of qs ++ rest) -> in_order rule (done ++ ps) qs rest -> in_order rule done (ps ++ qs) rest.
Proof.
  intros rule ps. induction ps as [|p ps IH]; intros done qs rest H K.
  - now rewrite app_nil_r in K.
  - inversion H; subst. cbn [app]. constructor.
    + rewrite nodes_app, <- app_assoc. assumption.
    + apply IH; [assumption|]. now rewrite <- app_assoc.
Qed.
Lemma in_order_one : forall (rule : list part -> part -> list tree -> Prop) done p rest, rule done p rest -> in_order rule done [p] rest.
Proof. intros. constructor; [assumption|constructor]. Qed.
Lemma snoc_cases : forall A (l : list A), l = [] \/ exists a x, l = a ++ [x].
Proof. intros A l. destruct (rev l) as [|x r] eqn:E; apply (f_equal (@rev A)) in E; rewrite rev_involutive in E; [now left|right]. exists (rev r), x. exact E. Qed.

(** ** behind a payload *)
Lemma text_iff : forall t, is_text t = true <-> a_text t.
Proof. intros [[] x z m cs]; cbn; intuition discriminate. Qed.
Lemma right_after_listed : forall K done ty t, right_after K (done ++ [Listed ty t]) <-> K ty.
Proof.
  intros K done ty t. split.
  - intros (a & ty' & t' & x & d & E & Hk & _ & Hx). destruct (snoc_cases _ d) as [->|(d' & u & ->)].
    + destruct Hx as [->|(u & -> & _)].
      * cbn in E. apply app_inj_tail in E as [_ E]. injection E as <- <-. exact Hk.
      * change (a ++ Listed ty' t' :: [Ignored u] ++ map Dangling []) with (a ++ [Listed ty' t'] ++ [Ignored u]) in E. rewrite app_assoc in E. apply app_inj_tail in E as [_ E]. discriminate.
    + rewrite map_app in E. cbn [map] in E. change (a ++ Listed ty' t' :: x ++ map Dangling d' ++ [Dangling u]) with (a ++ (Listed ty' t' :: x ++ map Dangling d' ++ [Dangling u])) in E.
      rewrite !app_comm_cons, !app_assoc in E. apply app_inj_tail in E as [_ E]. discriminate.
  - intros Hk. exists done, ty, t, [], []. split; [reflexivity|]. split; [exact Hk|]. split; [constructor|now left].
Qed.
Lemma right_after_dangling : forall K done t, right_after K (done ++ [Dangling t]) <-> a_text t /\ right_after K done.
Proof.
  intros K done t. split.
  - intros (a & ty' & t' & x & d & E & Hk & F & Hx). destruct (snoc_cases _ d) as [->|(d' & u & ->)].
    + destruct Hx as [->|(u & -> & _)].
      * cbn in E. apply app_inj_tail in E as [_ E]. discriminate.
      * change (a ++ Listed ty' t' :: [Ignored u] ++ map Dangling []) with (a ++ [Listed ty' t'] ++ [Ignored u]) in E. rewrite app_assoc in E. apply app_inj_tail in E as [_ E]. discriminate.
    + rewrite map_app in E. cbn [map] in E.
      replace (a ++ Listed ty' t' :: x ++ map Dangling d' ++ [Dangling u]) with ((a ++ Listed ty' t' :: x ++ map Dangling d') ++ [Dangling u]) in E by (rewrite <- app_assoc; cbn; now rewrite <- app_assoc).
      apply app_inj_tail in E as [-> E]. injection E as <-. apply Forall_app in F as [F G]. apply Forall_inv in G. split; [exact G|]. now exists a, ty', t', x, d'.
  - intros (Ht & a & ty' & t' & x & d & -> & Hk & F & Hx). exists a, ty', t', x, (d ++ [t]). split.
    + rewrite map_app. cbn [map]. rewrite <- app_assoc. cbn. now rewrite <- app_assoc.
    + split; [exact Hk|]. split; [apply Forall_app; split; [exact F|now constructor]|exact Hx].
Qed.
Definition after_list (K : section_type -> Prop) (done : list part) : Prop := exists a ty u, done = a ++ [Listed ty u] /\ K ty.
Lemma right_after_ignored : forall K done t, right_after K (done ++ [Ignored t]) <-> ~ a_text t /\ after_list K done.
Proof.
  intros K done t. split.
  - intros (a & ty' & t' & x & d & E & Hk & F & Hx). destruct (snoc_cases _ d) as [->|(d' & u & ->)].
    + destruct Hx as [->|(u & -> & Hu)].
      * cbn in E. apply app_inj_tail in E as [_ E]. discriminate.
      * change (a ++ Listed ty' t' :: [Ignored u] ++ map Dangling []) with (a ++ [Listed ty' t'] ++ [Ignored u]) in E. rewrite app_assoc in E. apply app_inj_tail in E as [-> E].
        injection E as <-. split; [exact Hu|]. now exists a, ty', t'.
    + rewrite map_app in E. cbn [map] in E.
      replace (a ++ Listed ty' t' :: x ++ map Dangling d' ++ [Dangling u]) with ((a ++ Listed ty' t' :: x ++ map Dangling d') ++ [Dangling u]) in E by (rewrite <- app_assoc; cbn; now rewrite <- app_assoc).
      apply app_inj_tail in E as [_ E]. discriminate.
  - intros (Ht & a & ty' & u & -> & Hk). exists a, ty', u, [Ignored t], []. split; [now rewrite <- app_assoc|]. split; [exact Hk|]. split; [constructor|right]. now exists t.
Qed.
Lemma right_after_sub : forall K done s, ~ right_after K (done ++ [Sub s]).
Proof.
  intros K done s (a & ty' & t' & x & d & E & Hk & F & Hx). destruct (snoc_cases _ d) as [->|(d' & u & ->)].
  - destruct Hx as [->|(u & -> & Hu)].
    + cbn in E. apply app_inj_tail in E as [_ E]. discriminate.
    + change (a ++ Listed ty' t' :: [Ignored u] ++ map Dangling []) with (a ++ [Listed ty' t'] ++ [Ignored u]) in E. rewrite app_assoc in E. apply app_inj_tail in E as [_ E]. discriminate.
  - rewrite map_app in E. cbn [map] in E.
    replace (a ++ Listed ty' t' :: x ++ map Dangling d' ++ [Dangling u]) with ((a ++ Listed ty' t' :: x ++ map Dangling d') ++ [Dangling u]) in E by (rewrite <- app_assoc; cbn; now rewrite <- app_assoc).
    apply app_inj_tail in E as [_ E]. discriminate.
Qed.
Lemma right_after_nil : forall K, ~ right_after K [].
Proof. intros K (a & ty & t & x & d & E & _). destruct a; discriminate. Qed.
Lemma after_list_snoc : forall K done p, after_list K (done ++ [p]) -> exists ty u, p = Listed ty u /\ K ty.
Proof. intros K done p (a & ty & u & E & H). apply app_inj_tail in E as [_ ->]. eauto. Qed.
(** what the last section type says about the parts *)
Definition track (K : section_type -> Prop) (done : list part) (last : section_type) (cur : list tree) : Prop :=
  match cur with [] => True | t :: _ => (a_text t -> (K last <-> right_after K done)) /\ (~ a_text t -> (K last <-> after_list K done)) end.
Lemma track_start : forall (K : section_type -> Prop) cur, ~ K UndefinedSection -> track K [] UndefinedSection cur.
Proof.
  intros K [|t r] N; [exact I|]. split; intros _; (split; [contradiction|]); intros H; exfalso; [now apply right_after_nil in H|]. destruct H as (a & ty & u & E & _). destruct a; discriminate.
Qed.
Lemma next_defined : forall ty last t r, ty <> UndefinedSection -> next_last ty last (t :: r) = ty.
Proof. intros ty last t r N. unfold next_last. destruct ty; cbn; try reflexivity. now elim N. Qed.
Lemma next_undefined : forall last t r, next_last UndefinedSection last (t :: r) = if is_text t then last else UndefinedSection.
Proof. intros last [[] x z m cs] r; reflexivity. Qed.
Lemma track_listed : forall K done ty t last cur, ty <> UndefinedSection -> track K (done ++ [Listed ty t]) (next_last ty last cur) cur.
Proof.
  intros K done ty t last [|u r] N; [exact I|]. rewrite (next_defined _ _ _ _ N). split; intros _.
  - now rewrite right_after_listed.
  - split; [intros H; exists done, ty, t; auto|]. intros H. apply after_list_snoc in H as (ty' & u' & E & H). now injection E as <- <-.
Qed.
Lemma track_sub : forall (K : section_type -> Prop) done ty s last cur, ty <> UndefinedSection -> ~ K ty -> track K (done ++ [Sub s]) (next_last ty last cur) cur.
Proof.
  intros K done ty s last [|u r] N Nk; [exact I|]. rewrite (next_defined _ _ _ _ N). split; intros _; (split; [contradiction|]); intros H; exfalso.
  - now apply right_after_sub in H.
  - apply after_list_snoc in H as (ty' & u' & E & _). discriminate.
Qed.
Lemma track_dangling : forall (K : section_type -> Prop) done t last r, ~ K UndefinedSection -> a_text t -> track K done last (t :: r) -> track K (done ++ [Dangling t]) (next_last UndefinedSection last r) r.
Proof.
  intros K done t last [|u r] Nk T [H _]; [exact I|]. specialize (H T). rewrite next_undefined. split; intros Hu.
  - rewrite (proj2 (text_iff u) Hu), right_after_dangling. tauto.
  - destruct (is_text u) eqn:E; [apply text_iff in E; contradiction|]. split; [contradiction|]. intros X. apply after_list_snoc in X as (ty' & u' & E' & _). discriminate.
Qed.
Lemma track_ignored : forall (K : section_type -> Prop) done t last r, ~ K UndefinedSection -> ~ (a_text t /\ right_after K done) -> track K done last (t :: r) ->
  track K (done ++ [Ignored t]) (next_last UndefinedSection last r) r.
Proof.
  intros K done t last [|u r] Nk T [H H']; [exact I|]. rewrite next_undefined. split; intros Hu.
  - rewrite (proj2 (text_iff u) Hu), right_after_ignored. destruct (is_text t) eqn:Et.
    + apply text_iff in Et. specialize (H Et). tauto.
    + assert (Nt : ~ a_text t) by (rewrite <- text_iff, Et; discriminate). specialize (H' Nt). tauto.
  - destruct (is_text u) eqn:E; [apply text_iff in E; contradiction|]. split; [contradiction|]. intros X. apply after_list_snoc in X as (ty' & u' & E' & _). discriminate.
Qed.

(** ** transactions *)
Lemma on_last_snoc : forall A (f : A -> A) l x, on_last f (l ++ [x]) = l ++ [f x].
Proof. intros. unfold on_last. rewrite rev_unit. cbn. now rewrite rev_involutive. Qed.
Lemma last_example_snoc : forall l e, last_example (l ++ [e]) = Some e.
Proof. intros. unfold last_example. now rewrite rev_unit. Qed.
Definition requests (q : list payload) : Prop := Forall (fun y => In (y_type y) [RequestSection; RequestBodySection]) q.
Definition responses (q : list payload) : Prop := Forall (fun y => In (y_type y) [ResponseSection; ResponseBodySection]) q.
Definition example_ok (e : example) : Prop := requests (fst e) /\ responses (snd e).
Definition shape (ex : list example) : Prop := forall a e b, ex = a ++ e :: b -> (b <> [] -> snd e <> []) /\ (a <> [] -> fst e <> []) /\ e <> ([], []).
Definition flat (ex : list example) : list part := flat_map payload_parts (flat_map (fun e => fst e ++ snd e) ex).
Lemma flat_app : forall a b, flat (a ++ b) = flat a ++ flat b.
Proof. intros. unfold flat. now rewrite !flat_map_app. Qed.
Lemma transactions_iff : forall ps ex, transactions ps ex <-> filter about_payload ps = flat ex /\ Forall example_ok ex /\ shape ex.
Proof. intros. unfold transactions, flat, shape. rewrite Forall_forall. unfold example_ok, requests, responses. tauto. Qed.
Lemma shape_nil : shape [].
Proof. intros a e b E. destruct a; discriminate. Qed.
Lemma shape_snoc : forall ex e, shape (ex ++ [e]) <-> shape ex /\ (forall a x, ex = a ++ [x] -> snd x <> []) /\ (ex <> [] -> fst e <> []) /\ e <> ([], []).
Proof.
  intros ex e. split.
  - intros H. split; [|split].
    + intros a x b ->. destruct (H a x (b ++ [e])) as (H1 & H2 & H3); [now rewrite <- app_assoc|]. split; [|split; assumption]. intros _. apply H1. now destruct b.
    + intros a x ->. destruct (H a x [e]) as (H1 & _); [now rewrite <- app_assoc|]. now apply H1.
    + destruct (H ex e []) as (_ & H2 & H3); [reflexivity|]. split; assumption.
  - intros (H & H1 & H2 & H3) a x b E. destruct (snoc_cases _ b) as [->|(b' & y & ->)].
    + apply app_inj_tail in E as [<- <-]. split; [intros X; now elim X|]. split; assumption.
    + rewrite app_comm_cons, app_assoc in E. apply app_inj_tail in E as [-> <-]. destruct (snoc_cases _ b') as [->|(b2 & z & ->)].
      * destruct (H a x []) as (_ & K2 & K3); [reflexivity|]. split; [intros _; exact (H1 a x eq_refl)|]. split; assumption.
      * destruct (H a x (b2 ++ [z]) eq_refl) as (K1 & K2 & K3). split; [intros _; apply K1; now destruct b2|]. split; assumption.
Qed.
Definition request_open (ex : list example) : Prop := exists l q, ex = l ++ [(q, [])] /\ q <> [].
Definition response_open (ex : list example) : Prop := exists l q r, ex = l ++ [(q, r)] /\ r <> [].
Lemma transactions_nil : transactions [] [].
Proof. apply transactions_iff. split; [reflexivity|]. split; [constructor|exact shape_nil]. Qed.
Lemma transactions_other : forall ps p ex, about_payload p = false -> transactions ps ex -> transactions (ps ++ [p]) ex.
Proof. intros ps p ex N H. apply transactions_iff in H as (E & H). apply transactions_iff. split; [|exact H]. rewrite filter_app. cbn. rewrite N, app_nil_r. exact E. Qed.
Lemma flat_request : forall ty t, payload_parts (Payload ty t []) = [Listed ty t].
Proof. reflexivity. Qed.
Lemma transactions_request : forall ps ty t ex, In ty [RequestSection; RequestBodySection] -> transactions ps ex ->
  transactions (ps ++ [Listed ty t]) (push_request (Payload ty t []) ex) /\ request_open (push_request (Payload ty t []) ex).
Proof.
  intros ps ty t ex I H. apply transactions_iff in H as (E & F & S). rewrite transactions_iff.
  assert (A : about_payload (Listed ty t) = true) by (destruct I as [<-|[<-|[]]]; reflexivity).
  unfold push_request. destruct (snoc_cases _ ex) as [->|(l & [q r] & ->)].
  - cbn. split; [|exists [], [Payload ty t []]; split; [reflexivity|discriminate]]. split; [|split].
    + rewrite filter_app, E. cbn -[about_payload]. now rewrite A.
    + constructor; [|constructor]. split; [|constructor]. constructor; [exact I|constructor].
    + apply (shape_snoc []). split; [exact shape_nil|]. split; [intros a x X; destruct a; discriminate|]. split; discriminate.
  - rewrite last_example_snoc. destruct r as [|y r].
    + rewrite on_last_snoc. cbn [fst snd]. split; [|exists l, (q ++ [Payload ty t []]); split; [reflexivity|now destruct q]]. split; [|split].
      * rewrite filter_app, E, !flat_app. cbn -[about_payload]. rewrite A, ?app_nil_r, <- app_assoc. f_equal. unfold flat. cbn. rewrite ?app_nil_r. rewrite flat_map_app. reflexivity.
      * apply Forall_app in F as [F G]. apply Forall_app. split; [exact F|]. constructor; [|constructor]. apply Forall_inv in G. destruct G as [G _]. split; [|constructor]. apply Forall_app. split; [exact G|]. constructor; [exact I|constructor].
      * apply shape_snoc in S as (S1 & S2 & S3 & S4). apply shape_snoc. split; [exact S1|]. split; [exact S2|]. cbn [fst]. split; [intros _; now destruct q|]. intros X. injection X. now destruct q.
    + rewrite on_last_snoc. cbn [fst snd app]. split; [|exists (l ++ [(q, y :: r)]), [Payload ty t []]; split; [reflexivity|discriminate]]. split; [|split].
      * rewrite filter_app, E, !flat_app. cbn -[about_payload]. rewrite A. reflexivity.
      * apply Forall_app. split; [exact F|]. constructor; [|constructor]. split; [|constructor]. constructor; [exact I|constructor].
      * apply shape_snoc. split; [exact S|]. split; [|split; discriminate]. intros a x X. apply app_inj_tail in X as [_ <-]. discriminate.
Qed.
Lemma transactions_response : forall ps ty t ex, In ty [ResponseSection; ResponseBodySection] -> transactions ps ex ->
  transactions (ps ++ [Listed ty t]) (push_response (Payload ty t []) ex) /\ response_open (push_response (Payload ty t []) ex).
Proof.
  intros ps ty t ex I H. apply transactions_iff in H as (E & F & S). rewrite transactions_iff.
  assert (A : about_payload (Listed ty t) = true) by (destruct I as [<-|[<-|[]]]; reflexivity).
  unfold push_response. destruct (snoc_cases _ ex) as [->|(l & [q r] & ->)].
  - cbn. split; [|exists [], [], [Payload ty t []]; split; [reflexivity|discriminate]]. split; [|split].
    + rewrite filter_app, E. cbn -[about_payload]. now rewrite A.
    + constructor; [|constructor]. split; [constructor|]. constructor; [exact I|constructor].
    + apply (shape_snoc []). split; [exact shape_nil|]. split; [intros a x X; destruct a; discriminate|]. split; [intros X; now elim X|discriminate].
  - rewrite last_example_snoc, on_last_snoc. cbn [fst snd]. split; [|exists l, q, (r ++ [Payload ty t []]); split; [reflexivity|now destruct r]]. split; [|split].
    + rewrite filter_app, E, !flat_app. cbn -[about_payload]. rewrite A, <- app_assoc. f_equal. unfold flat. cbn. rewrite !app_nil_r, !flat_map_app. cbn. now rewrite app_assoc.
    + apply Forall_app in F as [F G]. apply Forall_app. split; [exact F|]. constructor; [|constructor]. apply Forall_inv in G. destruct G as [G G']. split; [exact G|]. apply Forall_app. split; [exact G'|]. constructor; [exact I|constructor].
    + apply shape_snoc in S as (S1 & S2 & S3 & S4). apply shape_snoc. split; [exact S1|]. split; [exact S2|]. split; [exact S3|]. intros X. injection X. destruct r; discriminate.
Qed.
Lemma parts_add : forall t q, q <> [] -> flat_map payload_parts (on_last (add_body t) q) = flat_map payload_parts q ++ [Dangling t] /\ map y_type (on_last (add_body t) q) = map y_type q.
Proof.
  intros t q N. destruct (snoc_cases _ q) as [->|(l & y & ->)]; [contradiction|]. rewrite on_last_snoc, !flat_map_app, !map_app. cbn. split; [|reflexivity].
  unfold payload_parts. cbn. rewrite ?app_nil_r, <- ?app_assoc. f_equal. cbn. f_equal. rewrite map_app. reflexivity.
Qed.
Lemma types_forall : forall (l : list section_type) a b, map y_type a = map y_type b -> Forall (fun y => In (y_type y) l) b -> Forall (fun y => In (y_type y) l) a.
Proof.
  intros l a. induction a as [|x a IH]; intros [|y b] E H; try discriminate; [constructor|]. cbn in E. injection E as E1 E2. inversion H; subst. constructor; [now rewrite E1|now apply (IH b)].
Qed.
Lemma on_last_nil : forall A (f : A -> A) l, on_last f l = [] -> l = [].
Proof. intros A f l H. destruct (snoc_cases _ l) as [->|(a & x & ->)]; [reflexivity|]. rewrite on_last_snoc in H. now destruct a. Qed.
Lemma body_request : forall ps t ex, request_open ex -> transactions ps ex -> transactions (ps ++ [Dangling t]) (body_of_request t ex) /\ request_open (body_of_request t ex).
Proof.
  intros ps t ex (l & q & -> & N) H. apply transactions_iff in H as (E & F & S). rewrite transactions_iff. unfold body_of_request. rewrite on_last_snoc. cbn [fst snd].
  destruct (parts_add t q N) as [P Ty]. split; [split; [|split]|].
  - rewrite filter_app, E, !flat_app. cbn -[about_payload]. rewrite <- app_assoc. f_equal. unfold flat. cbn. rewrite !app_nil_r. symmetry. exact P.
  - apply Forall_app in F as [F G]. apply Forall_app. split; [exact F|]. constructor; [|constructor]. apply Forall_inv in G. destruct G as [G _]. split; [|constructor]. exact (types_forall _ _ _ Ty G).
  - apply shape_snoc in S as (S1 & S2 & S3 & S4). apply shape_snoc. split; [exact S1|]. split; [exact S2|]. cbn [fst]. split; [intros _ X; now apply on_last_nil in X|]. intros X. injection X as X. now apply on_last_nil in X.
  - exists l, (on_last (add_body t) q). split; [reflexivity|]. intros X. now apply on_last_nil in X.
Qed.
Lemma body_response : forall ps t ex, response_open ex -> transactions ps ex -> transactions (ps ++ [Dangling t]) (body_of_response t ex) /\ response_open (body_of_response t ex).
Proof.
  intros ps t ex (l & q & r & -> & N) H. apply transactions_iff in H as (E & F & S). rewrite transactions_iff. unfold body_of_response. rewrite on_last_snoc. cbn [fst snd].
  destruct (parts_add t r N) as [P Ty]. split; [split; [|split]|].
  - rewrite filter_app, E, !flat_app. cbn -[about_payload]. rewrite <- app_assoc. f_equal. unfold flat. cbn. rewrite !app_nil_r, !flat_map_app, P. now rewrite app_assoc.
  - apply Forall_app in F as [F G]. apply Forall_app. split; [exact F|]. constructor; [|constructor]. apply Forall_inv in G. destruct G as [G G']. split; [exact G|]. exact (types_forall _ _ _ Ty G').
  - apply shape_snoc in S as (S1 & S2 & S3 & S4). apply shape_snoc. split; [exact S1|]. split; [exact S2|]. split; [exact S3|]. intros X. injection X as _ X. now apply on_last_nil in X.
  - exists l, q, (on_last (add_body t) r). split; [reflexivity|]. intros X. now apply on_last_nil in X.
Qed.
