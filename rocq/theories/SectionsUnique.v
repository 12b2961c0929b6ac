(** The specification of C76 leaves no choice: the nodes of a document have one outline *)
From Verif Require Import Base StringSpec Regex ByteBuffer Markdown MarkdownSpec Keywords KeywordsSpec KeywordsProofs KeywordsOrder Prop_Keywords TypeTables Sections SectionsSpec SectionsKeys SectionsKinds SectionsItems SectionsLoop SectionsFine SectionsParts.
Local Open Scope list_scope.

(** ** lists cut at the first that is not so *)
Definition starts_so {A} (P : A -> Prop) (l : list A) : Prop := match l with x :: _ => P x | [] => False end.
Lemma prefix_unique : forall A (P : A -> Prop) a b r q, Forall P a -> Forall P b -> ~ starts_so P r -> ~ starts_so P q -> a ++ r = b ++ q -> a = b /\ r = q.
Proof.
  intros A P a. induction a as [|x a IH]; intros b r q Fa Fb Nr Nq E.
  - destruct b as [|y b]; [now split|]. exfalso. cbn in E. subst r. apply Nr. now inversion Fb.
  - destruct b as [|y b]; cbn in E.
    + exfalso. subst q. apply Nq. now inversion Fa.
    + injection E as -> E. inversion Fa; subst. inversion Fb; subst. destruct (IH b r q) as [-> ->]; auto.
Qed.
Lemma described_unique : forall (P : tree -> Prop) d d' r r', described P d r -> described P d' r' -> d ++ r = d' ++ r' -> d = d' /\ r = r'.
Proof. intros P d d' r r' [F N] [F' N'] E. exact (prefix_unique _ P d d' r r' F F' N N' E). Qed.

(** ** parts in order *)
Definition rule_det (rule : list part -> part -> list tree -> Prop) : Prop :=
  forall done p p' tl tl', Forall one_line (part_nodes p ++ tl) -> rule done p tl -> rule done p' tl' -> part_nodes p ++ tl = part_nodes p' ++ tl' -> p = p' /\ tl = tl'.
Definition rule_goes (rule : list part -> part -> list tree -> Prop) (stop : list part -> tree -> Prop) : Prop :=
  forall done p tl, rule done p tl -> exists t l, part_nodes p = t :: l /\ (one_line t -> stop done t -> False).
Lemma in_order_unique : forall rule stop, rule_det rule -> rule_goes rule stop -> forall ps done ps' rest rest',
  Forall one_line (nodes_of ps ++ rest) -> in_order rule done ps rest -> in_order rule done ps' rest' -> stops (stop (done ++ ps)) rest -> stops (stop (done ++ ps')) rest' ->
  nodes_of ps ++ rest = nodes_of ps' ++ rest' -> ps = ps' /\ rest = rest'.
Proof.
  intros rule stop D G ps. induction ps as [|p ps IH]; intros done ps' rest rest' O H H' S S' E.
  - destruct ps' as [|p' ps']; [now split|]. exfalso. inversion H' as [|? ? ? ? R _]; subst. destruct (G _ _ _ R) as (t & l & Et & N). cbn [nodes_of flat_map app] in E.
    rewrite Et in E. cbn in E. cbn in O. subst rest. rewrite app_nil_r in S. destruct S as [S|S]; [discriminate|]. inversion O; subst. now apply N.
  - inversion H as [|? ? ? ? R H2]; subst. destruct ps' as [|p' ps'].
    + exfalso. destruct (G _ _ _ R) as (t & l & Et & N). cbn [nodes_of flat_map app] in E, O. rewrite Et in E, O. cbn in E, O. subst rest'. rewrite app_nil_r in S'. destruct S' as [S'|S']; [discriminate|]. inversion O; subst. now apply N.
    + inversion H' as [|? ? ? ? R' H2']; subst. unfold nodes_of in E, O. cbn [flat_map] in E, O. rewrite <- !app_assoc in E. rewrite <- !app_assoc in O. destruct (D _ _ _ _ _ O R R' E) as [-> E2].
      destruct (IH (done ++ [p']) ps' rest rest') as [-> ->]; try assumption; [now apply Forall_app in O as [_ O]| | |now split]; rewrite <- app_assoc; assumption.
Qed.

(** ** list items *)
Ltac items t := destruct (items_value t) as (rel & par & hea & att & req & res & mdl & h & Hrel & Hpar & Hhea & Hatt & Hreq & Hres & Hmdl & Hh & _ & _ & _ & _ & _ & I);
  unfold resource_item, action_item, common_item, request_item, response_item, model_item; rewrite <- ?Hrel, <- ?Hpar, <- ?Hhea, <- ?Hatt, <- ?Hreq, <- ?Hres, <- ?Hmdl, <- ?Hh; clear Hrel Hpar Hhea Hatt Hreq Hres Hmdl Hh;
  destruct I as [E|[E|[E|[E|[E|[E|[E|[E|[E|[E|[E|[]]]]]]]]]]]]; injection E as <- <- <- <- <- <- <-; destruct h.
Lemma action_item_unique : forall t x y, action_item x t -> action_item y t -> x = y.
Proof. intros t x y. items t; intuition congruence. Qed.
Lemma resource_item_unique : forall t x y, resource_item x t -> resource_item y t -> x = y.
Proof. intros t x y. items t; intuition congruence. Qed.
Lemma action_not_model : forall t x y, action_item x t -> model_item y t -> item_says reads_relation t.
Proof. intros t x y. items t; intuition congruence. Qed.
Lemma action_an_item : forall t x, action_item x t -> an_item t.
Proof. intros [[] u z m cs] x; unfold action_item, common_item, request_item, response_item; cbn; tauto. Qed.
Lemma resource_an_item : forall t x, resource_item x t -> an_item t.
Proof. intros [[] u z m cs] x; unfold resource_item, common_item, model_item; cbn; tauto. Qed.
Lemma ends_action_header : forall t, ends_action t -> a_header t.
Proof. intros [[] u z m cs]; unfold ends_action, ends_resource, ends_group, group_h, structures_h, resource_h, action_h; cbn; tauto. Qed.
Lemma ends_resource_header : forall t, ends_resource t -> a_header t.
Proof. intros t H. apply ends_action_header. now left. Qed.
Lemma item_no_header : forall t, an_item t -> a_header t -> False.
Proof. intros [[] u z m cs]; cbn; tauto. Qed.
Lemma text_no_header : forall t, a_text t -> a_header t -> False.
Proof. intros [[] u z m cs]; cbn; tauto. Qed.
Lemma text_no_item : forall t, a_text t -> an_item t -> False.
Proof. intros [[] u z m cs]; cbn; tauto. Qed.

(** ** actions *)
Ltac one_node E := cbn [part_nodes app] in E; injection E as <- E; try (split; [reflexivity|exact E]).
Lemma action_rule_det : rule_det action_rule.
Proof.
  intros done p p' tl tl' _ R R' E. destruct p as [t|t|t|ty t|t|t|s], p' as [t'|t'|t'|ty' t'|t'|t'|s']; cbn [action_rule] in R, R'; try contradiction; one_node E.
  - rewrite (action_item_unique _ _ _ R R'). now split.
  - elim (text_no_item t (proj1 R') (action_an_item _ _ R)).
  - destruct R' as (_ & N & _). elim (proj1 (N ty) R).
  - elim (text_no_item t (proj1 R) (action_an_item _ _ R')).
  - elim (proj2 (proj2 R') R).
  - destruct R as (_ & N & _). elim (proj1 (N ty') R').
  - elim (proj2 (proj2 R) R').
Qed.
Lemma action_rule_goes : rule_goes action_rule (fun _ => action_stop).
Proof.
  intros done p tl R. destruct p as [t|t|t|ty t|t|t|s]; cbn [action_rule] in R; try contradiction; exists t, []; (split; [reflexivity|]); intros _ [S|[(y & S) N]].
  - exact (item_no_header t (action_an_item _ _ R) (ends_action_header _ S)).
  - exact (N (action_not_model _ _ _ R S)).
  - exact (text_no_header t (proj1 R) (ends_action_header _ S)).
  - apply (text_no_item t (proj1 R)). apply (resource_an_item t y). now right.
  - now apply R.
  - destruct R as (_ & R & _). exact (proj2 (R y) S).
Qed.
Lemma payloads_unique : forall a b, flat_map payload_parts a = flat_map payload_parts b -> a = b.
Proof.
  induction a as [|[ty t d] a IH]; intros [|[ty' t' d'] b] E; try discriminate; [reflexivity|]. cbn in E. injection E as -> -> E.
  assert (X : forall l : list payload, ~ starts_so (fun p => exists t, p = Dangling t) (flat_map payload_parts l)) by (intros [|[y u e] l]; cbn; [tauto|intros (v & V); discriminate]).
  destruct (prefix_unique _ (fun p => exists t, p = Dangling t) (map Dangling d) (map Dangling d') (flat_map payload_parts a) (flat_map payload_parts b)) as [Ed Ea]; auto;
    try (apply Forall_forall; intros p Hp; apply in_map_iff in Hp as (u & <- & _); now exists u).
  rewrite (IH b Ea). f_equal. f_equal. clear - Ed. revert d' Ed. induction d as [|x d IH]; intros [|y d'] E; try discriminate; [reflexivity|]. cbn in E. injection E as -> E. now rewrite (IH d' E).
Qed.
Definition payloads (ex : list example) : list payload := flat_map (fun e => fst e ++ snd e) ex.
Definition requested (y : payload) : Prop := In (y_type y) [RequestSection; RequestBodySection].
Definition responded (y : payload) : Prop := In (y_type y) [ResponseSection; ResponseBodySection].
Lemma apart_payload : forall y, requested y -> responded y -> False.
Proof. intros [ty t d]. unfold requested, responded. cbn. intuition congruence. Qed.
Lemma shape_tail : forall e b, shape (e :: b) -> shape b /\ (b <> [] -> exists f c, b = f :: c /\ fst f <> []).
Proof.
  intros e b H. split.
  - intros a x c ->. destruct (H (e :: a) x c eq_refl) as (H1 & H2 & H3). split; [exact H1|]. split; [|exact H3]. intros _. apply H2. discriminate.
  - intros N. destruct b as [|f c]; [now elim N|]. exists f, c. split; [reflexivity|]. destruct (H [e] f c eq_refl) as (_ & H2 & _). apply H2. discriminate.
Qed.
Lemma examples_unique : forall a b, Forall example_ok a -> Forall example_ok b -> shape a -> shape b -> payloads a = payloads b -> a = b.
Proof.
  assert (Z : forall e l, shape (e :: l) -> payloads (e :: l) <> []).
  { intros [q r] l H. destruct (H [] (q, r) l eq_refl) as (_ & _ & N). unfold payloads. cbn. destruct q; [destruct r; [now elim N|]|]; discriminate. }
  assert (T : forall e l, Forall example_ok (e :: l) -> shape (e :: l) -> ~ starts_so requested (snd e ++ payloads l) /\ ~ starts_so responded (payloads l)).
  { intros [q r] l F S. inversion F as [|? ? [Fq Fr] Fl]; subst. cbn [fst snd] in *. split.
    - destruct r as [|y r]; cbn; [|intros H; inversion Fr as [|? ? R ?]; exact (apart_payload y H R)].
      destruct l as [|f l]; [cbn; tauto|]. destruct (S [] (q, []) (f :: l) eq_refl) as (X & _). now elim X.
    - destruct l as [|f l]; [cbn; tauto|]. destruct (proj2 (shape_tail _ _ S) ltac:(discriminate)) as (f' & c & E & Nf). injection E as <- <-.
      destruct f as [[|y q'] r']; [now elim Nf|]. cbn. intros H. inversion Fl as [|? ? [Fy _] ?]; subst. inversion Fy as [|? ? R ?]. exact (apart_payload y R H). }
  induction a as [|[q r] a IH]; intros [|[q' r'] b] Fa Fb Sa Sb E; [reflexivity|exfalso; exact (Z _ _ Sb (eq_sym E))|exfalso; exact (Z _ _ Sa E)|].
  destruct (T _ _ Fa Sa) as [T1 T2]. destruct (T _ _ Fb Sb) as [T3 T4]. cbn [fst snd] in *. unfold payloads in E, T1, T2, T3, T4. cbn [flat_map fst snd] in E. rewrite <- !app_assoc in E.
  inversion Fa as [|? ? [Fq Fr] Fa']; subst. inversion Fb as [|? ? [Fq' Fr'] Fb']; subst.
  destruct (prefix_unique _ requested q q' _ _ Fq Fq' T1 T3 E) as [-> E2]. destruct (prefix_unique _ responded r r' _ _ Fr Fr' T2 T4 E2) as [-> E3].
  rewrite (IH b Fa' Fb' (proj1 (shape_tail _ _ Sa)) (proj1 (shape_tail _ _ Sb)) E3). reflexivity.
Qed.
Lemma transactions_unique : forall ps a b, transactions ps a -> transactions ps b -> a = b.
Proof.
  intros ps a b H K. apply transactions_iff in H as (E & Fa & Sa). apply transactions_iff in K as (E' & Fb & Sb). apply examples_unique; try assumption. apply payloads_unique. unfold flat in E, E'. unfold payloads. now rewrite <- E, <- E'.
Qed.
Definition one_way (ok : section -> list tree -> Prop) : Prop :=
  forall s s' r r', Forall one_line (section_nodes s ++ r) -> ok s r -> ok s' r' -> section_nodes s ++ r = section_nodes s' ++ r' -> s = s' /\ r = r'.
Lemma head_text : forall kind h d ps ex, section_nodes (Sec kind (Head h :: map Text d ++ ps) ex) = h :: d ++ nodes_of ps.
Proof. intros. cbn. f_equal. fold (nodes_of (map Text d ++ ps)). now rewrite nodes_app, nodes_text. Qed.
Lemma action_one_way : one_way action_ok.
Proof.
  intros s s' r r' O (h & d & ps & ex & -> & _ & D & Or & St & Tr) (h' & d' & ps' & ex' & -> & _ & D' & Or' & St' & Tr') E. rewrite !head_text in E. rewrite head_text in O. cbn in E, O. injection E as <- E. rewrite <- !app_assoc in E. rewrite <- app_assoc in O.
  destruct (described_unique _ _ _ _ _ D D' E) as [-> E2]. inversion O as [|? ? _ O2]; subst. apply Forall_app in O2 as [_ O2].
  destruct (in_order_unique _ _ action_rule_det action_rule_goes ps [] ps' r r' O2 Or Or' St St' E2) as [-> ->]. rewrite (transactions_unique _ _ _ Tr Tr'). now split.
Qed.

(** ** resources *)
Lemma own_header : forall t, own_action t -> a_header t.
Proof. intros [[] u z m cs]; unfold own_action, action_h; cbn; tauto. Qed.
Lemma head_nodes : forall s h, section_head s = Some h -> exists l, section_nodes s = h :: l.
Proof. intros s h. unfold section_head. destruct (section_nodes s) as [|x l]; [discriminate|]. intros E. injection E as ->. now exists l. Qed.
(** a part of its own: the node in question begins it *)
Ltac head_of H := let h := fresh "h" in let l := fresh "l" in let E := fresh "Eh" in let Q := fresh "Q" in let K := fresh "K" in
  destruct H as [(h & E & Q) K]; apply head_nodes in E as (l & E).
Lemma resource_rule_det : rule_det resource_rule.
Proof.
  intros done p p' tl tl' O R R' E. destruct p as [t|t|t|ty t|t|t|s], p' as [t'|t'|t'|ty' t'|t'|t'|s']; cbn [resource_rule] in R, R'; try contradiction;
    try (head_of R); try (head_of R'); cbn [part_nodes] in *; rewrite ?Eh, ?Eh0 in E; try one_node E.
  - rewrite (resource_item_unique _ _ _ R R'). now split.
  - elim (text_no_item t (proj1 R') (resource_an_item _ _ R)).
  - destruct R' as (_ & _ & N & _). elim (N ty R).
  - elim (item_no_header t (resource_an_item _ _ R) (own_header _ Q)).
  - elim (text_no_item t (proj1 R) (resource_an_item _ _ R')).
  - elim (proj2 (proj2 (proj2 R')) R).
  - elim (text_no_header t (proj1 R) (own_header _ Q)).
  - destruct R as (_ & _ & N & _). elim (N ty' R').
  - elim (proj2 (proj2 (proj2 R)) R').
  - elim (proj1 (proj2 R) Q).
  - elim (item_no_header h (resource_an_item _ _ R') (own_header _ Q)).
  - elim (text_no_header h (proj1 R') (own_header _ Q)).
  - elim (proj1 (proj2 R') Q).
  - destruct (action_one_way _ _ _ _ O K K0) as [-> ->]; [rewrite Eh, Eh0; cbn; now rewrite E|now split].
Qed.
Lemma resource_rule_goes : rule_goes resource_rule (fun _ => resource_stop).
Proof.
  intros done p tl R. destruct p as [t|t|t|ty t|t|t|s]; cbn [resource_rule] in R; try contradiction; try (head_of R).
  - exists t, []. split; [reflexivity|]. intros _ [S _]. exact (item_no_header t (resource_an_item _ _ R) (ends_resource_header _ S)).
  - exists t, []. split; [reflexivity|]. intros _ [S _]. exact (text_no_header t (proj1 R) (ends_resource_header _ S)).
  - exists t, []. split; [reflexivity|]. intros _ [S _]. now apply R.
  - exists h, l. split; [exact Eh|]. intros _ [_ S]. exact (S Q).
Qed.
Lemma resource_one_way : one_way resource_ok.
Proof.
  intros s s' r r' O [(a & h & -> & H & Ep & Ok)|(h & d & ps & -> & Hd & Ne & D & Or & St)] [(a' & h' & -> & H' & Ep' & Ok')|(h' & d' & ps' & -> & Hd' & Ne' & D' & Or' & St')] E.
  - cbn [section_nodes flat_map part_nodes] in E, O. rewrite !app_nil_r in E. rewrite app_nil_r in O. destruct (action_one_way _ _ _ _ O Ok Ok' E) as [-> ->]. now split.
  - exfalso. cbn [section_nodes flat_map part_nodes] in E. rewrite app_nil_r in E. apply head_nodes in H as (l & El). rewrite El in E. cbn in E. injection E as E _. apply Ne'. now rewrite <- E.
  - exfalso. cbn [section_nodes flat_map part_nodes] in E. rewrite app_nil_r in E. apply head_nodes in H' as (l & El). rewrite El in E. cbn in E. injection E as E _. apply Ne. now rewrite E.
  - rewrite !head_text in E. rewrite head_text in O. cbn in E, O. injection E as <- E. rewrite <- !app_assoc in E. rewrite <- app_assoc in O.
    destruct (described_unique _ _ _ _ _ D D' E) as [-> E2]. inversion O as [|? ? _ O2]; subst. apply Forall_app in O2 as [_ O2].
    destruct (in_order_unique _ _ resource_rule_det resource_rule_goes ps [] ps' r r' O2 Or Or' St St' E2) as [-> ->]. now split.
Qed.

(** ** groups *)
Lemma apart_upper : forall t, one_line t -> resource_h t \/ action_h t \/ type_section_h t -> ends_group t -> False.
Proof.
  intros t O H S. assert (Hd : is_header t = true) by (destruct S as [S|S]; [now apply group_header|now apply structures_header]).
  assert (X : exists x, In x [type_section_type t; resource_type t; action_section_type t] /\ x <> UndefinedSection).
  { destruct (C75_headers t) as (R & A & _). destruct H as [H|[H|H]].
    - exists (resource_type t). split; [cbn; auto|]. apply R in H. congruence.
    - exists (action_section_type t). split; [cbn; auto|]. apply A in H. congruence.
    - exists (type_section_type t). split; [cbn; auto|]. destruct H as [H|[H|H]]; [apply (values_iff t Hd) in H|apply (members_iff t Hd) in H|apply (properties_iff t Hd) in H]; congruence. }
  destruct X as (x & I & N). destruct (upper_apart t x O Hd I N) as [G D]. destruct (C75_headers t) as (_ & _ & HG & HD). destruct S as [S|S]; [apply HG in S|apply HD in S]; congruence.
Qed.
Lemma group_rule_det : rule_det group_rule.
Proof.
  intros done p p' tl tl' O R R' E. destruct p as [t|t|t|ty t|t|t|s], p' as [t'|t'|t'|ty' t'|t'|t'|s']; cbn [group_rule] in R, R'; try contradiction;
    try (head_of R); try (head_of R'); cbn [part_nodes] in *; rewrite ?Eh, ?Eh0 in E; try one_node E.
  - elim (proj1 R Q).
  - elim (proj1 R' Q).
  - destruct (resource_one_way _ _ _ _ O K K0) as [-> ->]; [rewrite Eh, Eh0; cbn; now rewrite E|now split].
Qed.
Lemma group_rule_goes : rule_goes group_rule (fun _ => ends_group).
Proof.
  intros done p tl R. destruct p as [t|t|t|ty t|t|t|s]; cbn [group_rule] in R; try contradiction; try (head_of R).
  - exists t, []. split; [reflexivity|]. intros _ S. exact (proj2 R S).
  - exists h, l. split; [exact Eh|]. intros O S. exact (apart_upper h O (or_introl Q) S).
Qed.
Lemma group_one_way : one_way group_ok.
Proof.
  intros s s' r r' O (h & d & ps & -> & _ & D & Or & St) (h' & d' & ps' & -> & _ & D' & Or' & St') E.
  rewrite !head_text in E. rewrite head_text in O. cbn in E, O. injection E as <- E. rewrite <- !app_assoc in E. rewrite <- app_assoc in O.
  destruct (described_unique _ _ _ _ _ D D' E) as [-> E2]. inversion O as [|? ? _ O2]; subst. apply Forall_app in O2 as [_ O2].
  destruct (in_order_unique _ _ group_rule_det group_rule_goes ps [] ps' r r' O2 Or Or' St St' E2) as [-> ->]. now split.
Qed.

(** ** type sections *)
Lemma bases_apart : forall b, (value_base b -> object_base b -> False) /\ (value_base b -> primitive_base b -> False) /\ (object_base b -> primitive_base b -> False).
Proof. intros b. unfold value_base, object_base, primitive_base. destruct b; intuition discriminate. Qed.
Lemma type_member_unique : forall b x y t, type_member b x t -> type_member b y t -> x = y.
Proof. intros b x y t (_ & _ & _ & H) (_ & _ & _ & K). destruct (bases_apart b) as (A & _ & _). intuition congruence. Qed.
Lemma values_rule_det : forall b, rule_det (values_rule b).
Proof.
  intros b done p p' tl tl' O R R' E. destruct (bases_apart b) as (_ & A2 & A3).
  destruct p as [t|t|t|ty t|t|t|s], p' as [t'|t'|t'|ty' t'|t'|t'|s']; cbn [values_rule] in R, R'; try contradiction; one_node E.
  - exfalso. unfold type_member in R'. tauto.
  - exfalso. unfold type_member in R. tauto.
  - rewrite (type_member_unique _ _ _ _ R R'). now split.
Qed.
Lemma values_rule_goes : forall b, rule_goes (values_rule b) (fun _ => values_stop b).
Proof.
  intros b done p tl R. destruct p as [t|t|t|ty t|t|t|s]; cbn [values_rule] in R; try contradiction; exists t, []; (split; [reflexivity|]); intros _ S.
  - unfold values_stop in S. tauto.
  - destruct R as (I & R). pose proof (item_no_header t I) as N. unfold values_stop in S. tauto.
Qed.
Definition member_of (b : base_type) (ty : section_type) (t : tree) : Prop := type_member b ty t \/ (ty = MSONMixinSection /\ include_item t) \/ (ty = MSONOneOfSection /\ one_of_item t /\ object_base b).
Lemma member_unique : forall b x y t, member_of b x t -> member_of b y t -> x = y.
Proof.
  intros b x y t [R|[R|R]] [R'|[R'|R']]; try (exact (type_member_unique _ _ _ _ R R')); unfold type_member, one_of_item in *; intuition congruence.
Qed.
Lemma member_item : forall b x t, member_of b x t -> an_item t.
Proof. intros b x t [R|[[_ R]|[_ [R _]]]]; [exact (proj1 R)| |]; apply (item_not_h t); auto. Qed.
Lemma members_rule_det : forall b, rule_det (members_rule b).
Proof.
  intros b done p p' tl tl' O R R' E. destruct p as [t|t|t|ty t|t|t|s], p' as [t'|t'|t'|ty' t'|t'|t'|s']; cbn [members_rule] in R, R'; try contradiction; one_node E.
  rewrite (member_unique b _ _ t R R'). now split.
Qed.
Lemma members_rule_goes : forall b, rule_goes (members_rule b) (fun _ => members_stop b).
Proof.
  intros b done p tl R. destruct p as [t|t|t|ty t|t|t|s]; cbn [members_rule] in R; try contradiction; exists t, []; (split; [reflexivity|]); intros _ S.
  pose proof (member_item b ty t R) as I. destruct S as [S|[S N]]; [exact (item_no_header t I S)|]. unfold type_member, one_of_item in *. tauto.
Qed.
Lemma type_headers_apart : forall t, (values_h t -> members_h t -> False) /\ (values_h t -> properties_h t -> False) /\ (members_h t -> properties_h t -> False).
Proof.
  intros t. destruct (is_header t) eqn:Hd.
  - rewrite <- (values_iff t Hd), <- (members_iff t Hd), <- (properties_iff t Hd). repeat split; congruence.
  - destruct (not_header_h t Hd) as (_ & _ & _ & _ & V & M & _). tauto.
Qed.
Lemma head_parts : forall kind h ps ex, section_nodes (Sec kind (Head h :: ps) ex) = h :: nodes_of ps.
Proof. reflexivity. Qed.
Ltac same_head O E := rewrite !head_parts in E; rewrite head_parts in O; cbn [app] in E, O; injection E as <- E.
Lemma type_section_one_way : forall b, one_way (type_section_ok b).
Proof.
  intros b s s' r r' O H H' E.
  destruct H as [(h & ps & -> & K & Or & St)|[(h & ps & -> & K & B & Or & St)|(h & ps & -> & K & B & Or & St)]], H' as [(h' & ps' & -> & K' & Or' & St')|[(h' & ps' & -> & K' & B' & Or' & St')|(h' & ps' & -> & K' & B' & Or' & St')]];
    same_head O E; destruct (type_headers_apart h) as (A1 & A2 & A3); try (exfalso; tauto); inversion O as [|? ? _ O2]; subst.
  - destruct (in_order_unique _ _ (values_rule_det b) (values_rule_goes b) ps [] ps' r r' O2 Or Or' St St' E) as [-> ->]. now split.
  - destruct (in_order_unique _ _ (members_rule_det b) (members_rule_goes b) ps [] ps' r r' O2 Or Or' St St' E) as [-> ->]. now split.
  - destruct (in_order_unique _ _ (members_rule_det b) (members_rule_goes b) ps [] ps' r r' O2 Or Or' St St' E) as [-> ->]. now split.
Qed.
Lemma type_section_head : forall b s r, type_section_ok b s r -> exists h l, section_nodes s = h :: l /\ a_header h /\ (values_h h \/ (members_h h /\ value_base b) \/ (properties_h h /\ object_base b)).
Proof.
  assert (Hd : forall h, type_section_h h -> a_header h) by (intros [[] u z m cs]; unfold type_section_h, values_h, members_h, properties_h; cbn; tauto).
  intros b s r [(h & ps & -> & K & _)|[(h & ps & -> & K & B & _)|(h & ps & -> & K & B & _)]]; rewrite head_parts; exists h, (nodes_of ps); (split; [reflexivity|]); (split; [apply Hd; unfold type_section_h; tauto|]); tauto.
Qed.

(** ** named types *)
Lemma named_rule_det : forall b told, rule_det (named_type_rule b told).
Proof.
  intros b told done p p' tl tl' O R R' E. destruct p as [t|t|t|ty t|t|t|s], p' as [t'|t'|t'|ty' t'|t'|t'|s']; cbn [named_type_rule] in R, R'; try contradiction;
    try (destruct (type_section_head _ _ _ R) as (h & l & Eh & Hd & Ht)); try (destruct (type_section_head _ _ _ R') as (h' & l' & Eh' & Hd' & Ht'));
    cbn [part_nodes] in *; rewrite ?Eh, ?Eh' in E; try one_node E.
  all: try (exfalso; tauto).
  - destruct R as (_ & _ & R), R' as (_ & _ & R'). rewrite (member_unique b _ _ t R R'). now split.
  - exfalso. destruct R as (_ & _ & R). pose proof (member_item b ty t R). tauto.
  - exfalso. destruct R as (_ & _ & R). exact (item_no_header t (member_item b ty t R) Hd').
  - exfalso. destruct R' as (_ & _ & R'). pose proof (member_item b ty' t R'). tauto.
  - exfalso. destruct R' as (_ & _ & R'). exact (item_no_header h (member_item b ty' h R') Hd).
  - destruct (type_section_one_way b _ _ _ _ O R R') as [-> ->]; [rewrite Eh, Eh'; cbn; now rewrite E|now split].
Qed.
Lemma named_rule_goes : forall b told, rule_goes (named_type_rule b told) (named_type_stop b told).
Proof.
  intros b told done p tl R. destruct p as [t|t|t|ty t|t|t|s]; cbn [named_type_rule] in R; try contradiction.
  - exists t, []. split; [reflexivity|]. intros _ S. assert (N : ~ members_h t /\ ~ properties_h t) by (destruct (is_header t) eqn:Hd; [elim (proj1 R); now apply header_iff_a|destruct (not_header_h t Hd); tauto]). unfold named_type_stop in S. tauto.
  - exists t, []. split; [reflexivity|]. intros _ S. destruct R as (N1 & N2 & R). pose proof (member_item b ty t R) as I. pose proof (item_no_header t I) as Nh.
    assert (N : ~ members_h t /\ ~ properties_h t) by (destruct (is_header t) eqn:Hd; [elim Nh; now apply header_iff_a|destruct (not_header_h t Hd); tauto]).
    destruct (bases_apart b) as (A1 & A2 & A3). unfold named_type_stop, type_member, one_of_item in *. tauto.
  - exists t, []. split; [reflexivity|]. intros _ S. destruct R as (Nh & Ni & Nt & Np). assert (N : ~ members_h t /\ ~ properties_h t) by (destruct (is_header t) eqn:Hd; [elim Nh; now apply header_iff_a|destruct (not_header_h t Hd); tauto]).
    assert (No : ~ one_of_item t) by (intros X; apply Ni; apply (item_not_h t); now right). unfold named_type_stop in S. tauto.
  - destruct (type_section_head _ _ _ R) as (h & l & Eh & Hd & Ht). exists h, l. split; [exact Eh|]. intros _ S. destruct (type_headers_apart h) as (A1 & A2 & A3). unfold named_type_stop, type_section_h in S. tauto.
Qed.
Lemma named_type_one_way : forall base, one_way (named_type_ok base).
Proof.
  intros base s s' r r' O (h & d & ps & -> & _ & D & Or & St) (h' & d' & ps' & -> & _ & D' & Or' & St') E.
  rewrite !head_text in E. rewrite head_text in O. cbn [app] in E, O. injection E as <- E. rewrite <- !app_assoc in E. rewrite <- app_assoc in O.
  destruct (described_unique _ _ _ _ _ D D' E) as [-> E2]. inversion O as [|? ? _ O2]; subst. apply Forall_app in O2 as [_ O2].
  destruct (in_order_unique _ _ (named_rule_det _ _) (named_rule_goes _ _) ps [] ps' r r' O2 Or Or' St St' E2) as [-> ->]. now split.
Qed.
Lemma structures_rule_det : forall base, rule_det (structures_rule base).
Proof.
  intros base done p p' tl tl' O R R' E. destruct p as [t|t|t|ty t|t|t|s], p' as [t'|t'|t'|ty' t'|t'|t'|s']; cbn [structures_rule] in R, R'; try contradiction.
  - one_node E.
  - exfalso. destruct R' as (h & d & ps & -> & T & _). cbn [part_nodes] in E. rewrite head_text in E. cbn in E. injection E as <- _. exact (proj1 R T).
  - exfalso. destruct R as (h & d & ps & -> & T & _). cbn [part_nodes] in E. rewrite head_text in E. cbn in E. injection E as -> _. exact (proj1 R' T).
  - cbn [part_nodes] in *. destruct (named_type_one_way base _ _ _ _ O R R' E) as [-> ->]. now split.
Qed.
Lemma structures_rule_goes : forall base, rule_goes (structures_rule base) (fun _ => ends_resource).
Proof.
  intros base done p tl R. destruct p as [t|t|t|ty t|t|t|s]; cbn [structures_rule] in R; try contradiction.
  - exists t, []. split; [reflexivity|]. intros _ S. exact (proj2 R S).
  - destruct R as (h & d & ps & -> & T & _). cbn [part_nodes]. rewrite head_text. exists h, (d ++ nodes_of ps). split; [reflexivity|]. intros _ S. unfold type_h, ends_resource, ends_group in *. tauto.
Qed.
Lemma structures_one_way : forall base, one_way (structures_ok base).
Proof.
  intros base s s' r r' O (h & ps & -> & _ & Or & St) (h' & ps' & -> & _ & Or' & St') E. same_head O E. inversion O as [|? ? _ O2]; subst.
  destruct (in_order_unique _ _ (structures_rule_det base) (structures_rule_goes base) ps [] ps' r r' O2 Or Or' St St' E) as [-> ->]. now split.
Qed.

(** ** the document *)
Lemma document_rule_det : forall base, rule_det (document_rule base).
Proof.
  intros base.
  assert (Hs : forall s r, document_rule base [] (Sub s) r -> exists h l, section_nodes s = h :: l /\ ((resource_h h /\ resource_ok s r) \/ (group_h h /\ group_ok s r) \/ (structures_h h /\ structures_ok base s r))).
  { intros s r [R|[R|R]].
    - head_of R. exists h, l. tauto.
    - pose proof R as (h & d & ps & -> & G & _). rewrite head_text. exists h, (d ++ nodes_of ps). tauto.
    - pose proof R as (h & ps & -> & G & _). rewrite head_parts. exists h, (nodes_of ps). tauto. }
  intros done p p' tl tl' O R R' E. destruct p as [t|t|t|ty t|t|t|s], p' as [t'|t'|t'|ty' t'|t'|t'|s']; try contradiction.
  - one_node E.
  - exfalso. destruct (Hs s' tl' R') as (h & l & Eh & H). cbn [part_nodes] in E. rewrite Eh in E. cbn in E. injection E as -> _. unfold document_rule, begins_section in R. tauto.
  - exfalso. destruct (Hs s tl R) as (h & l & Eh & H). cbn [part_nodes] in E. rewrite Eh in E. cbn in E. injection E as <- _. unfold document_rule, begins_section in R'. tauto.
  - cbn [part_nodes] in *. destruct (Hs s tl R) as (h & l & Eh & H). destruct (Hs s' tl' R') as (h' & l' & Eh' & H'). pose proof E as E'. rewrite Eh, Eh' in E'. cbn in E'. injection E' as <- _.
    assert (Oh : one_line h) by (rewrite Eh in O; now inversion O). pose proof (fun X => apart_upper h Oh (or_introl X)) as A.
    assert (Ag : group_h h -> structures_h h -> False).
    { destruct (C75_headers h) as (_ & _ & HG & HD). intros X Y. apply HG in X. apply HD in Y. pose proof (group_apart h Oh). rewrite X, Y in H0. discriminate H0. discriminate. }
    unfold ends_group in A. destruct H as [[X H]|[[X H]|[X H]]], H' as [[X' H']|[[X' H']|[X' H']]]; try (exfalso; tauto).
    + destruct (resource_one_way _ _ _ _ O H H' E) as [-> ->]. now split.
    + destruct (group_one_way _ _ _ _ O H H' E) as [-> ->]. now split.
    + destruct (structures_one_way base _ _ _ _ O H H' E) as [-> ->]. now split.
Qed.
Lemma document_rule_goes : forall base, rule_goes (document_rule base) (fun _ _ => False).
Proof.
  intros base done p tl R. destruct p as [t|t|t|ty t|t|t|s]; try contradiction; [now exists t, []|]. destruct R as [R|[R|R]].
  - head_of R. now exists h, l.
  - destruct R as (h & d & ps & -> & _). cbn [part_nodes]. rewrite head_text. now exists h, (d ++ nodes_of ps).
  - destruct R as (h & ps & -> & _). cbn [part_nodes]. rewrite head_parts. now exists h, (nodes_of ps).
Qed.
Lemma begins_header : forall t, begins_section t -> a_header t.
Proof. intros [[] u z m cs]; unfold begins_section, resource_h, group_h, structures_h; cbn; tauto. Qed.
Lemma header_no_metadata : forall t, a_header t -> metadata_p t -> False.
Proof. intros [[] u z m cs]; cbn; tauto. Qed.
Lemma document_nodes : forall m o d ps, section_nodes (Sec BlueprintSection (map Meta m ++ o ++ map Text d ++ ps) []) = m ++ nodes_of o ++ d ++ nodes_of ps.
Proof. intros. change (nodes_of (map Meta m ++ o ++ map Text d ++ ps) = m ++ nodes_of o ++ d ++ nodes_of ps). now rewrite !nodes_app, nodes_meta, nodes_text. Qed.
Lemma opening_unique : forall o o' r r', opening o r -> opening o' r' -> (o = [] -> r = [] \/ first_is begins_section r) -> nodes_of o ++ r = nodes_of o' ++ r' -> o = o' /\ r = r'.
Proof.
  intros o o' r r' [(-> & B)|[(h & -> & Hh & Nh)|(t & -> & Nh & Nm)]] [(-> & B')|[(h' & -> & Hh' & Nh')|(t' & -> & Nh' & Nm')]] _ E; cbn in E; try (injection E as <- E); try (now split); exfalso.
  - subst r. destruct B as [B|B]; [discriminate|]. now apply Nh'.
  - subst r. destruct B as [B|B]; [discriminate|]. apply Nh'. now apply begins_header.
  - subst r'. destruct B' as [B|B]; [discriminate|]. now apply Nh.
  - subst r'. destruct B' as [B|B]; [discriminate|]. apply Nh. now apply begins_header.
Qed.
Lemma document_unique : forall base s s', Forall one_line (section_nodes s) -> document_ok base s -> document_ok base s' -> section_nodes s = section_nodes s' -> s = s'.
Proof.
  intros base s s' O (m & o & d & ps & -> & M & Op & _ & D & Or) (m' & o' & d' & ps' & -> & M' & Op' & _ & D' & Or') E. rewrite !document_nodes in E. rewrite document_nodes in O.
  rewrite nodes_app, nodes_text in Op, Op'.
  assert (X : forall o r, opening o r -> ~ first_is metadata_p (nodes_of o ++ r)).
  { intros p r [(-> & [->|B])|[(h & -> & Hh & Nh)|(t & -> & Nh & Nm)]]; cbn; [tauto| | |exact Nm].
    - destruct r as [|t r]; [contradiction|]. cbn in *. intros K. exact (header_no_metadata t (begins_header t B) K).
    - intros K. exact (header_no_metadata h Hh K). }
  destruct (prefix_unique _ metadata_p m m' _ _ M M' (X _ _ Op) (X _ _ Op') E) as [-> E2].
  destruct (opening_unique _ _ _ _ Op Op') as [-> E3]; [|exact E2|].
  { intros ->. destruct Op as [(_ & B)|[(h & B & _)|(t & B & _)]]; [exact B|discriminate|discriminate]. }
  destruct (described_unique _ _ _ _ _ D D' E3) as [-> E4]. apply Forall_app in O as [_ O]. apply Forall_app in O as [_ O]. apply Forall_app in O as [_ O].
  assert (S : forall l, stops ((fun _ _ => False) ([] ++ l : list part)) []) by (intros l; now left).
  rewrite <- (app_nil_r (nodes_of ps)) in O, E4. rewrite <- (app_nil_r (nodes_of ps')) in E4.
  destruct (in_order_unique _ _ (document_rule_det base) (document_rule_goes base) ps [] ps' [] [] O Or Or' (S ps) (S ps') E4) as [-> _]. reflexivity.
Qed.
