(** Lemmas for C86 *)
From Verif Require Import Base StringUtility StringSpec StringProofs ByteBuffer ByteSpec Markdown MarkdownSpec TypeTables SourceMap Mson TypeDefs TypeDefsSpec TypeDefsProofs MembersTree MembersSpec MembersRead MembersLeaves MembersParts MembersWhole MembersEnds
  Params ParamsSpec ParamsRead ParamsWhole ParamsEnds Prop_Params Given GivenSpec.
From Verif Require Import Keywords.
From Verif Require Sections SectionsSpec Transactions Payloads PayloadsSpec PayloadsText Blueprint.
Import PayloadsSpec(the_text, place, opens, lines).
Import Keywords(ParametersSection).
Import Sections(part, Head, Text, Meta, Listed, Dangling, Ignored, Sub, Sec).
Import SectionsSpec(part_nodes, section_nodes).
Import Transactions(action_signature, resource_header, resource_of).
Import Blueprint(parameter, pa_name).
Local Open Scope string_scope.
Notation nodes_of := (flat_map part_nodes).

Section Whole.
Context (known : list (string * base_type)) (source : string) (Small : (slen source < 2 ^ 64)%N) (n : nat).
Notation reads := (reads known).
Notation deep := (deep source (S (S n))).

(** ** combinators *)
Lemma reads_steps : forall {A B} (step : B -> A -> st -> outcome (A * st)) (R : B -> A -> A -> located -> Prop) l,
  (forall x a, In x l -> reads (step x a) (R x a)) -> forall a, reads (each step l a) (in_steps R l a).
Proof.
  intros A B step R. induction l as [|x r IH]; intros H a.
  - refine (reads_ext _ _ (reads_val known a) _). intros y e. split; [intros [-> ->]; constructor|intros Q; inversion Q; auto].
  - refine (reads_ext _ _ (reads_bind (in_steps R r) (H x a (or_introl eq_refl)) (fun b _ _ => IH (fun y c I => H y c (or_intror I)) b)) _).
    intros c e. split; [intros (b & e1 & e2 & R1 & R2 & ->); econstructor; eassumption|intros Q; inversion Q as [|x0 r0 a0 b c0 e1 e2 R1 R2]; subst; exists b, e1, e2; auto].
Qed.
Lemma remarks_said : forall t w s, Forall (fun x => exists m, x = Says 8 m) w -> note (lies t) (map as_remark w) s = perform (on t w) s.
Proof.
  intros t w s F. rewrite perform_on, performed_says.
  - rewrite set_deps_same. destruct s as [tb ns]. cbn [s_tables s_notes]. f_equal. induction F as [|x w [m ->] F IH]; [reflexivity|]. cbn [map as_remark]. now rewrite IH.
  - intros x I. rewrite Forall_forall in F. destruct (F x I) as [m ->]. eauto.
Qed.
Lemma eligible_says : forall uri name l w, eligible uri name l w -> Forall (fun x => exists m, x = Says 8 m) w.
Proof. intros uri name l w H. apply eligible_iff in H as (rs & _ & _ & F). exact F. Qed.
Lemma eligible_one : forall uri name l w, eligible uri name l w -> forall v, eligible uri name l v -> w = v.
Proof. intros uri name l w H. induction H as [|p l e V H IH|p l e V H IH]; intros v K; inversion K; subst; try contradiction; try reflexivity; [now apply IH|]. f_equal. now apply IH. Qed.
Lemma look_reads : forall uri name t l, reads (look_up uri name t l) (fun l' e => l' = l /\ looked_up uri name t l e).
Proof.
  intros uri name t l. destruct (C81_eligible_total uri name l) as [rs E]. pose proof (proj1 (C81_eligible uri name l rs) E) as (w & W & ->).
  refine (reads_fun _ _ (reads_ext _ _ (reads_ret known l (on t w)) _) _).
  - intros l' e. split; [intros [-> ->]; split; [reflexivity|now exists w]|]. intros (-> & v & V & ->). split; [reflexivity|]. now rewrite (eligible_one _ _ _ _ V _ W).
  - intros s. unfold look_up. rewrite E. change (spot t) with (lies t). now rewrite (remarks_said t w s (eligible_says _ _ _ _ W)).
Qed.
Lemma looked_none : forall uri name t e, looked_up uri name t [] e <-> e = [].
Proof. intros uri name t e. split; [intros (w & W & ->); inversion W; reflexivity|intros ->; exists []; split; [constructor|reflexivity]]. Qed.

(** ** the items of an action *)
Lemma more_reads : forall before_ item, deep item -> reads (parameters_from source n before_ item) (more_parameters known source before_ item).
Proof.
  intros before_ item D. unfold parameters_from.
  set (e0 := fun t => if String.eqb (Payloads.remaining t) "" then [] else
          on t [Says 5 "ignoring additional content after 'parameters' keyword, expected a nested list of parameters, one parameter per list item"]).
  set (w := fun l : list parameter => match l with [] => on item [Says 3 "no parameters specified, expected a nested list of parameters, one parameter per list item"] | _ => [] end).
  refine (reads_ext _ _ (reads_item known item _ (fun t r l e => exists e', (exists l' e1, nodes_say (parameter_node known source "") r before_ l' e1 /\ l = l' /\ e' = (e1 ++ w l')%list) /\ e = (e0 t ++ e')%list) _) _).
  - intros t r O.
    refine (reads_fun _ _ (reads_before known (e0 t) _ _ (reads_map known (walk (parameters_step source "" n) r before_) _ (fun l => l) w
      (reads_walk known (fun _ => True) _ (parameter_node known source "") r (fun u l J _ => step_reads known source "" Small n u l (deep_below source Small (S n) item t r u D O J)) (fun _ _ _ _ _ _ _ _ => I) before_ I))) _).
    intros s. cbv zeta. assert (Es : (if String.eqb (Payloads.remaining t) "" then s
             else note (spot t) [Warns IgnoringCode "ignoring additional content after 'parameters' keyword, expected a nested list of parameters, one parameter per list item"] s) = perform (e0 t) s).
    { unfold e0. destruct (String.eqb _ ""); [reflexivity|]. exact (perform_warns t 5 [_] s). }
    rewrite Es. destruct (walk (parameters_step source "" n) r before_ (perform (e0 t) s)) as [[l s1]| | |]; try reflexivity. cbn [andthen]. f_equal. f_equal. unfold w. destruct l; [|reflexivity]. exact (perform_warns item 3 [_] s1).
  - assert (L : forall t, exists a, lines (the_text t) a (Payloads.remaining t)).
    { intros t. exists (fst (first_line (the_text t) "")). apply PayloadsText.lines_iff. unfold Payloads.remaining. assert (E : t_text t = the_text t) by now destruct t. rewrite E. now destruct (first_line (the_text t) ""). }
    assert (Lu : forall t a b, lines (the_text t) a b -> b = Payloads.remaining t).
    { intros t a b H. apply PayloadsText.lines_iff in H. unfold Payloads.remaining. assert (E : t_text t = the_text t) by now destruct t. now rewrite E, H. }
    intros l e. split.
    + intros (t & r & O & e' & (l' & e1 & N & <- & ->) & ->). destruct (L t) as [a La]. exact (more_by known source before_ item t r a (Payloads.remaining t) l e1 O La N).
    + intros H. destruct H as [t r a b l e1 O La N]. apply Lu in La as ->. exists t, r. split; [exact O|]. exists (e1 ++ w l)%list. split; [|reflexivity]. exists l, e1. auto.
Qed.
Lemma listed_or_not : forall x, (exists t, x = Listed ParametersSection t) \/ ~ a_list x.
Proof. intros [t|t|t|ty t|t|t|s]; try (right; intros (u & E); discriminate). destruct ty; first [left; now exists t|right; intros (u & E); discriminate]. Qed.
Lemma gets_reads : forall x l, Forall deep (part_nodes x) -> reads (action_gets source n x l) (action_part known source x l).
Proof.
  intros x l F. destruct (listed_or_not x) as [(t & ->)|N].
  - inversion F as [|t0 r0 D _]; subst. refine (reads_ext _ _ (more_reads l t D) _). intros l' e. split; [now apply (action_list known source _ l t)|].
    intros H. inversion H as [t' l1 e1 E M|K]; subst; [injection E as <-; exact M|elim K; now exists t].
  - refine (reads_fun _ _ (reads_ext _ _ (reads_val known l) _) _).
    + intros l' e. split; [intros [-> ->]; now apply action_skip|]. intros H. inversion H as [t' l1 e1 E M|K]; subst; [elim N; now exists t'|auto].
    + intros s. destruct x as [t|t|t|ty t|t|t|sec]; try reflexivity. destruct ty; try reflexivity. elim N. now exists t.
Qed.
Lemma parts_in : forall ps x, Forall deep (nodes_of ps) -> In x ps -> Forall deep (part_nodes x).
Proof. intros ps x F I. apply Forall_forall. intros t J. rewrite Forall_forall in F. apply F. apply in_flat_map. now exists x. Qed.
Lemma action_reads : forall ps, Forall deep (nodes_of ps) -> reads (action_given source n ps) (action_parameters known source ps).
Proof.
  intros ps F. unfold action_given.
  assert (Bad : (forall h r, ps <> Head h :: r) -> reads (fun _ => ByteBuffer.Wild) (action_parameters known source ps)).
  { intros N. apply reads_fail; [discriminate|]. intros l e (h & r & a & m & u & e1 & e2 & E & _). now apply (N h r). }
  destruct ps as [|[h|t|t|ty t|t|t|s] r]; try (apply Bad; intros; discriminate). destruct (action_signature h) as [[name method] uri] eqn:Sg.
  refine (reads_ext _ _ (reads_bind (fun l l' e => l' = l /\ ((uri = "" /\ e = []) \/ (uri <> "" /\ looked_up uri name h l e)))
    (reads_steps (action_gets source n) (action_part known source) r (fun x l I => gets_reads x l (parts_in _ x F (or_intror I))) []) _) _).
  - intros l e _. destruct (String.eqb_spec uri "") as [E|E].
    + refine (reads_ext _ _ (reads_val known l) _). intros l' e'. split; [intros [-> ->]; auto|intros (-> & [[_ ->]|[N _]]); [auto|contradiction]].
    + refine (reads_ext _ _ (look_reads uri name h l) _). intros l' e'. split; [intros [-> K]; auto|intros (-> & [[N _]|[_ K]]); [contradiction|auto]].
  - intros l e. split.
    + intros (l0 & e1 & e2 & R1 & (-> & K) & ->). exists h, r, name, method, uri, e1, e2. auto 7.
    + intros (h' & r' & name' & method' & uri' & e1 & e2 & E & Sg' & R1 & K & ->). injection E as <- <-. rewrite Sg in Sg'. injection Sg' as <- <- <-. exists l, e1, e2. auto.
Qed.

(** ** resources *)
Lemma nested_reads : forall uri name h r, Forall deep (nodes_of (Head h :: r)) -> reads (nested_given source n uri name (Head h :: r))
  (fun l e => exists e1 e2 own_name method own, action_parameters known source (Head h :: r) l e1 /\ action_signature h = (own_name, method, own) /\
    ((own = "" /\ looked_up uri name h l e2) \/ (own <> "" /\ e2 = [])) /\ e = (e1 ++ e2)%list).
Proof.
  intros uri name h r F. unfold nested_given. destruct (action_signature h) as [[own_name method] own] eqn:Sg.
  refine (reads_ext _ _ (reads_bind (fun l l' e => l' = l /\ ((own = "" /\ looked_up uri name h l e) \/ (own <> "" /\ e = []))) (action_reads _ F) _) _).
  - intros l e _. destruct (String.eqb_spec own "") as [E|E].
    + refine (reads_fun _ _ (reads_ext _ _ (look_reads uri name h l) _) _).
      * intros l' e'. split; [intros [-> K]; auto|intros (-> & [[_ K]|[N _]]); [auto|contradiction]].
      * intros s. destruct l; [|reflexivity]. unfold look_up. destruct (C81_eligible_total uri name []) as [rs Er]. rewrite Er. pose proof Er as Ee. apply C81_eligible in Ee as (w & W & ->). inversion W. cbn [map]. now rewrite note_nil.
    + refine (reads_fun _ _ (reads_ext _ _ (reads_val known l) _) _).
      * intros l' e'. split; [intros [-> ->]; auto|intros (-> & [[N _]|[_ ->]]); [contradiction|auto]].
      * intros s. now destruct l.
  - intros l e. split.
    + intros (l0 & e1 & e2 & R1 & (-> & K) & ->). exists e1, e2, own_name, method, own. auto.
    + intros (e1 & e2 & a & b & c & R1 & Sg' & K & ->). injection Sg' as <- <- <-. exists l, e1, e2. auto.
Qed.
Lemma resource_gets_reads : forall uri name x g, Forall deep (part_nodes x) -> reads (resource_gets source n uri name x g) (resource_part known source uri name x g).
Proof.
  intros uri name x g F. destruct (listed_or_not x) as [(t & ->)|N].
  - inversion F as [|t0 r0 D _]; subst. cbn [resource_gets].
    refine (reads_ext _ _ (reads_bind (fun l g' e => looked_up uri name t l e /\ g' = Given (g_parameters g ++ l)%list (g_actions g)) (parameters_read known source "" Small n t D) _) _).
    + intros l e _. destruct l as [|p l].
      * refine (reads_ext _ _ (reads_val known g) _). intros g' e'. rewrite looked_none, app_nil_r. destruct g. cbn. split; intros [A B]; auto.
      * refine (reads_ext _ _ (reads_bind (fun l g' e => g' = Given (g_parameters g ++ l)%list (g_actions g) /\ e = []) (look_reads uri name t (p :: l)) (fun l' _ _ => reads_val known _)) _).
        intros g' e'. split; [intros (l' & e1 & e2 & (-> & K) & (-> & ->) & ->); now rewrite app_nil_r|]. intros [K ->]. exists (p :: l), e', []. rewrite app_nil_r. auto.
    + intros g' e. split.
      * intros (l & e1 & e2 & P & (K & ->) & ->). now apply (resource_list known source uri name _ g t l).
      * intros H. inversion H as [t' l e1 e2 E P K|k h r ex a m own l e1 e2 E|K]; subst; [injection E as <-; exists l, e1, e2; auto|discriminate|elim K; now exists t].
  - destruct x as [t|t|t|ty t|t|t|[k ps ex]].
    7:{ cbn [resource_gets part_nodes section_nodes] in *. fold (nodes_of ps) in F.
      destruct ps as [|[h|t|t|ty t|t|t|s] r]; try (refine (reads_fail known ByteBuffer.Wild _ _ _); [discriminate|intros g0 e0 H; inversion H as [t0 l0 e1 e2 E P K|k0 h0 r0 ex0 a0 m0 own0 l0 e1 e2 E|K1 K2]; subst; [discriminate|discriminate|now elim (K2 _ eq_refl)]]).
      refine (reads_ext _ _ (reads_bind (fun l g' e => g' = Given (g_parameters g) (g_actions g ++ [l])%list /\ e = []) (nested_reads uri name h r F) (fun l _ _ => reads_val known _)) _).
      intros g' e. split.
      - intros (l & e1 & e2 & (e3 & e4 & a & m & own & P & Sg & K & ->) & (-> & ->) & ->). rewrite app_nil_r. now apply (resource_action known source uri name _ g k h r ex a m own).
      - intros H. inversion H as [t' l e1 e2 E P K|k' h' r' ex' a m own l e1 e2 E P Sg K|K1 K2]; subst; [discriminate| |now elim (K2 _ eq_refl)]. injection E as <- <- <- <-. exists l, (e1 ++ e2)%list, []. rewrite app_nil_r.
        split; [exists e1, e2, a, m, own; auto|auto]. }
    all: refine (reads_fun _ _ (reads_ext _ _ (reads_val known g) _) _);
      [intros g' e; split; [intros [-> ->]; apply resource_skip; [exact N|intros; discriminate]|intros H; inversion H as [t' l e1 e2 E P K|k' h' r' ex' a m own l e1 e2 E|K1 K2]; subst; [elim N; eexists; exact E|discriminate|auto]]|].
    all: intros s; try reflexivity. destruct ty; try reflexivity. elim N. now exists t.
Qed.
Lemma resource_reads : forall ps, Forall deep (nodes_of ps) -> reads (resource_given source n ps) (resource_parameters known source ps).
Proof.
  intros ps F. unfold resource_given.
  assert (Bad : (forall h r, ps <> Head h :: r) -> (forall k qs ex, ps <> [Sub (Sec k qs ex)]) -> reads (fun _ => ByteBuffer.Wild) (resource_parameters known source ps)).
  { intros N M. apply reads_fail; [discriminate|]. intros l e H. inversion H; subst; [now eapply N|now eapply M]. }
  destruct ps as [|[h|t|t|ty t|t|t|[k qs ex]] r]; try (apply Bad; intros; discriminate).
  - destruct (resource_header h) as [name uri] eqn:Hd.
    refine (reads_ext _ _ (reads_steps (resource_gets source n uri name) (resource_part known source uri name) r (fun x g I => resource_gets_reads uri name x g (parts_in _ x F (or_intror I))) (Given [] [])) _).
    intros g e. split; [now apply of_resource|]. intros H. inversion H as [h' r' a b g' e' Hd' St|]; subst. rewrite Hd in Hd'. now injection Hd' as <- <-.
  - destruct r as [|y r]; [|apply Bad; intros; discriminate]. assert (Fq : Forall deep (nodes_of qs)) by (cbn [flat_map part_nodes section_nodes] in F; now rewrite app_nil_r in F).
    refine (reads_ext _ _ (reads_bind (fun l g e => g = Given [] [l] /\ e = []) (action_reads qs Fq) (fun l _ _ => reads_val known _)) _).
    intros g e. split; [intros (l & e1 & e2 & A & (-> & ->) & ->); rewrite app_nil_r; now constructor|]. intros H. inversion H as [|k' qs' ex' l e' A]; subst. exists l, e, []. rewrite app_nil_r. auto.
Qed.
Lemma all_reads : forall ls, Forall (fun ps => Forall deep (nodes_of ps)) ls ->
  reads (each (fun qs gs s => andthen (resource_given source n qs s) (fun '(g, s) => Val ((gs ++ [g])%list, s))) ls []) (all_parameters known source ls).
Proof.
  intros ls F.
  refine (reads_ext _ _ (reads_steps (fun qs gs s => andthen (resource_given source n qs s) (fun '(g, s) => Val ((gs ++ [g])%list, s)))
    (fun qs gs gs' e => exists g, resource_parameters known source qs g e /\ gs' = (gs ++ [g])%list) ls _ []) _).
  - intros qs gs I. rewrite Forall_forall in F.
    refine (reads_ext _ _ (reads_bind (fun g gs' e => gs' = (gs ++ [g])%list /\ e = []) (resource_reads qs (F qs I)) (fun g _ _ => reads_val known _)) _).
    intros gs' e. split; [intros (g & e1 & e2 & A & (-> & ->) & ->); rewrite app_nil_r; eauto|intros (g & A & ->); exists g, e, []; rewrite app_nil_r; auto].
  - intros gs e. split.
    + intros H. assert (K : forall a b, in_steps (fun qs gs gs' e => exists g, resource_parameters known source qs g e /\ gs' = (gs ++ [g])%list) ls a b e -> exists new, b = (a ++ new)%list /\ all_parameters known source ls new e).
      { clear F H. revert e. induction ls as [|x r IH]; intros e a b H; inversion H as [a0|x0 r0 a0 c b0 e1 e2 (g & A & ->) R]; subst; [exists []; rewrite app_nil_r; split; [reflexivity|constructor]|].
        apply IH in R as (new & -> & N). exists (g :: new). rewrite <- app_assoc. split; [reflexivity|now constructor]. }
      apply K in H as (new & -> & N). exact N.
    + clear F. intros H. enough (K : forall a, in_steps (fun qs gs gs' e => exists g, resource_parameters known source qs g e /\ gs' = (gs ++ [g])%list) ls a (a ++ gs)%list e) by exact (K []).
      induction H as [|ps l g gs e1 e2 A H IH]; intros a; [rewrite app_nil_r; constructor|]. apply (steps_more _ _ _ _ (a ++ [g])%list); [eauto|]. specialize (IH (a ++ [g])%list). now rewrite <- app_assoc in IH.
Qed.
End Whole.

(** ** reading ends *)
Section Ends.
Context (source : string) (n : nat).
Notation deep := (fun t => depth t <= S (S n)).
Lemma ends_steps : forall {A B} (step : B -> A -> st -> outcome (A * st)) l, (forall x a s, In x l -> ends (step x a s)) -> forall a s, ends (each step l a s).
Proof.
  intros A B step. induction l as [|x r IH]; intros H a s; [discriminate|]. cbn [each]. apply ends_bind; [apply H; now left|]. intros [b s1] _. apply IH. intros y c s2 I. apply H. now right.
Qed.
Lemma ends_look : forall uri name t l s, ends (look_up uri name t l s).
Proof. intros uri name t l s. unfold look_up. destruct (C81_eligible_total uri name l) as [rs ->]. discriminate. Qed.
Lemma ends_from : forall before_ item s, depth item <= S (S n) -> ends (parameters_from source n before_ item s).
Proof.
  intros before_ item s D. unfold parameters_from. apply ends_bind; [apply ends_starting|]. intros [|t r] E; [discriminate|]. apply starting_iff in E. cbv zeta. apply ends_bind; [|intros [l s1] _; discriminate].
  apply ends_walk. intros u a s0 I. pose proof (depth_below item t r u E I) as L. unfold parameters_step. destruct (item_tells u) as (o & _ & ->). cbn [andthen].
  destruct o as [[]|]; cbn [section_of]; try discriminate; apply ends_bind; try (intros [p s2] _; destruct (add_parameter u p a s2); discriminate); [apply ends_old|apply ends_new; lia].
Qed.
Lemma ends_action : forall ps s, Forall deep (nodes_of ps) -> ends (action_given source n ps s).
Proof.
  intros ps s F. unfold action_given. destruct ps as [|[h|t|t|ty t|t|t|q] r]; try discriminate. destruct (action_signature h) as [[a b] c]. apply ends_bind.
  - apply ends_steps. intros x l s0 I. destruct x as [t|t|t|ty t|t|t|q]; try discriminate. destruct ty; try discriminate. apply ends_from. rewrite Forall_forall in F. apply F. apply in_flat_map. eexists. split; [right; exact I|now left].
  - intros [l s1] _. destruct (String.eqb c ""); [discriminate|apply ends_look].
Qed.
Lemma ends_resource : forall ps s, Forall deep (nodes_of ps) -> ends (resource_given source n ps s).
Proof.
  intros ps s F. unfold resource_given. destruct ps as [|[h|t|t|ty t|t|t|[k qs ex]] r]; try discriminate.
  - destruct (resource_header h) as [name uri]. apply ends_steps. intros x g s0 I.
    assert (P : Forall deep (part_nodes x)) by (apply Forall_forall; intros u J; rewrite Forall_forall in F; apply F; apply in_flat_map; exists x; split; [now right|exact J]).
    destruct x as [t|t|t|ty t|t|t|[k qs ex]]; try discriminate.
    + destruct ty; try discriminate. cbn [resource_gets]. apply ends_bind; [apply parameters_end; now inversion P|]. intros [[|p l] s1] _; [discriminate|]. apply ends_bind; [apply ends_look|]. intros [l' s2] _. discriminate.
    + cbn [resource_gets]. apply ends_bind; [|intros [l s1] _; discriminate]. cbn [part_nodes section_nodes] in P. fold (nodes_of qs) in P. unfold nested_given. destruct qs as [|[h'|t|t|ty t|t|t|q] r']; try discriminate.
      destruct (action_signature h') as [[a b] c]. apply ends_bind; [exact (ends_action (Head h' :: r') s0 P)|]. intros [[|p l] s1] _; [discriminate|]. destruct (String.eqb c ""); [apply ends_look|discriminate].
  - destruct r; [|discriminate]. cbn [flat_map part_nodes section_nodes] in F. rewrite app_nil_r in F. apply ends_bind; [now apply ends_action|]. intros [l s1] _. discriminate.
Qed.
End Ends.

(** ** nodes of resources are nodes of the document *)
Lemma group_nodes : forall (P : tree -> Prop) l, Forall P (nodes_of l) -> Forall (fun q => Forall P (nodes_of q)) (flat_map (fun y => match y with Sub (Sec Keywords.ResourceSection q _) => [q] | _ => [] end) l).
Proof.
  intros P. induction l as [|x l IH]; intros H; [constructor|]. cbn [flat_map] in *. apply Forall_app in H as [H1 H2]. apply Forall_app. split; [|now apply IH].
  destruct x as [t|t|t|ty t|t|t|[k ps ex]]; try constructor. destruct k; try constructor; [|constructor]. exact H1.
Qed.
Lemma resources_nodes : forall (P : tree -> Prop) l, Forall P (nodes_of l) -> Forall (fun q => Forall P (nodes_of q)) (flat_map resource_of l).
Proof.
  intros P. induction l as [|x l IH]; intros H; [constructor|]. cbn [flat_map] in *. apply Forall_app in H as [H1 H2]. apply Forall_app. split; [|now apply IH].
  destruct x as [t|t|t|ty t|t|t|[k ps ex]]; try constructor. destruct k; try constructor; [exact (group_nodes P _ H1)|exact H1|constructor].
Qed.
