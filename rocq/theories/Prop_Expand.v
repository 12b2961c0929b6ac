(** Properties C23, C24, C25, C46: the registry of named types and their expansion *)
From Verif Require Import Base Element ElementSpec ElementProofs MergeSpec Extend Registry Expand ExpandSpec
  RegistryProofs ExpandProofs ExpandClosed ExpandShape.

(** C25. A registry starts with the seven built-in types; over every history of add, remove, clear
    and find its answers are those of a finite map from names to elements. *)
Theorem C25_registry_is_a_map : forall ops, Forall op_readable ops ->
  exists r, rruns base_types ops = Ok (fst (aruns builtin ops), r) /\
            forall name, rfind r name = snd (aruns builtin ops) name.
Proof.
  intros ops H. destruct (rruns_refines ops base_types builtin base_represents H) as (r & E & _ & R). eauto.
Qed.
Print Assumptions C25_registry_is_a_map.

(** adding an element whose id holds no string value fails an assertion *)
Theorem C25_empty_id_undefined : exists e, rstep base_types (RAdd e) = Undefined.
Proof. exists (set_meta (make_empty KObject) [("id"%string, make_empty KString)]). reflexivity. Qed.
Print Assumptions C25_empty_id_undefined.

(** C24. The inheritance tree of a type: from the most remote ancestor down to the type itself *)
Theorem C24_chain : forall r name f, length r < f ->
  exists t, inheritance_tree f r name = Some t /\
  (forall l, ancestry r name l -> l <> [] ->
     exists links, t = make_element (DExtend links) /\
       Forall2 (fun ne x => is_link (fst ne) (snd ne) x) (rev l) links) /\
  (ancestry r name [] \/ (forall l, ~ ancestry r name l) -> t = make_empty KExtend).
Proof.
  intros r name f L. destruct (tree_spec r name f L) as (t & E & A & B & C). exists t. repeat apply conj; auto.
  - intros l Al Nl. exists (rev (map link_of l)). split; [now apply A|]. rewrite <- map_rev. clear.
    induction (rev l) as [|ne l' IH]; cbn; constructor; [apply tagged_link|exact IH].
  - intros [H|H]; auto.
Qed.
Print Assumptions C24_chain.

(** ... and an element of a named type expands to that chain, each link tagged with the name of its
    type, followed by what the element itself declares. *)
Theorem C24_expanded : forall r f members e l x,
  is_reserved (ename e) = false -> keeps_type e -> ~ In (ename e) members -> ancestry r (ename e) l ->
  expand f r members e = Some (Ok x) ->
  exists y links own, x = Some y /\ ename y = "extend"%string /\ ehas y = true /\ edata y = DExtend (links ++ [own]) /\
    Forall2 (fun ne z => ifind (emeta z) "ref" = Some (make_element (DString (fst ne))) /\ ekind z = ekind (snd ne)) (rev l) links /\
    ekind own = ekind e /\ eattrs own = eattrs e /\ ehas own = ehas e /\ emeta own = ierase (emeta e) "id".
Proof. exact named_shape. Qed.
Print Assumptions C24_expanded.

(** C23. The search for the root ancestor of a name ends iff its ancestors do *)
Theorem C23_root_ancestor : forall r n, (exists f, FindRootAncestor f r n <> None) <-> rooted r n.
Proof.
  intros r n. split.
  - intros [f H]. unfold FindRootAncestor in H. destruct (rfind r n) as [p|] eqn:E; [|now apply rooted_unknown].
    destruct (find_root_from f r n p) as [x|] eqn:Ef; [|exfalso; apply H; reflexivity]. now apply (root_rooted f r n p x).
  - intros H. destruct (rooted_root r n H) as (f & o & Hf). exists f. rewrite Hf; [discriminate|lia].
Qed.
Print Assumptions C23_root_ancestor.

(** expansion ends for every element and every registry whose types mention, inside their
    definitions, only types with a root ancestor; recursive and mutually recursive members and
    cyclic inheritance are allowed *)
Theorem C23_terminates : forall r, members_rooted r ->
  forall e, exists x f0, forall f, f0 <= f -> expand f r [] e = Some x.
Proof. intros r H e. apply (expand_conv r H (unseen r [])); [lia|now left]. Qed.
Print Assumptions C23_terminates.

Theorem C23_acyclic_terminates : forall r, (forall n, rooted r n) ->
  forall e, exists x f0, forall f, f0 <= f -> expand f r [] e = Some x.
Proof.
  intros r H. apply C23_terminates. intros n p E. split; [|intros; apply H]. intros c _ x _. split; intros; apply H.
Qed.
Print Assumptions C23_acyclic_terminates.

(** the only error it reports is a circular mixin *)
Theorem C23_only_mixin_errors : forall r f members e w, expand f r members e = Some (Throws w) ->
  exists s, w = ("named type '" ++ s ++ "' is circularly referencing itself by mixin")%string.
Proof. intros r f members e w H. now apply (expand_only r f members e). Qed.
Print Assumptions C23_only_mixin_errors.

(** no assertion fails and no null pointer is read *)
Theorem C23_defined : forall r, well_shaped_registry r -> forall f e, well_shaped e -> expand f r [] e <> Some Undefined.
Proof.
  intros r W f e We H. pose proof (expand_good r W f [] e (fun k F => match F with end) We) as P. now rewrite H in P.
Qed.
Print Assumptions C23_defined.

(** C46. No named type is left in an expanded element *)
Theorem C46_closed : forall r, well_shaped_registry r -> regular_registry r ->
  forall f e x, well_shaped e -> regular r e -> expand f r [] e = Some (Ok x) ->
  closed r (match x with Some y => y | None => e end).
Proof.
  intros r W R f e x We Re H. pose proof (expand_good r W f [] e (fun k F => match F with end) We) as P. rewrite H in P.
  now apply P.
Qed.
Print Assumptions C46_closed.

(** ** witnesses *)
Definition typed (name : string) (e : element) : element := set_name e name.
Definition with_id (name : string) (e : element) : element :=
  set_meta e [("id"%string, make_element (DString name))].
Definition member (k : string) (v : element) : element := make_member k (Some v).

(** the registry obtained by adding elements one by one *)
Fixpoint add_all (r : registry) (l : list element) : option registry :=
  match l with
  | [] => Some r
  | e :: l' => match radd r (Some e) with Ok (true, r') => add_all r' l' | _ => None end
  end.

(** # A (B) / + x (A)     # B (A) *)
Definition loop_types : list element :=
  [with_id "A" (typed "B" (make_element (DObject [member "x" (typed "A" (make_empty KObject))])));
   with_id "B" (typed "A" (make_empty KObject))].
Definition loop_registry : registry := match add_all base_types loop_types with Some r => r | None => [] end.
Lemma loop_registry_added : add_all base_types loop_types = Some loop_registry.
Proof. reflexivity. Qed.

Lemma loop_root : forall f, (forall p, rfind loop_registry "A" = Some p -> find_root_from f loop_registry "A" p = None) /\
                            (forall p, rfind loop_registry "B" = Some p -> find_root_from f loop_registry "B" p = None).
Proof.
  induction f as [|f [IHa IHb]]; [split; reflexivity|].
  split; intros p E; cbn in E; injection E as <-; cbn [find_root_from ename with_id typed set_name set_meta make_element make_empty];
    [apply IHb|apply IHa]; reflexivity.
Qed.

Definition loop_member : element := member "x" (typed "A" (make_empty KObject)).
Definition loop_a : element := with_id "A" (typed "B" (make_element (DObject [loop_member]))).
Lemma loop_inner : forall f, expand f loop_registry ["A"%string] (typed "A" (make_empty KObject)) = None.
Proof.
  intros [|f]; [reflexivity|]. lazy -[FindRootAncestor loop_registry].
  assert (E : FindRootAncestor (S f) loop_registry "A" = None).
  { unfold FindRootAncestor. destruct (rfind loop_registry "A") as [p|] eqn:E; [|discriminate]. now rewrite (proj1 (loop_root _) p E). }
  match goal with |- context[FindRootAncestor ?a ?b ?c] => replace (FindRootAncestor a b c) with (@None (option element)) by (symmetry; exact E) end.
  reflexivity.
Qed.
Lemma loop_in_member : forall f, expand f loop_registry ["A"%string] loop_member = None.
Proof.
  intros [|[|f]]; [reflexivity|reflexivity|]. remember (S f) as g eqn:Eg. cbn [expand]. lazy -[expand loop_registry].
  match goal with |- context[expand g ?r ?m ?e] =>
    replace (expand g r m e) with (Some (Ok (@None element))) by (rewrite Eg; reflexivity) end.
  match goal with |- context[expand g ?r ?m ?e] =>
    replace (expand g r m e) with (@None (res (option element))) by (symmetry; exact (loop_inner g)) end.
  reflexivity.
Qed.
Lemma loop_in_a : forall f, expand f loop_registry ["A"%string] loop_a = None.
Proof.
  intros [|f]; [reflexivity|]. cbn [expand]. unfold expand_round.
  change (expandable loop_a) with (Some true). change (edata loop_a) with (@DObject element [loop_member]). cbv iota.
  change (negb (is_reserved (ename loop_a))) with true. cbv iota. unfold expand_named.
  change (existsb (String.eqb (ename loop_a)) ["A"%string]) with false. cbv iota.
  destruct f as [|[|f]]; [reflexivity|reflexivity|].
  change (inheritance_tree (S (S (S f))) loop_registry (ename loop_a)) with (Some (make_empty KExtend)). cbv iota.
  change (expand_members (expand (S (S f)) loop_registry) (["A"%string] ++ [ename loop_a]) (make_empty KExtend)) with (ret (make_empty KExtend)).
  unfold expand_members. change (ehas loop_a) with true. change (edata loop_a) with (@DObject element [loop_member]).
  cbn [ret bind expand_value mapR]. unfold expand_or_clone. now rewrite (loop_in_member (S (S f))).
Qed.

(** including a type with a cyclic ancestry that has a member of its own type never ends *)
Theorem C23_diverges_refuted : exists types r e, add_all base_types types = Some r /\ well_shaped e /\
  forall f, expand f r [] e = None.
Proof.
  exists loop_types, loop_registry, (make_element (DRef "A")). repeat apply conj.
  - reflexivity.
  - intros x W. inversion W as [|? c ? Hc]; subst; [reflexivity|destruct Hc].
  - intros [|f]; [reflexivity|]. cbn [expand]. unfold expand_round. change (edata (make_element (DRef "A"))) with (@DRef element "A"). cbv iota.
    unfold expand_reference. rewrite clone_cAll. change (eget (make_element (DRef "A"))) with (Some (@DRef element "A")). cbv iota.
    change (String.eqb "A" "") with false. change (existsb (String.eqb "A") []) with false. cbv iota.
    change (rfind loop_registry "A") with (Some loop_a). cbv iota. unfold expand_or_clone.
    change ([] ++ ["A"%string])%list with ["A"%string]. now rewrite loop_in_a.
Qed.
Print Assumptions C23_diverges_refuted.

(** # Color (enum) / + red   # Name (string)   and   + x (Color) / + (Name): the enumerations of an
    element deriving from a named enum keep their named types *)
Definition color_registry : registry :=
  match add_all base_types
    [with_id "Color" (make_empty KEnum); with_id "Name" (make_empty KString)] with Some r => r | None => [] end.
Definition color_elem : element :=
  set_attrs (typed "Color" (make_empty KEnum))
    [("enumerations"%string, make_element (DArray [typed "Name" (make_empty KString)]))].
Lemma closed_visible : forall r e, closed r e -> forall c, In c (visible e) -> closed r c.
Proof. intros r e [e' _ _ H]. exact H. Qed.
Lemma closed_name : forall r e, closed r e -> is_reserved (ename e) = true.
Proof. intros r e [e' H _ _]. exact H. Qed.
Theorem C46_named_enum_refuted : exists r e y, well_shaped_registry r /\ well_shaped e /\
  expand 5 r [] e = Some (Ok (Some y)) /\ ~ closed r y.
Proof.
  exists color_registry, color_elem. eexists. repeat apply conj.
  - intros n p E x W. assert (H : In p (map snd color_registry)).
    { clear -E. induction color_registry as [|(k & v) l IH]; cbn in E; [discriminate|]. destruct (String.eqb k n); [injection E as <-; now left|right; auto]. }
    cbn in H. repeat (destruct H as [<-|H]); try destruct H; (inversion W as [|? c ? Hc]; subst; [|destruct Hc]); cbn; auto; split; try discriminate; intros y [].
  - intros x W. inversion W as [|? c ? Hc Wc]; subst.
    + cbn. split; [discriminate|]. intros y [Hy|[]]. injection Hy as <-. auto.
    + cbn in Hc. destruct Hc as [<-|[]]. inversion Wc as [|? c ? Hc Wc']; subst; [exact I|].
      cbn in Hc. destruct Hc as [<-|[]]. inversion Wc' as [|? c ? Hc Wc'']; subst; [exact I|destruct Hc].
  - vm_compute. reflexivity.
  - intros C. pose proof (closed_visible _ _ C _ (or_intror (or_introl eq_refl))) as C1.
    pose proof (closed_visible _ _ C1 _ (or_introl eq_refl)) as C2.
    pose proof (closed_visible _ _ C2 _ (or_introl eq_refl)) as C3.
    apply closed_name in C3. discriminate.
Qed.
Print Assumptions C46_named_enum_refuted.

(** ** non-vacuity *)
(** # Person / + name (string) / + friend (Person)    # Student (Person) / Include Extra    # Extra / + x *)
Definition people_registry : registry :=
  match add_all base_types
    [with_id "Person" (make_element (DObject [member "name" (make_empty KString); member "friend" (typed "Person" (make_empty KObject))]));
     with_id "Student" (typed "Person" (make_element (DObject [make_element (DRef "Extra")])));
     with_id "Extra" (make_element (DObject [member "x" (make_empty KNumber)]))] with Some r => r | None => [] end.
Lemma people_find : forall n p, rfind people_registry n = Some p -> In (n, p) people_registry.
Proof.
  intros n p. unfold rfind. induction people_registry as [|(k & v) l IH]; cbn; [discriminate|].
  destruct (String.eqb_spec k n) as [->|N]; [intros E; injection E as <-; now left|right; auto].
Qed.

(** executable versions of the hypotheses *)
Lemma within_ind_closed : forall (P : element -> Prop) e, P e -> (forall x c, P x -> In c (parts x) -> P c) -> forall x, within x e -> P x.
Proof. intros P e He Hs x W. revert He. induction W as [e|x c e Hc W IH]; intros He; [exact He|]. apply IH. now apply Hs with e. Qed.

Fixpoint all_within (n : nat) (p : element -> bool) (e : element) : bool :=
  match n with O => false | S m => p e && forallb (all_within m p) (parts e) end.
Lemma all_within_sound : forall n p e, all_within n p e = true -> forall x, within x e -> p x = true.
Proof.
  induction n as [|n IH]; intros p e H x W; [discriminate|]. cbn in H. apply andb_prop in H as [H1 H2].
  inversion W as [|? c ? Hc Wc]; subst; [exact H1|]. rewrite forallb_forall in H2. now apply (IH p c (H2 c Hc)).
Qed.
Definition simpleb (x : element) : bool :=
  match edata x with
  | DMember _ _ => ehas x && is_reserved (ename x)
  | DRef s => ehas x && is_reserved (ename x) && String.eqb s "Extra"
  | DString _ | DNumber _ | DBoolean _ | DArray _ | DObject _ => true
  | _ => false
  end && match eattrs x with [] => true | _ => false end.
Lemma simple_shape : forall x, simpleb x = true -> shape_ok x /\ regular_head people_registry x.
Proof.
  intros [n m a h d] H. unfold simpleb, shape_ok, regular_head in *. cbn [edata ehas ename eattrs] in *.
  apply andb_prop in H as [H Ha]. destruct a; [|discriminate].
  destruct d; try discriminate; repeat apply conj; try exact I; try exact (NoDup_nil _); try (apply andb_prop in H; tauto).
  - apply andb_prop in H as [H _]. apply andb_prop in H. tauto.
  - apply andb_prop in H as [H _]. apply andb_prop in H. tauto.
  - apply andb_prop in H as [_ H]. apply String.eqb_eq in H. subst s. intros p E. cbn in E. injection E as <-. discriminate.
Qed.

Example C23_C46_nonvacuous :
  well_shaped_registry people_registry /\ regular_registry people_registry /\ members_rooted people_registry /\
  (exists y, expand 9 people_registry [] (typed "Student" (make_empty KObject)) = Some (Ok (Some y)) /\
     length (entries y) = 3) /\
  (exists l, ancestry people_registry "Student" l /\ map fst l = ["Student"; "Person"]%string).
Proof.
  assert (B : forallb (fun kv => all_within 9 simpleb (snd kv) || negb (ehas (snd kv))) people_registry = true) by reflexivity.
  assert (Leaf : forall p, ehas p = false -> eattrs p = [] -> parts p = []).
  { intros p H1 H2. unfold parts, entries. rewrite H1, H2. now destruct (edata p). }
  assert (Hd : forall n p, rfind people_registry n = Some p -> (all_within 9 simpleb p = true) \/
     In (n, p) base_types).
  { intros n p E. apply people_find in E. cbn in E. repeat (destruct E as [E|E]; [injection E as <- <-; first [left; reflexivity|right; cbn; tauto]|]). destruct E. }
  assert (Hb : forall n p, In (n, p) base_types -> parts p = [] /\ shape_ok p /\ NoDup (map fst (eattrs p)) /\ (ekind p <> KEnum -> regular_head people_registry p) /\ forall s, edata p <> DRef s).
  { intros n p H. cbn in H. repeat (destruct H as [H|H]; [injection H as <- <-; repeat apply conj; try exact (NoDup_nil _); try reflexivity; try discriminate; cbn; intros; try tauto; try contradiction; try (split; [exact (NoDup_nil _)|exact I])|]); try contradiction.
    all: try congruence. all: try (split; [exact (NoDup_nil _)|reflexivity]). }
  assert (Rt : forall n, rooted people_registry n).
  { intros n. destruct (rfind people_registry n) as [p|] eqn:E; [|now apply rooted_unknown].
    pose proof (people_find _ _ E) as I. cbn in I.
    repeat (destruct I as [I|I]; [injection I as <- <-; first [now apply rooted_reserved with (1 := E)|eapply rooted_step; [exact E|]; eapply rooted_reserved; reflexivity]|]).
    destruct I. }
  repeat apply conj.
  - intros n p E x W. destruct (Hd n p E) as [H|H]; [now apply simple_shape, (all_within_sound 9 simpleb p H x)|].
    destruct (Hb n p H) as (P & S & _). inversion W as [|? c ? Hc]; subst; [exact S|]. rewrite P in Hc. destruct Hc.
  - intros n p E. destruct (Hd n p E) as [H|H].
    + repeat apply conj.
      * intros c Hc x W. apply simple_shape, (all_within_sound 9 simpleb p H x). now apply within_step with c.
      * pose proof (proj2 (simple_shape p (all_within_sound 9 simpleb p H p (within_refl p)))) as R. apply R.
      * intros _. apply (proj2 (simple_shape p (all_within_sound 9 simpleb p H p (within_refl p)))).
    + destruct (Hb n p H) as (P & _ & N & R & _). repeat apply conj; auto. rewrite P. intros c [].
  - intros n p E. split; [|intros; apply Rt]. intros c _ x _. split; intros; apply Rt.
  - eexists. split; [vm_compute; reflexivity|reflexivity].
  - eexists. split; [eapply anc_step; [reflexivity|reflexivity|]; eapply anc_step; [reflexivity|reflexivity|]; now apply anc_reserved|reflexivity].
Qed.

Example C25_nonvacuous : exists ops, Forall op_readable ops /\
  fst (aruns builtin ops) = [OBool true; OBool false; OThrows; OThrows; OBool true; OFound None].
Proof.
  exists [RAdd (with_id "A" (make_empty KObject)); RAdd (with_id "A" (make_empty KArray)); RAdd (with_id "string" (make_empty KArray));
          RAdd (make_empty KArray); RRemove "A"; RFind "A"].
  split; [repeat constructor|reflexivity].
Qed.
