(** Lemmas for C87 *)
From Verif Require Import Base StringUtility StringSpec StringProofs ByteBuffer ByteSpec Markdown MarkdownSpec TypeTables SourceMap Mson TypeDefs TypeDefsSpec TypeDefsProofs MembersTree MembersSpec MembersRead MembersLeaves MembersParts MembersWhole MembersEnds
  Given GivenSpec GivenWhole Owned OwnedSpec.
From Verif Require Import Keywords.
From Verif Require Sections SectionsSpec Transactions Payloads PayloadsSpec.
Import Keywords(AttributesSection).
Import Sections(part, Head, Text, Meta, Listed, Dangling, Ignored, Sub, Sec).
Import SectionsSpec(part_nodes, section_nodes).
Import Transactions(resource_header, resource_of).
Local Open Scope string_scope.

Section Whole.
Context (known : list (string * base_type)) (source : string) (Small : (slen source < 2 ^ 64)%N) (n : nat) (exists_ : tree -> string -> bool).
Notation reads := (reads known).
Notation deep := (deep source (S n)).
Notation taken := (fun t name => exists_ t name = true).

Definition an_item_of (x : part) : Prop := exists t, x = Listed AttributesSection t.
Lemma item_or_not : forall x, an_item_of x \/ ~ an_item_of x.
Proof. intros [t|t|t|ty t|t|t|s]; try (right; intros (u & E); discriminate). destruct ty; first [left; now exists t|right; intros (u & E); discriminate]. Qed.
Lemma items_take : forall t r, items (Listed AttributesSection t :: r) = t :: items r.
Proof. reflexivity. Qed.
Lemma items_skip : forall x r, ~ an_item_of x -> items (x :: r) = items r.
Proof. intros [t|t|t|ty t|t|t|s] r N; try reflexivity. destruct ty; try reflexivity. elim N. now exists t. Qed.

(** ** actions *)
Inductive action_part (x : part) (o : option structure) : option structure -> located -> Prop :=
| take_item : forall t a e, x = Listed AttributesSection t -> o = None -> attributes_say known source "" t a e -> action_part x o (Some a) e
| take_skip : ~ an_item_of x -> action_part x o o [].
Lemma takes_reads : forall x o, Forall deep (part_nodes x) -> reads (action_takes source n x o) (action_part x o).
Proof.
  intros x o F. destruct (item_or_not x) as [(t & ->)|N].
  - inversion F as [|t0 r0 D _]; subst. cbn [action_takes]. destruct o as [y|]; cbn [once].
    + refine (reads_fail known ByteBuffer.Wild _ _ _); [discriminate|]. intros a e H. inversion H as [t' a' e' E Z|K]; subst; [discriminate|elim K; now exists t].
    + refine (reads_ext _ _ (reads_bind (fun x a e => a = Some x /\ e = []) (attributes_read known source "" Small n t D) (fun x _ _ => reads_val known (Some x))) _).
      intros a e. split; [intros (x & e1 & e2 & A & (-> & ->) & ->); rewrite app_nil_r; now apply (take_item _ _ t)|].
      intros H. inversion H as [t' a' e' E Z A|K]; subst; [injection E as <-; exists a', e, []; rewrite app_nil_r; auto|elim K; now exists t].
  - refine (reads_fun _ _ (reads_ext _ _ (reads_val known o) _) _).
    + intros a e. split; [intros [-> ->]; now apply take_skip|]. intros H. inversion H as [t' a' e' E Z A|K]; subst; [elim N; now exists t'|auto].
    + intros s. destruct x as [t|t|t|ty t|t|t|q]; try reflexivity. destruct ty; try reflexivity. elim N. now exists t.
Qed.
Lemma later_none : forall r x o e, in_steps action_part r (Some x) o e <-> items r = [] /\ o = Some x /\ e = [].
Proof.
  induction r as [|y r IH]; intros x o e.
  - split; [intros H; inversion H; auto|intros (_ & -> & ->); constructor].
  - split.
    + intros H. inversion H as [|y' r' a b c e1 e2 S1 R]; subst. inversion S1 as [t a e0 E Z|K]; subst; [discriminate|]. apply IH in R as (I & -> & ->). rewrite (items_skip y r K). auto.
    + intros (I & -> & ->). destruct (item_or_not y) as [(t & ->)|N]; [discriminate|]. rewrite (items_skip y r N) in I. apply (steps_more _ _ _ _ (Some x) _ [] []); [now apply take_skip|]. apply IH. auto.
Qed.
Lemma action_iff : forall r o e, in_steps action_part r None o e <-> action_attributes known source r o e.
Proof.
  induction r as [|y r IH]; intros o e.
  - split; [intros H; inversion H; now constructor|]. intros H. inversion H as [I|t x e0 I]; [constructor|discriminate].
  - split.
    + intros H. inversion H as [|y' r' a b c e1 e2 S1 R]; subst. inversion S1 as [t a e0 E Z A|K]; subst.
      * apply later_none in R as (I & -> & ->). rewrite app_nil_r. apply (action_some known source _ t); [rewrite (items_take t r); now rewrite I|exact A].
      * apply IH in R. cbn [app]. inversion R as [I|t x e0 I A]; subst; [apply action_none; now rewrite items_skip|apply (action_some known source _ t); [now rewrite items_skip|exact A]].
    + intros H. destruct (item_or_not y) as [(t & ->)|N].
      * inversion H as [I|t' x e0 I A]; subst; [discriminate|]. rewrite (items_take t r) in I. injection I as <- I. rewrite <- (app_nil_r e). apply (steps_more _ _ _ _ (Some x)); [now apply (take_item _ _ t)|]. apply later_none. auto.
      * apply (steps_more _ _ _ _ None _ [] e); [now apply take_skip|]. apply IH. inversion H as [I|t' x e0 I A]; subst; rewrite (items_skip y r N) in I; [now apply action_none|now apply (action_some known source _ t')].
Qed.
Lemma parts_deep : forall ps x, Forall deep (nodes_of ps) -> In x ps -> Forall deep (part_nodes x).
Proof. intros ps x F I. apply Forall_forall. intros t J. rewrite Forall_forall in F. apply F. apply in_flat_map. now exists x. Qed.
Lemma owns_reads : forall h r, Forall deep (nodes_of (Head h :: r)) -> reads (action_owns source n (Head h :: r)) (action_attributes known source r).
Proof.
  intros h r F. cbn [action_owns].
  refine (reads_ext _ _ (reads_steps known (action_takes source n) action_part r (fun x o I => takes_reads x o (parts_deep _ x F (or_intror I))) None) _). apply action_iff.
Qed.

(** ** resources *)
Lemma named_reads : forall name h t, deep t -> reads (fun s => andthen (parse_attributes source name n t s) (fun '(x, s) =>
       if (negb (String.eqb name "") && exists_ t name)%bool
       then Val (None, note (spot t) [Warns DuplicateCode ("named type with name '" +++ name +++ "' already exists")] s)
       else Val (Some (name_after name h x), s))) (own_attributes known source taken name h t).
Proof.
  intros name h t D.
  refine (reads_ext _ _ (reads_bind (fun x a e => (~ (name <> "" /\ exists_ t name = true) /\ e = [] /\ exists y, a = Some y /\ called name h x y) \/
    (name <> "" /\ exists_ t name = true /\ a = None /\ e = on t [Says 2 ("named type with name '" +++ name +++ "' already exists")])) (attributes_read known source name Small n t D) _) _).
  - intros x e _.
    assert (Q : exists y, called name h x y /\ y = name_after name h x /\ forall z, called name h x z -> z = y).
    { unfold name_after. destruct (String.eqb_spec name "") as [E|E]; eexists; (split; [first [now apply called_not|now apply called_so]|split; [reflexivity|]]); intros z C; inversion C; subst; congruence. }
    destruct Q as (y & Cy & <- & U). destruct (String.eqb_spec name "") as [E|E]; [|destruct (exists_ t name) eqn:X]; cbn [negb andb].
    + refine (reads_ext _ _ (reads_val known (Some y)) _). intros a e'. split.
      * intros [-> ->]. left. split; [now intros [K _]|]. split; [reflexivity|]. now exists y.
      * intros [(_ & -> & z & -> & C)|(K & _)]; [now rewrite (U z C)|contradiction].
    + refine (reads_fun _ _ (reads_ext _ _ (reads_ret known None (on t [Says 2 ("named type with name '" +++ name +++ "' already exists")])) _) _).
      * intros a e'. split; [intros [-> ->]; right; auto|]. intros [(K & _)|(_ & _ & -> & ->)]; [now elim K|auto].
      * intros s. reflexivity.
    + refine (reads_ext _ _ (reads_val known (Some y)) _). intros a e'. split.
      * intros [-> ->]. left. split; [now intros [_ K]|]. split; [reflexivity|]. now exists y.
      * intros [(_ & -> & z & -> & C)|(_ & K & _)]; [now rewrite (U z C)|congruence].
  - intros a e. split.
    + intros (x & e1 & e2 & A & [(K & -> & y & -> & C)|(K & X & -> & ->)] & ->); [rewrite app_nil_r; now apply (own_some known source taken name h t x)|now apply (own_none known source taken name h t x)].
    + intros H. inversion H as [x y e0 A K C|x e0 A K X]; subst.
      * exists x, e, []. rewrite app_nil_r. split; [exact A|]. split; [|reflexivity]. left. split; [exact K|]. split; [reflexivity|]. now exists y.
      * exists x, e0, (on t [Says 2 ("named type with name '" +++ name +++ "' already exists")]). split; [exact A|]. split; [|reflexivity]. right. auto.
Qed.
Lemma part_reads : forall name h x o, Forall deep (part_nodes x) -> reads (resource_takes source n exists_ name h x o) (resource_part known source taken name h x o).
Proof.
  intros name h x o F. destruct (item_or_not x) as [(t & ->)|N].
  - inversion F as [|t0 r0 D _]; subst. cbn [resource_takes]. destruct o as [[y|] l]; cbn [o_attributes o_actions once andthen].
    + refine (reads_fail known ByteBuffer.Wild _ _ _); [discriminate|]. intros a e H. inversion H as [t' a' e' E Z|k h' q ex a' e' E|K]; subst; [discriminate|discriminate|now elim (K t)].
    + refine (reads_ext _ _ (reads_bind (fun a o' e => o' = Owned a l /\ e = []) (named_reads name h t D) (fun a _ _ => reads_val known (Owned a l))) _).
      intros o' e. split.
      * intros (a & e1 & e2 & A & (-> & ->) & ->). rewrite app_nil_r. now apply (part_item known source taken name h _ (Owned None l) t).
      * intros H. inversion H as [t' a e' E Z A|k h' q ex a' e' E|K]; subst; [injection E as <-; exists a, e, []; rewrite app_nil_r; auto|discriminate|now elim (K t)].
  - destruct x as [t|t|t|ty t|t|t|[k ps ex]].
    7:{ cbn [resource_takes part_nodes section_nodes] in *. fold (nodes_of ps) in F.
      destruct ps as [|[h'|t|t|ty t|t|t|s] r]; try (refine (reads_fail known ByteBuffer.Wild _ _ _); [discriminate|intros a e H; inversion H as [t' a' e' E Z|k0 h0 q0 ex0 a' e' E|K K2]; subst; [discriminate|discriminate|now elim (K2 _ eq_refl)]]).
      refine (reads_ext _ _ (reads_bind (fun a o' e => o' = Owned (o_attributes o) (o_actions o ++ [a])%list /\ e = []) (owns_reads h' r F) (fun a _ _ => reads_val known _)) _).
      intros o' e. split.
      - intros (a & e1 & e2 & A & (-> & ->) & ->). rewrite app_nil_r. now apply (part_action known source taken name h _ o k h' r ex).
      - intros H. inversion H as [t' a' e' E Z|k0 h0 q0 ex0 a' e' E A|K K2]; subst; [discriminate| |now elim (K2 _ eq_refl)]. injection E as <- <- <- <-. exists a', e, []. rewrite app_nil_r. auto. }
    all: refine (reads_fun _ _ (reads_ext _ _ (reads_val known o) _) _);
      [intros o' e; split; [intros [-> ->]; apply part_skip; [intros u E; apply N; now exists u|intros; discriminate]|intros H; inversion H as [t' a' e' E Z|k0 h0 q0 ex0 a' e' E|K K2]; subst; [elim N; eexists; exact E|discriminate|auto]]|].
    all: intros s; try reflexivity. destruct ty; try reflexivity. elim N. now exists t.
Qed.
Lemma resource_reads : forall ps, Forall deep (nodes_of ps) -> reads (resource_owns source n exists_ ps) (resource_attributes known source taken ps).
Proof.
  intros ps F. unfold resource_owns.
  assert (Bad : (forall h r, ps <> Head h :: r) -> (forall k h qs ex, ps <> [Sub (Sec k (Head h :: qs) ex)]) -> reads (fun _ => ByteBuffer.Wild) (resource_attributes known source taken ps)).
  { intros N M. apply reads_fail; [discriminate|]. intros l e H. inversion H; subst; [now eapply N|now eapply M]. }
  destruct ps as [|[h|t|t|ty t|t|t|[k qs ex]] r]; try (apply Bad; intros; discriminate).
  - refine (reads_ext _ _ (reads_steps known (resource_takes source n exists_ (fst (resource_header h)) h) (resource_part known source taken (fst (resource_header h)) h) r
      (fun x o I => part_reads _ h x o (parts_deep _ x F (or_intror I))) (Owned None [])) _).
    intros o e. split; [now apply of_resource|]. intros H. now inversion H.
  - destruct r as [|y r]; [|apply Bad; intros; discriminate]. assert (Fq : Forall deep (nodes_of qs)) by (cbn [flat_map part_nodes section_nodes] in F; now rewrite app_nil_r in F).
    destruct qs as [|[h|t|t|ty t|t|t|s] r]; try (apply Bad; intros; discriminate).
    refine (reads_ext _ _ (reads_bind (fun a o e => o = Owned None [a] /\ e = []) (owns_reads h r Fq) (fun a _ _ => reads_val known _)) _).
    intros o e. split; [intros (a & e1 & e2 & A & (-> & ->) & ->); rewrite app_nil_r; now constructor|]. intros H. inversion H as [|k' h' qs' ex' a e' A]; subst. exists a, e, []. rewrite app_nil_r. auto.
Qed.
Lemma all_reads : forall ls, Forall (fun ps => Forall deep (nodes_of ps)) ls ->
  reads (each (fun qs os s => andthen (resource_owns source n exists_ qs s) (fun '(o, s) => Val ((os ++ [o])%list, s))) ls []) (all_attributes known source taken ls).
Proof.
  intros ls F.
  refine (reads_ext _ _ (reads_steps known (fun qs os s => andthen (resource_owns source n exists_ qs s) (fun '(o, s) => Val ((os ++ [o])%list, s)))
    (fun qs os os' e => exists o, resource_attributes known source taken qs o e /\ os' = (os ++ [o])%list) ls _ []) _).
  - intros qs os I. rewrite Forall_forall in F.
    refine (reads_ext _ _ (reads_bind (fun o os' e => os' = (os ++ [o])%list /\ e = []) (resource_reads qs (F qs I)) (fun o _ _ => reads_val known _)) _).
    intros os' e. split; [intros (o & e1 & e2 & A & (-> & ->) & ->); rewrite app_nil_r; eauto|intros (o & A & ->); exists o, e, []; rewrite app_nil_r; auto].
  - intros os e. split.
    + intros H. assert (K : forall a b, in_steps (fun qs os os' e => exists o, resource_attributes known source taken qs o e /\ os' = (os ++ [o])%list) ls a b e -> exists new, b = (a ++ new)%list /\ all_attributes known source taken ls new e).
      { clear F H. revert e. induction ls as [|x r IH]; intros e a b H; inversion H as [a0|x0 r0 a0 c b0 e1 e2 (g & A & ->) R]; subst; [exists []; rewrite app_nil_r; split; [reflexivity|constructor]|].
        apply IH in R as (new & -> & N). exists (g :: new). rewrite <- app_assoc. split; [reflexivity|now constructor]. }
      apply K in H as (new & -> & N). exact N.
    + clear F. intros H. enough (K : forall a, in_steps (fun qs os os' e => exists o, resource_attributes known source taken qs o e /\ os' = (os ++ [o])%list) ls a (a ++ os)%list e) by exact (K []).
      induction H as [|ps l g gs e1 e2 A H IH]; intros a; [rewrite app_nil_r; constructor|]. apply (steps_more _ _ _ _ (a ++ [g])%list); [eauto|]. specialize (IH (a ++ [g])%list). now rewrite <- app_assoc in IH.
Qed.
End Whole.

(** ** reading ends *)
Section Ends.
Context (source : string) (n : nat) (exists_ : tree -> string -> bool).
Notation deep := (fun t => depth t <= S n).
Lemma ends_owns : forall ps s, Forall deep (nodes_of ps) -> ends (action_owns source n ps s).
Proof.
  intros ps s F. unfold action_owns. destruct ps as [|[h|t|t|ty t|t|t|q] r]; try discriminate.
  apply ends_steps. intros x o s0 I. destruct x as [t|t|t|ty t|t|t|q]; try discriminate. destruct ty; try discriminate. cbn [action_takes]. destruct o; [discriminate|]. cbn [once].
  apply ends_bind; [|intros [y s1] _; discriminate]. apply attributes_end. rewrite Forall_forall in F. apply F. apply in_flat_map. eexists. split; [right; exact I|now left].
Qed.
Lemma ends_resource : forall ps s, Forall deep (nodes_of ps) -> ends (resource_owns source n exists_ ps s).
Proof.
  intros ps s F. unfold resource_owns. destruct ps as [|[h|t|t|ty t|t|t|[k qs ex]] r]; try discriminate.
  - apply ends_steps. intros x o s0 I.
    assert (P : Forall deep (part_nodes x)) by (apply Forall_forall; intros u J; rewrite Forall_forall in F; apply F; apply in_flat_map; exists x; split; [now right|exact J]).
    destruct x as [t|t|t|ty t|t|t|[k qs ex]]; try discriminate.
    + destruct ty; try discriminate. cbn [resource_takes]. apply ends_bind; [|intros [y s1] _; discriminate]. destruct (o_attributes o); [discriminate|]. cbn [once].
      apply ends_bind; [apply attributes_end; now inversion P|]. intros [y s1] _. destruct (_ && _)%bool; discriminate.
    + cbn [resource_takes]. apply ends_bind; [|intros [y s1] _; discriminate]. cbn [part_nodes section_nodes] in P. fold (nodes_of qs) in P. now apply ends_owns.
  - destruct r; [|discriminate]. cbn [flat_map part_nodes section_nodes] in F. rewrite app_nil_r in F. apply ends_bind; [now apply ends_owns|]. intros [y s1] _. discriminate.
Qed.
End Ends.
