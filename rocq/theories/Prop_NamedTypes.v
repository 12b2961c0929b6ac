(** C38, C39: ordering and typing named types (NamedTypesRegistry.cc) *)
From Coq Require Import Permutation.
From Verif Require Import Base TypeTables TypeTablesSpec TypeTablesProofs Prop_Types NamedTypes NamedTypesSpec NamedTypesProofs.

(** C38: comparing two named types ends with an answer, for all sets of types *)
Theorem C38_ends : forall ds a b, exists r, compares ds a b r.
Proof. intros ds a b. destruct (compare_spec ds a b) as (r & R & _). exists r, (enough ds). exact R. Qed.
(** C38: one type comes before another exactly if it does not need the other, and the other needs it or has the greater name *)
Theorem C38_comparison : forall ds a b r, compares ds a b r ->
  (r = true <-> ~ needs ds (nt_name a) (nt_name b) /\ (needs ds (nt_name b) (nt_name a) \/ String.compare (nt_name a) (nt_name b) = Lt)).
Proof.
  intros ds a b r [n H]. destruct (compare_spec ds a b) as (r' & R & S).
  specialize (H (n + enough ds)%nat ltac:(lia)). rewrite R in H by lia. injection H as <-. exact S.
Qed.
Lemma compares_fun : forall ds a b r s, compares ds a b r -> compares ds a b s -> r = s.
Proof.
  intros ds a b r s H1 H2. apply C38_comparison in H1. apply C38_comparison in H2. destruct r, s; try reflexivity; intuition congruence.
Qed.
(** C38: nothing comes before itself, and no two types before each other *)
Theorem C38_irreflexive : forall ds a, compares ds a a false.
Proof.
  intros ds a. destruct (C38_ends ds a a) as [[|] R]; [|exact R]. pose proof (proj1 (C38_comparison _ _ _ _ R) eq_refl) as [N _].
  exfalso. apply N. now left.
Qed.
Lemma compare_anti : forall x y, String.compare x y = Lt -> String.compare y x = Gt.
Proof. intros x y H. rewrite String.compare_antisym, H. reflexivity. Qed.
Theorem C38_asymmetric : forall ds a b, compares ds a b true -> compares ds b a false.
Proof.
  intros ds a b H. destruct (C38_ends ds b a) as [[|] R]; [|exact R].
  pose proof (proj1 (C38_comparison _ _ _ _ R) eq_refl) as [N1 N2]. pose proof (proj1 (C38_comparison _ _ _ _ H) eq_refl) as [M1 M2].
  exfalso. destruct M2 as [M2|M2]; [contradiction|]. destruct N2 as [N2|N2]; [contradiction|]. apply compare_anti in M2. congruence.
Qed.
(** C38: in an arrangement that is sorted, every type comes after those it needs, unless they need it *)
Theorem C38_sorted : forall ds l p x q y r, arranged ds l -> l = p ++ x :: q ++ y :: r -> needs ds (nt_name x) (nt_name y) -> needs ds (nt_name y) (nt_name x).
Proof.
  intros ds l p x q y r A -> N.
  assert (C : compares ds y x false).
  { unfold arranged in A. induction p as [|z p IH]; cbn in A.
    - inversion A as [|? ? F _]; subst. rewrite Forall_forall in F. apply F. apply in_or_app. right. now left.
    - inversion A; subst. auto. }
  destruct (compare_spec ds y x) as (b & R & S).
  assert (b = false) by (destruct C as [n C]; specialize (C (n + enough ds)%nat ltac:(lia)); rewrite R in C by lia; congruence). subst b.
  (* what is needed is decided by the comparison of the other direction *)
  destruct (compare_spec ds x y) as (b & R' & S').
  assert (D : needs ds (nt_name y) (nt_name x) \/ ~ needs ds (nt_name y) (nt_name x)).
  { destruct (info_spec ds) as (i & I1 & I2 & I3 & I4). destruct (climb_spec ds (nt_name y) (nt_name x) i I2) as (r1 & _ & R1).
    unfold needs. destruct r1; [left; destruct (proj1 R1 eq_refl); tauto|].
    destruct (has_member i (nt_name y) (nt_name x)) eqn:EM; [left; right; right; now apply I4|].
    right. intros [G|[G|G]].
    - assert (false = true) by (apply R1; now left). discriminate.
    - assert (false = true) by (apply R1; now right). discriminate.
    - apply I4 in G. congruence. }
  destruct D as [D|D]; [exact D|]. exfalso. assert (false = true); [|discriminate]. apply S. split; [exact D|now left].
Qed.
(** C38: where needs agree with the names, the comparison is that of the names, a strict total order of names *)
Theorem C38_by_name : forall ds, (forall a b, needs ds a b -> a <> b -> String.compare b a = Lt) ->
  forall a b, compares ds a b (match String.compare (nt_name a) (nt_name b) with Lt => true | _ => false end).
Proof.
  intros ds H a b. destruct (C38_ends ds a b) as [r R]. pose proof (C38_comparison _ _ _ _ R) as S.
  enough (r = match String.compare (nt_name a) (nt_name b) with Lt => true | _ => false end) by (subst; exact R).
  destruct (string_dec (nt_name a) (nt_name b)) as [E|E].
  - rewrite E, cmp_refl. destruct r; [|reflexivity]. exfalso. apply (proj1 S eq_refl). now left.
  - destruct r.
    + destruct (proj1 S eq_refl) as [_ [N|N]]; [|now rewrite N]. rewrite (H _ _ N) by congruence. reflexivity.
    + destruct (String.compare (nt_name a) (nt_name b)) eqn:EC; try reflexivity. exfalso.
      assert (false = true); [|discriminate]. apply S. split; [|now right]. intros N. apply H in N; [|exact E]. apply compare_anti in N. congruence.
Qed.

(** the data structures of a document:  A with a member of type C, and B, and C *)
Definition spec_of (x : string) : type_spec := TS (plain x) [].
Definition object (a : string) (members : list mson_element) : named_type := NT a (spec_of "") [members].
Definition has (x : string) : mson_element := Property (spec_of x) (spec_of "") [].
Definition tA := object "A" [has "C"].
Definition tB := object "B" [].
Definition tC := object "C" [].
Definition lt (ds : list named_type) (a b : named_type) : bool := match compare_types 9 ds a b with Some r => r | None => false end.

Lemma compares_now : forall ds a b r, (enough ds <= 9)%nat -> compare_types 9 ds a b = Some r -> compares ds a b r.
Proof.
  intros ds a b r L H. destruct (compare_spec ds a b) as (s & R & _). exists (enough ds). intros m Hm. rewrite R by exact Hm.
  rewrite R in H by exact L. exact H.
Qed.
(** C38, what fails: the comparison is no strict weak ordering, and these three types have no sorted arrangement at all *)
Theorem C38_transitive_refuted : ~ (forall ds a b c, In a ds -> In b ds -> In c ds -> compares ds a b true -> compares ds b c true -> compares ds a c true).
Proof.
  intros H. specialize (H [tA; tB; tC] tA tB tC ltac:(cbn; tauto) ltac:(cbn; tauto) ltac:(cbn; tauto)).
  assert (C1 : compares [tA; tB; tC] tA tB true) by (apply compares_now; [vm_compute; lia|reflexivity]).
  assert (C2 : compares [tA; tB; tC] tB tC true) by (apply compares_now; [vm_compute; lia|reflexivity]).
  specialize (H C1 C2).
  assert (C : compares [tA; tB; tC] tA tC false) by (apply compares_now; [vm_compute; lia|reflexivity]).
  pose proof (compares_fun _ _ _ _ _ H C). discriminate.
Qed.
Theorem C38_arrangement_refuted : ~ (forall ds, exists l, Permutation ds l /\ arranged ds l).
Proof.
  intros H. destruct (H [tA; tB; tC]) as (l & P & A).
  assert (X : forall a b, In (a, b) [(tA, tB); (tB, tC); (tC, tA)] -> ~ compares [tA; tB; tC] a b false).
  { intros a b I C.
    assert (compares [tA; tB; tC] a b true).
    { cbn in I. destruct I as [I|[I|[I|[]]]]; injection I as <- <-; (apply compares_now; [vm_compute; lia|reflexivity]). }
    pose proof (compares_fun _ _ _ _ _ C H0). discriminate. }
  assert (L : List.length l = 3%nat) by (rewrite <- (Permutation_length P); reflexivity).
  destruct l as [|x [|y [|z [|w l]]]]; try discriminate.
  unfold arranged in A. inversion A as [|? ? F1 A1]; subst. inversion A1 as [|? ? F2 A2]; subst. inversion F1 as [|? ? G1 F1']; subst.
  inversion F1' as [|? ? G2 _]; subst. inversion F2 as [|? ? G3 _]; subst.
  assert (I : forall t, In t [tA; tB; tC] -> In t [x; y; z]) by (intros t It; now apply (Permutation_in _ P)).
  assert (DA := I tA ltac:(cbn; tauto)). assert (DB := I tB ltac:(cbn; tauto)). assert (DC := I tC ltac:(cbn; tauto)).
  assert (AB : tA <> tB) by discriminate. assert (BC : tB <> tC) by discriminate. assert (AC : tA <> tC) by discriminate.
  cbn in DA, DB, DC.
  destruct DA as [DA|[DA|[DA|[]]]], DB as [DB|[DB|[DB|[]]]], DC as [DC|[DC|[DC|[]]]]; subst; try congruence;
    first [now apply (X tA tB ltac:(cbn; tauto))|now apply (X tB tC ltac:(cbn; tauto))|now apply (X tC tA ltac:(cbn; tauto))].
Qed.
(** so a sort may leave A before the type of its member; insertion sort does, when the types are declared C, B, A *)
Example C38_sort_refuted : insertion_sort (lt [tC; tB; tA]) [tC; tB; tA] = [tA; tB; tC] /\ needs [tC; tB; tA] "A" "C".
Proof.
  split; [vm_compute; reflexivity|]. right. right. apply reach_one. exists tA, [has "C"], (has "C"). split; [|split; [|split]].
  - exists [tC; tB], []. cbn. split; [reflexivity|]. split; [reflexivity|]. intros e [].
  - now left.
  - now left.
  - apply (n_value (spec_of "C") (spec_of "") []). discriminate.
Qed.
(** C38, what fails: the type of a member inside a one-of is not seen, a type may come before it *)
Theorem C38_oneof_refuted : exists ds a c, In a ds /\ In c ds /\ nt_sections a = [[OneOfMember [has (nt_name c)]]] /\ compares ds a c true.
Proof.
  exists [object "A" [OneOfMember [has "C"]]; tC], (object "A" [OneOfMember [has "C"]]), tC. split; [cbn; tauto|]. split; [cbn; tauto|]. split; [reflexivity|].
  apply compares_now; [vm_compute; lia|reflexivity].
Qed.
Example C38_by_name_instance : insertion_sort (lt [object "B" [has "A"]; object "A" []]) [object "B" [has "A"]; object "A" []] = [object "A" []; object "B" [has "A"]].
Proof. vm_compute. reflexivity. Qed.

(** C39: resolving a type ends with a base type exactly if the chain of its ancestors does, and gives that of the nearest *)
Theorem C39_nearest : forall ds d b, (exists n, first_type n ds d = Some b) <-> nearest ds (nt_name d) b.
Proof.
  intros ds d b. destruct (info_spec ds) as (i & I1 & I2 & I3 & I4). split.
  - intros [n H]. unfold first_type in H. destruct (make_info n ds) as [j|] eqn:E; [|discriminate].
    assert (j = i).
    { unfold make_info in E. destruct (deep_map n (member_map ds)) as [m|] eqn:EM; [|discriminate].
      specialize (I1 (n + enough ds)%nat ltac:(lia)). unfold make_info in I1. rewrite (deep_map_mono _ n _ m) in I1; [congruence|lia|exact EM]. }
    subst j. eapply resolve_nearest; eassumption.
  - intros H. destruct (nearest_resolve ds i I2 I3 _ _ H) as [n N]. exists (n + enough ds)%nat. unfold first_type. rewrite I1 by lia.
    eapply resolve_mono'; [|exact N]. lia.
Qed.
Theorem C39_ends : forall ds d, (forall a, ~ reaches (climbs ds) a a) -> exists n b, first_type n ds d = Some b.
Proof.
  intros ds d AC. destruct (nearest_total ds AC (nt_name d)) as [b B]. apply C39_nearest in B as [n N]. eauto.
Qed.
(** C39, what fails: on a chain of ancestors that runs in a circle it never ends *)
Theorem C39_endless : forall ds (Q : string -> Prop), (forall a, Q a -> a <> ""%string /\ exists p, climbs ds a p /\ Q p) ->
  forall d n, Q (nt_name d) -> first_type n ds d = None.
Proof.
  intros ds Q H d n Hd. unfold first_type, make_info. destruct (deep_map n (member_map ds)) as [m|]; [|reflexivity].
  now apply (resolve_endless ds _ Q).
Qed.

(** how the parser sees a named type *)
Definition declared (d : named_type) : declaration := Decl (nt_name d) (nt_spec d).
(** C39, what fails: the parser accepts such a circle when the names are variables, [# A ( *B* )] and [# B ( *A* )] *)
Definition vary (a b : string) : named_type := NT a (TS (TN UndefinedTN (Sym b true)) []) [].
Theorem C39_accepted_refuted : ~ (forall ds n t, preprocess n (map declared ds) = Some (t, None) -> forall d, In d ds -> exists m b, first_type m ds d = Some b).
Proof.
  intros H. destruct (preprocess 9 (map declared [vary "A" "B"; vary "B" "A"])) as [[t e]|] eqn:E; [|discriminate].
  assert (e = None) by (vm_compute in E; congruence). subst e.
  destruct (H _ _ _ E (vary "A" "B") ltac:(cbn; tauto)) as (m & b & F). clear E H.
  rewrite (C39_endless _ (fun a => a = "A" \/ a = "B")%string) in F; [discriminate| |now left].
  intros a Ha. split; [intros ->; destruct Ha; discriminate|]. destruct Ha as [-> | ->].
  - exists "B"%string. split; [|now right]. exists (vary "A" "B"). split; [exists [], [vary "B" "A"]|split; [reflexivity|split; [exists [], (vary "A" "B"), [vary "B" "A"]|discriminate]]].
    + cbn. split; [reflexivity|]. split; [reflexivity|]. intros e [<-|[]]. discriminate.
    + cbn. repeat split; try discriminate. intros e [<-|[]]. discriminate.
  - exists "A"%string. split; [|now left]. exists (vary "B" "A"). split; [exists [vary "A" "B"], []|split; [reflexivity|split; [exists [vary "A" "B"], (vary "B" "A"), []|discriminate]]].
    + cbn. split; [reflexivity|]. split; [reflexivity|]. intros e [].
    + cbn. repeat split; try discriminate. intros e [].
Qed.

(** C39: for the types of a blueprint the parser accepts, all named and none deriving from a variable, resolving ends, with the base type
    the parser has in its table *)
Theorem C39_accepted : forall ds n t, preprocess n (map declared ds) = Some (t, None) ->
  Forall (fun d => nt_name d <> ""%string /\ s_variable (n_symbol (t_name (nt_spec d))) = false) ds ->
  forall d, In d ds -> exists m b k, first_type m ds d = Some b /\ m_find (bases t) (nt_name d) = Some k /\
    (built_in b k \/ (b = UndefinedTN /\ k = ImplicitObjectBT)).
Proof.
  intros ds n t H W d Hd.
  assert (NE : Forall (fun d => d_id d <> ""%string) (map declared ds)).
  { apply Forall_map. eapply Forall_impl; [|exact W]. cbn. tauto. }
  destruct (C50_tables _ _ _ NE H) as [TB _].
  pose proof (proj1 (C50_accepted _ _ _ _ NE H) eq_refl) as (S1 & S2 & S3).
  rewrite Forall_forall in W.
  assert (LAST : forall a e, In e ds -> nt_name e = a -> last_named ds a e).
  { intros a e He Ha. apply in_split in He as (p & q & ->). exists p, q. split; [reflexivity|]. split; [exact Ha|].
    intros x Hx C. rewrite !map_app in S1. cbn in S1. apply NoDup_remove_2 in S1. apply S1. apply in_or_app. right.
    apply in_map_iff. exists (declared x). split; [cbn; congruence|now apply in_map]. }
  assert (CI : forall a p, climbs ds a p -> inherits (map declared ds) a p).
  { intros a p (e & L & B & D & N). destruct D as (q1 & e' & q2 & -> & E1 & E2 & E3 & _).
    exists (declared e'). assert (He' : In e' (q1 ++ e' :: q2)) by (apply in_or_app; right; now left).
    split; [now apply in_map|]. split; [exact E1|]. cbn. assert (e' = e).
    { apply element_spec in L. assert (L' := LAST a e' He' E1). apply element_spec in L'. congruence. }
    subst e'. split; [exact B|]. split; [exact E2|]. split; [exact E3|]. now apply W. }
  assert (AC : forall a, ~ reaches (climbs ds) a a).
  { intros a R. assert (exists p, climbs ds a p) as [p C] by (inversion R; subst; eauto).
    apply (S2 a p (CI _ _ C)). eapply reaches_mono; [|exact R]. intros x y Hxy. left. auto. }
  destruct (nearest_total ds AC (nt_name d)) as [b B].
  assert (K : forall a b, nearest ds a b -> (exists e, In e ds /\ nt_name e = a) -> exists k, kind (map declared ds) a k /\ (built_in b k \/ (b = UndefinedTN /\ k = ImplicitObjectBT))).
  { intros a c HB. induction HB as [a e N L U|a e p c N L U D P HB IH| |a U|a e N L U T|a e N L U D]; intros (x & X1 & X2).
    - assert (x = e) by (apply element_spec in L; assert (L' := LAST a x X1 X2); apply element_spec in L'; congruence). subst x.
      destruct (n_base (t_name (nt_spec e))) eqn:EB; try congruence; eexists; (split; [rewrite <- X2; apply (kind_own _ (declared e)); [now apply in_map|cbn; rewrite EB; constructor]|left; constructor]).
    - assert (IN : inherits (map declared ds) a p) by (apply CI; exists e; auto). destruct (S3 _ _ IN) as [k K].
      destruct IH as (k' & K1 & K2).
      { assert (exists y, In y (map declared ds) /\ d_id y = p) as (y & Y1 & Y2) by (destruct (kind_cases _ _ _ K) as [[(y & Y & Y' & _)|(y & Y & Y' & _)]|(q & (y & Y & Y' & _) & _)]; eauto).
        apply in_map_iff in Y1 as (z & <- & Z). exists z. auto. }
      exists k'. split; [|exact K2]. eapply kind_inherited; eassumption.
    - exfalso. apply (proj1 (W x X1)). exact X2.
    - exfalso. apply (U x). now apply LAST.
    - assert (x = e) by (apply element_spec in L; assert (L' := LAST a x X1 X2); apply element_spec in L'; congruence). subst x.
      exists ImplicitObjectBT. split; [|now right]. rewrite <- X2. apply (kind_implicit _ (declared e)); [now apply in_map|]. cbn.
      assert (Z : spec_name (nt_spec e) = ""%string).
      { destruct (string_dec (spec_name (nt_spec e)) "") as [Z|Z]; [exact Z|]. exfalso. apply (T (spec_name (nt_spec e))).
        destruct L as (p & q & -> & L1 & L2). exists p, e, q. repeat split; auto. intros y Hy Hn. now apply L2 in Hy. }
      pose proof (proj2 (W e X1)) as V. unfold spec_name in Z. destruct (t_name (nt_spec e)) as [bb [ll vv]]. cbn in *. congruence.
    - exfalso. assert (x = e) by (apply element_spec in L; assert (L' := LAST a x X1 X2); apply element_spec in L'; congruence). subst x.
      destruct D as (q1 & e' & q2 & E0 & E1 & E2 & E3 & _). assert (He' : In e' ds) by (rewrite E0; apply in_or_app; right; now left).
      assert (e' = e) by (apply element_spec in L; assert (L' := LAST a e' He' E1); apply element_spec in L'; congruence). subst e'.
      assert (IN : inherits (map declared ds) a a).
      { exists (declared e). split; [now apply in_map|]. split; [exact X2|]. split; [exact U|]. split; [exact E2|]. split; [exact E3|]. now apply W. }
      apply (S2 a a IN). apply reach_one. now left. }
  destruct (K _ _ B) as (k & K1 & K2); [eauto|]. apply C39_nearest in B as [m M]. exists m, b, k. split; [exact M|]. split; [now apply TB|exact K2].
Qed.

Definition derived (a b : string) : named_type := NT a (spec_of b) [].
Example C39_instance : let ds := [derived "C" "B"; derived "B" "A"; NT "A" (TS (TN ArrayTN (Sym "" false)) []) []] in
  first_type 9 ds (derived "C" "B") = Some ArrayTN /\ (exists t, preprocess 9 (map declared ds) = Some (t, None)) /\ first_type 9 [derived "X" "X"] (derived "X" "X") = Some UndefinedTN.
Proof. cbn zeta. split; [reflexivity|]. split; [eexists; vm_compute; reflexivity|reflexivity]. Qed.
Print Assumptions C38_arrangement_refuted.
Print Assumptions C39_accepted.
