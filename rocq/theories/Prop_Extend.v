(** Properties C20, C21: merging an inheritance chain (packages/drafter/src/refract/dsd/Extend.cc). *)
From Verif Require Import Base Element ElementSpec ElementProofs InfoProofs Extend MergeSpec MergeProofs EnumMergeProofs.

(** no two entries of a list have the same member key or the same ref symbol *)
Definition slots_unique (l : list element) : Prop :=
  forall i j a b s, nth_error l i = Some a -> nth_error l j = Some b -> slot_of a = Some s -> slot_of b = Some s -> i = j.

Lemma slots_unique_distinct : forall l, slots_unique l -> distinct slot_of slot_eqb l.
Proof.
  induction l as [|x l IH]; intros U; [constructor|]. constructor.
  - rewrite Forall_forall. intros y Hy. destruct (same slot_of slot_eqb x y) eqn:E; [|reflexivity]. exfalso.
    apply (same_iff slot_of slot_eqb slot_eqb_spec) in E as [E N]. apply In_nth_error in Hy as (j & Hj).
    destruct (slot_of x) as [s|] eqn:Ex; [|congruence]. specialize (U 0 (S j) x y s eq_refl Hj Ex (eq_sym E)). discriminate.
  - apply IH. intros i j a b s Ha Hb Sa Sb. specialize (U (S i) (S j) a b s Ha Hb Sa Sb). now injection U.
Qed.

Definition same_kind (e : element) (r : list element) : Prop := Forall (fun x => ekind x = ekind e) r.
Definition names_unique (e : element) : Prop := NoDup (map fst (emeta e)) /\ NoDup (map fst (eattrs e)).

(** C20, objects: the merged object has the name of the first; its meta and attributes are those
    of the chain, later ones overriding in place (id, prefix and namespace only from the first);
    its entries are those of the chain, a later member (or ref) replacing the earlier one with
    the same key in its position, new ones appended in order, all others kept. It holds a value
    iff the first does or some later one has an entry. *)
Theorem C20_objects : forall e r, ekind e = KObject -> same_kind e r -> names_unique e ->
  Forall plain_entry (flat_map entries (e :: r)) -> slots_unique (entries e) ->
  exists t, merge (e :: r) = Ok (Some t) /\ ekind t = KObject /\ ename t = ename e /\
    emeta t = chain_meta e r /\ eattrs t = chain_attrs e r /\
    entries t = override_entries (flat_map entries (e :: r)) /\
    (ehas t = true <-> ehas e = true \/ exists x, In x r /\ entries x <> []).
Proof.
  intros e r Ke Kr [Nm Na] Pl U. unfold same_kind in Kr. rewrite Ke in Kr.
  destruct (object_chain e r Ke Kr Nm Na Pl (slots_unique_distinct _ U)) as (d & E & H1 & H2).
  rewrite merge_unfold, E. eexists. split; [reflexivity|]. cbn [ename emeta eattrs ehas]. do 4 (split; [reflexivity|]). split.
  - unfold entries at 1. cbn [ehas edata dsd_children]. destruct (ehas e || _)%bool eqn:Eh; [now apply H1|]. now rewrite H2.
  - rewrite orb_true_iff, existsb_exists. split; (intros [H|(x & Hx & H)]; [now left|right; exists x; split; [exact Hx|]]);
      destruct (entries x); cbn in *; congruence.
Qed.

(** what override_entries means for members: nothing is lost, the last one wins, unique keys *)
Theorem C20_override_meaning : forall l,
  (forall s, In (Some s) (map slot_of l) <-> In (Some s) (map slot_of (override_entries l))) /\
  slots_unique (override_entries l) /\
  (forall p x q s, l = p ++ x :: q -> slot_of x = Some s -> (forall y, In y q -> slot_of y <> Some s) -> In x (override_entries l)) /\
  filter (fun x => match slot_of x with None => true | _ => false end) (override_entries l) =
  filter (fun x => match slot_of x with None => true | _ => false end) l.
Proof.
  intros l. assert (Ek := latest_key slot_of slot_eqb slot_eqb_spec l). repeat apply conj.
  - intros s. rewrite !in_map_iff. split.
    + intros (x & E & Hx). destruct (once_covers slot_of slot_eqb slot_eqb_spec l x Hx) as (y & Hy & Ey); [congruence|].
      exists (latest slot_of slot_eqb l y). split; [|now apply in_map]. rewrite Ek. apply (same_iff slot_of slot_eqb slot_eqb_spec) in Ey as [Ey _]. congruence.
    + intros (x & E & Hx). exists x. split; [exact E|now apply override_in].
  - assert (D := override_keeps_distinct slot_of slot_eqb slot_eqb_spec l). fold (override_entries l) in D.
    generalize dependent (override_entries l). intros o D. clear -D. induction D as [|x o F D IH].
    + intros [|] j a b s Ha; discriminate.
    + rewrite Forall_forall in F. assert (C : forall j b s, nth_error o j = Some b -> slot_of x = Some s -> slot_of b = Some s -> False).
      { intros j b s Hj Sx Sb. apply nth_error_In in Hj. specialize (F b Hj). apply (same_false slot_of slot_eqb slot_eqb_spec) in F as [F|F]; congruence. }
      intros [|i] [|j] a b s Ha Hb Sa Sb; cbn in Ha, Hb; try reflexivity.
      * injection Ha as <-. exfalso. eapply C; eauto.
      * injection Hb as <-. exfalso. eapply C; eauto.
      * f_equal. eapply IH; eauto.
  - intros p x q s -> Sx Nq. destruct (once_covers slot_of slot_eqb slot_eqb_spec (p ++ x :: q) x) as (y & Hy & Ey); [apply in_or_app; right; now left|congruence|].
    unfold override_entries, override. apply in_map_iff. exists y. split; [|exact Hy]. unfold latest. rewrite filter_app. cbn [filter]. rewrite Ey.
    assert (Z : filter (same slot_of slot_eqb y) q = []).
    { apply filter_none. intros z Hz. apply (same_iff slot_of slot_eqb slot_eqb_spec) in Ey as [Ey _]. apply (same_false slot_of slot_eqb slot_eqb_spec). left.
      specialize (Nq z Hz). congruence. }
    rewrite Z. apply last_snoc.
  - unfold override_entries, override. assert (L : forall x, slot_of x = None -> latest slot_of slot_eqb l x = x).
    { intros x Hx. unfold latest. rewrite filter_none; [reflexivity|]. intros y _. unfold same. now rewrite Hx. }
    assert (M : forall o, filter (fun x => match slot_of x with None => true | _ => false end) (map (latest slot_of slot_eqb l) o) =
                          filter (fun x => match slot_of x with None => true | _ => false end) o).
    { induction o as [|x o IH]; [reflexivity|]. cbn. rewrite Ek. destruct (slot_of x) eqn:Ex; [exact IH|]. now rewrite IH, L. }
    rewrite M. clear M L Ek. induction l as [|x l IH]; [reflexivity|]. cbn.
    assert (F : filter (fun x => match slot_of x with None => true | _ => false end) (filter (fun y => negb (same slot_of slot_eqb x y)) (once slot_of slot_eqb l))
              = filter (fun x => match slot_of x with None => true | _ => false end) (once slot_of slot_eqb l)).
    { generalize (once slot_of slot_eqb l). intros o. induction o as [|y o IHo]; [reflexivity|]. cbn.
      destruct (same slot_of slot_eqb x y) eqn:E; cbn.
      - rewrite IHo. unfold same in E. destruct (slot_of y); [reflexivity|]. destruct (slot_of x); discriminate.
      - rewrite IHo. reflexivity. }
    rewrite F, IH. reflexivity.
Qed.

(** C20, strings, numbers, booleans and refs: the value is that of the last one holding a value *)
Theorem C20_primitives : forall e r, In (ekind e) [KString; KNumber; KBoolean; KRef] -> same_kind e r -> names_unique e ->
  merge (e :: r) = Ok (Some (Elem (ename e) (chain_meta e r) (chain_attrs e r) (existsb ehas (e :: r)) (edata (last_valued e r)))).
Proof.
  intros e r Ke Kr [Nm Na]. rewrite merge_unfold, primitive_chain; auto. cbn in Ke. destruct Ke as [<-|[<-|[<-|[<-|[]]]]]; reflexivity.
Qed.

(** C20, arrays: contents are concatenated, provided the first one holds a value *)
Theorem C20_arrays : forall e r, ekind e = KArray -> same_kind e r -> names_unique e ->
  exists t, merge (e :: r) = Ok (Some t) /\ ename t = ename e /\ emeta t = chain_meta e r /\ eattrs t = chain_attrs e r /\
    ehas t = ehas e /\ (ehas e = true -> edata t = DArray (flat_map entries (e :: r))).
Proof.
  intros e r Ke Kr [Nm Na]. unfold same_kind in Kr. rewrite Ke in Kr. rewrite merge_unfold, array_chain by assumption.
  eexists. split; [reflexivity|]. cbn. repeat (split; [reflexivity|]). intros ->. reflexivity.
Qed.

(** finding: when the base array holds no value, the items of the types derived from it are lost
    (for objects they are kept) *)
Theorem C20_empty_base_array_refuted : exists e x, ekind e = KArray /\ ekind x = KArray /\ entries x <> [] /\
  forall t, merge [e; x] = Ok (Some t) -> entries t = [].
Proof.
  exists (make_empty KArray), (make_element (DArray [make_element (DString "lost")])). split; [reflexivity|]. split; [reflexivity|].
  split; [discriminate|]. intros t H. vm_compute in H. injection H as <-. reflexivity.
Qed.

(** C20: different kinds are rejected wherever the first difference occurs, and so are chains of
    kinds that cannot be merged *)
Theorem C20_kinds_rejected : forall e r x r', 
  (exists t, merge (e :: r) = Ok (Some t) /\ ekind t <> ekind x) ->
  merge (e :: r ++ x :: r') = Throws "Can not merge different types of elements".
Proof.
  intros e r x r' (t & E & N). rewrite merge_unfold in *. destruct (merge_from e r) as [t'| |] eqn:F; try discriminate. injection E as ->.
  assert (G : forall r e, merge_from e r = Ok t -> merge_from e (r ++ x :: r') = Throws "Can not merge different types of elements").
  { clear -N. induction r as [|y r IH]; intros e E; cbn in *.
    - injection E as ->. unfold merge_step. destruct (kind_beq_spec (ekind x) (ekind t)); [congruence|]. reflexivity.
    - destruct (merge_step e y); try discriminate. now apply IH. }
  now rewrite (G r e F).
Qed.

Theorem C20_unmergeable : forall e x r, ekind x = ekind e ->
  (In (ekind e) [KMember; KExtend; KNull] -> merge (e :: x :: r) = Throws "Unappropriate kind of element to merging") /\
  (In (ekind e) [KHolder; KOption; KSelect] -> merge (e :: x :: r) = Throws "Element has no implemented merging").
Proof.
  intros e x r K. rewrite merge_unfold. cbn [merge_from]. unfold merge_step. rewrite K.
  assert (KB : kind_beq (ekind e) (ekind e) = true) by (destruct (ekind e); reflexivity). rewrite KB. cbn [negb].
  split; intros [<-|[<-|[<-|[]]]]; reflexivity.
Qed.

(** finding: a member redefined in a derived type removes a whole "one of" select of the base
    that mentions its key, with all its other alternatives *)
Definition demo_member (k v : string) : element := make_member k (Some (make_element (DString v))).
Theorem C20_select_replaced_refuted :
  merge [make_element (DObject [make_element (DSelect [make_element (DOption [demo_member "a" "1"]); make_element (DOption [demo_member "b" "2"])])]);
         make_element (DObject [demo_member "a" "3"])]
  = Ok (Some (make_element (DObject [demo_member "a" "3"]))).
Proof. vm_compute. reflexivity. Qed.

(** C21: merging enums keeps every enumeration of every level, up to ==, exactly once, re-declared
    ones at the place of their last declaration; other attributes and meta as for objects; the
    value is that of the last one holding a value. *)
Theorem C21_enums : forall e r, ekind e = KEnum -> same_kind e r -> names_unique e -> Forall enum_level (e :: r) ->
  exists t, merge (e :: r) = Ok (Some t) /\ ename t = ename e /\ emeta t = chain_meta e r /\
    ierase (eattrs t) "enumerations" = override_info (flat_map (fun x => ierase (eattrs x) "enumerations") (e :: r)) /\
    enumerations t = lasts (flat_map enumerations (e :: r)) /\
    ehas t = existsb ehas (e :: r) /\ edata t = edata (last_valued e r).
Proof.
  intros e r Ke Kr [Nm Na] Lv. unfold same_kind in Kr. rewrite Ke in Kr.
  destruct (enum_chain e r Ke Kr Nm Na Lv) as (attrs & E & A1 & A2 & A3). rewrite merge_unfold, E. eexists. split; [reflexivity|].
  cbn [ename emeta eattrs ehas edata]. repeat (split; [reflexivity|]). split; [exact A1|]. split; [exact A3|]. split; reflexivity.
Qed.

(** what lasts means *)
Theorem C21_lasts_meaning : forall l, Forall no_null l ->
  (forall x, In x l -> exists y, In y (lasts l) /\ elem_eq x y = Some true) /\
  (forall x, In x (lasts l) -> In x l) /\
  ForallOrdPairs (fun x y => elem_eq x y = Some false) (lasts l) /\
  (forall p x q, l = p ++ x :: q -> (forall y, In y q -> elem_eq x y = Some false) -> exists p', lasts l = p' ++ x :: lasts q).
Proof.
  intros l N. assert (NL := N). rewrite Forall_forall in N. repeat apply conj.
  - clear N. induction l as [|z l IH]; intros x Hx; [destruct Hx|]. inversion NL as [|? ? Nz Nl]; subst. rewrite lasts_eq.
    destruct Hx as [->|Hx].
    + destruct (existsb (eqv x) l) eqn:E.
      * apply existsb_exists in E as (y & Hy & Ey). rewrite Forall_forall in Nl. assert (Ny := Nl y Hy). rewrite <- Forall_forall in Nl.
        destruct (IH Nl y Hy) as (w & Hw & Ew). exists w. split; [exact Hw|].
        assert (Nw : no_null w) by (rewrite Forall_forall in Nl; apply Nl; now apply lasts_in).
        rewrite eqv_total by assumption. f_equal. apply eqv_forget; auto. apply eqv_forget in Ey; auto.
        rewrite eqv_total in Ew by assumption. injection Ew as Ew. apply eqv_forget in Ew; auto. congruence.
      * exists x. split; [now left|]. rewrite eqv_total by assumption. f_equal. now apply eqv_forget.
    + destruct (IH Nl x Hx) as (y & Hy & Ey). exists y. split; [|exact Ey]. destruct (existsb (eqv z) l); [exact Hy|now right].
  - exact (lasts_in l).
  - assert (D := lasts_apart l). assert (I := lasts_in l). induction D as [|x o F D IH]; constructor.
    + rewrite Forall_forall in *. intros y Hy. rewrite eqv_total; [now rewrite (F y Hy)| |]; apply N, I; [now left|now right].
    + apply IH. intros y Hy. apply I. now right.
  - intros p x q -> Hq. clear NL N. induction p as [|z p IH]; cbn [app].
    + exists []. rewrite lasts_eq. destruct (existsb (eqv x) q) eqn:E; [|reflexivity]. apply existsb_exists in E as (y & Hy & Ey).
      unfold eqv in Ey. rewrite (Hq y Hy) in Ey. discriminate.
    + destruct IH as (p' & E). rewrite lasts_eq, E. destruct (existsb _ _); [now exists p'|]. now exists (z :: p').
Qed.

(** ** The hypotheses are met *)
Definition base_obj : element := Elem "object" [("id", make_element (DString "A"))] [] true
  (DObject [demo_member "a" "1"; make_element (DRef "M"); demo_member "b" "2"]).
Definition derived_obj : element := Elem "A" [("id", make_element (DString "B")); ("title", make_element (DString "t"))] [] true
  (DObject [demo_member "c" "3"; demo_member "a" "4"]).

Example C20_nonvacuous :
  (ekind base_obj = KObject /\ same_kind base_obj [derived_obj] /\ names_unique base_obj /\
   Forall plain_entry (flat_map entries [base_obj; derived_obj]) /\ slots_unique (entries base_obj)) /\
  merge [base_obj; derived_obj] = Ok (Some (Elem "object"
    [("id", make_element (DString "A")); ("title", make_element (DString "t"))] [] true
    (DObject [demo_member "a" "4"; make_element (DRef "M"); demo_member "b" "2"; demo_member "c" "3"]))).
Proof.
  split; [|vm_compute; reflexivity]. split; [reflexivity|]. split; [repeat constructor|].
  split; [split; repeat constructor; intros []|]. split; [repeat constructor; discriminate|].
  intros i j a b s Ha Hb Sa Sb. destruct i as [|[|[|[|i]]]], j as [|[|[|[|j]]]]; cbn in Ha, Hb; try reflexivity; try discriminate;
    injection Ha as <-; injection Hb as <-; cbn in Sa, Sb; congruence.
Qed.

Definition demo_enum (h : bool) (l : list string) : element :=
  Elem "enum" [] [("enumerations", make_element (DArray (map (fun s => make_element (DString s)) l)))] h (DEnum (Some (make_element (DString "v")))).
Example C21_nonvacuous : Forall enum_level [demo_enum false ["a"; "b"]; demo_enum true ["c"; "a"]] /\
  exists t, merge [demo_enum false ["a"; "b"]; demo_enum true ["c"; "a"]] = Ok (Some t) /\
    enumerations t = map (fun s => make_element (DString s)) ["b"; "c"; "a"].
Proof.
  split; [|eexists; split; [vm_compute; reflexivity|reflexivity]].
  assert (N : forall s, no_null (make_element (DString s))) by (intros s; apply no_null_intro; [intros _; exact I|intros c []]).
  repeat constructor; cbn; try apply N; try (injection H as <-; reflexivity).
Qed.

Print Assumptions C20_objects.
Print Assumptions C20_override_meaning.
Print Assumptions C20_primitives.
Print Assumptions C20_arrays.
Print Assumptions C20_kinds_rejected.
Print Assumptions C20_unmergeable.
Print Assumptions C21_enums.
Print Assumptions C21_lasts_meaning.
