(** Properties C11, C12, C13, C22: API elements (packages/drafter/src/refract). *)
From Verif Require Import Base SoValue Element ElementSpec ElementProofs InfoProofs SerializeSo.
Local Open Scope string_scope.

(** a fixed non-trivial element used as a witness below: a named object type with a described
    member, an id and a source map *)
Definition demo_member : element :=
  Elem "member" [("description", make_element (DString "the name"))] 
    [("typeAttributes", make_element (DArray [make_element (DString "required")]))] true
    (DMember (Some (make_element (DString "name"))) (Some (make_element (DNumber "42")))).
Definition demo : element :=
  Elem "Person" [("id", make_element (DString "A")); ("title", make_element (DString "T"))]
    [("sourceMap", make_element (DArray []))] true (DObject [demo_member; make_empty KSelect]).

(** C11: cloning with every flag gives the very same tree ... *)
Theorem C11_clone_all : forall e, clone cAll e = e.
Proof. intros [n m a h d]. rewrite clone_unfold. reflexivity. Qed.

(** ... so it serializes identically and (when == is defined) compares equal ... *)
Theorem C11_clone_observably_equal : forall e sm, 
  render_so (clone cAll e) sm = render_so e sm /\ (no_null e -> elem_eq (clone cAll e) e = Some true).
Proof.
  intros e sm. rewrite C11_clone_all. split; [reflexivity|]. intros N.
  destruct (elem_eq_decides e e N N) as [[H _]|[_ H]]; [exact H|congruence].
Qed.

(** ... and each flag controls exactly its own part: what is not asked for is what a freshly
    made empty element of that kind has; cNoMetaId removes exactly the entries called id. *)
Theorem C11_clone_flags : forall f e,
  let fresh := make_empty (ekind e) in
  ekind (clone f e) = ekind e /\
  ename (clone f e) = ename (if cElement f then e else fresh) /\
  eattrs (clone f e) = eattrs (if cAttributes f then e else fresh) /\
  (ehas (clone f e), edata (clone f e)) = (let x := if cValue f then e else fresh in (ehas x, edata x)) /\
  (cNoMetaId f = false -> emeta (clone f e) = emeta (if cMeta f then e else fresh)) /\
  (cMeta f = false -> emeta (clone f e) = []) /\
  (cMeta f = true -> cNoMetaId f = true ->
     emeta (clone f e) = filter (fun kv => negb (String.eqb (fst kv) "id")) (emeta e)).
Proof.
  intros [fm fa fv fe fi] e. cbn zeta. rewrite clone_unfold. cbn [cMeta cAttributes cValue cElement cNoMetaId].
  split; [unfold ekind; cbn; destruct fv; [reflexivity|apply dsd_kind_default]|].
  destruct e as [n m a h d]; cbn; repeat split; intros; destruct fm, fa, fv, fe, fi; try discriminate; reflexivity.
Qed.

Example C11_nonvacuous :
  clone (Flags true false true true true) demo =
  Elem "Person" [("title", make_element (DString "T"))] [] true (DObject [demo_member; make_empty KSelect]).
Proof. reflexivity. Qed.

(** C12: on elements whose mandatory pointers are set, == always returns, and returns true iff
    the two agree in everything but element names. *)
Theorem C12_equality_meaning : forall x y, no_null x -> no_null y ->
  (elem_eq x y = Some true <-> forget x = forget y) /\ (elem_eq x y = Some false <-> forget x <> forget y).
Proof.
  intros x y Nx Ny. destruct (elem_eq_decides x y Nx Ny) as [[E F]|[E F]]; rewrite E;
    split; split; intros; congruence.
Qed.

Theorem C12_equivalence : 
  (forall x, no_null x -> elem_eq x x = Some true) /\
  (forall x y, elem_eq x y = elem_eq y x) /\
  (forall x y z, no_null x -> no_null y -> no_null z ->
     elem_eq x y = Some true -> elem_eq y z = Some true -> elem_eq x z = Some true).
Proof.
  split; [|split].
  - intros x N. now apply C12_equality_meaning.
  - exact elem_eq_sym.
  - intros x y z Nx Ny Nz H G. apply C12_equality_meaning in H; auto. apply C12_equality_meaning in G; auto.
    apply C12_equality_meaning; auto. congruence.
Qed.

(** C12: equal elements agree on kind, emptiness, and (recursively) on keys of meta and attributes *)
Theorem C12_equal_agree : forall x y, no_null x -> no_null y -> elem_eq x y = Some true ->
  ekind x = ekind y /\ ehas x = ehas y /\
  map fst (emeta x) = map fst (emeta y) /\ map fst (eattrs x) = map fst (eattrs y).
Proof.
  intros x y Nx Ny H. apply C12_equality_meaning in H; auto.
  assert (K : forall e, ekind (forget e) = ekind e /\ ehas (forget e) = ehas e /\
             map fst (emeta (forget e)) = map fst (emeta e) /\ map fst (eattrs (forget e)) = map fst (eattrs e)).
  { intros [n m a h d]. cbn. rewrite !map_map. cbn. repeat split.
    unfold ekind. cbn. destruct h; [apply dsd_kind_map|apply dsd_kind_default]. }
  destruct (K x) as (A1 & A2 & A3 & A4), (K y) as (B1 & B2 & B3 & B4). rewrite H in A1, A2, A3, A4.
  repeat split; congruence.
Qed.

(** C12: names are not compared; and on a set enum (or holder) without a value - what
    make_element<EnumElement>() builds - comparison dereferences a null pointer, even with itself. *)
Theorem C12_names_ignored : forall e n, no_null e -> elem_eq (set_name e n) e = Some true.
Proof.
  intros e n N. apply C12_equality_meaning; auto; [|apply forget_set_name].
  destruct e as [n0 m a h d]. cbn. apply no_null_intro.
  - exact (no_null_head _ N).
  - intros c Hc. apply no_null_child with (1 := N). exact Hc.
Qed.

Theorem C12_null_pointer_refuted : elem_eq (make_element (DEnum None)) (make_element (DEnum None)) = None.
Proof. reflexivity. Qed.

Example C12_nonvacuous : no_null demo /\ elem_eq demo (set_name demo "Other") = Some true /\
  elem_eq demo (set_attrs demo []) = Some false.
Proof.
  split; [apply no_nullb_sound; reflexivity|]. split; reflexivity.
Qed.

(** C13: after any history of set/erase/claim/clear on an initially empty meta or attributes
    container (most recent operation first), keys are unique, find returns the value last set and
    not erased since, and the keys are in the order in which their present occupancy began. *)
Theorem C13_dictionary : forall h,
  NoDup (map fst (run_ops h)) /\
  (forall k, ifind (run_ops h) k = last_value h k) /\
  (forall a b, before (map fst (run_ops h)) a b -> birth h a < birth h b).
Proof.
  intros h. destruct (run_ops_inv h) as (A & B & C). repeat split; auto.
  intros a b H. now apply sorted_before with (1 := C).
Qed.

(** C13: claim hands out what find finds *)
Theorem C13_claim : forall h k, fst (iclaim (run_ops h) k) = last_value h k.
Proof.
  intros h k. destruct (run_ops_inv h) as (_ & F & _). unfold iclaim. rewrite F.
  now destruct (last_value h k).
Qed.

(** C13: appending the entries of another container (InfoElements::clone) is not part of that
    interface: it can duplicate keys. *)
Theorem C13_append_refuted : exists h1 h2, ~ NoDup (map fst (iclone (run_ops h1) (run_ops h2))).
Proof.
  exists [OSet "id" (make_empty KString)], [OSet "id" (make_empty KString)]. cbn.
  intros H. inversion H as [|x l N _]; subst. apply N. now left.
Qed.

Example C13_nonvacuous :
  let v s := make_element (DString s) in
  let h := [OSet "a" (v "3"); OErase "b"; OSet "c" (v "2"); OSet "b" (v "1"); OSet "a" (v "0")] in
  run_ops h = [("a", v "3"); ("c", v "2")] /\ before (map fst (run_ops h)) "a" "c".
Proof. split; [reflexivity|]. now exists [], [], []. Qed.

(** C22: adding members to an object one by one (either way of adding) keeps string keys unique; and
    the outcome is exactly: an added entry survives unless a later one has the same string key,
    in order of addition. *)
Inductive add_op : Type := Push (e : element) | AddMember (name : string) (v : option element).
Definition added (o : add_op) : element := match o with Push e => e | AddMember n v => make_member n v end.
Definition do_add (l : list element) (o : add_op) : list element :=
  match o with Push e => obj_push_back l e | AddMember n v => obj_add_member l n v end.

Fixpoint survivors (l : list element) : list element :=
  match l with
  | [] => []
  | e :: r =>
      match string_key e with
      | Some k => if existsb (String.eqb k) (member_keys r) then survivors r else e :: survivors r
      | None => e :: survivors r
      end
  end.

Lemma obj_add_step : forall l o, NoDup (member_keys l) ->
  do_add l o = ((match string_key (added o) with
                 | Some k => filter (fun e => negb (has_key k e)) l
                 | None => l end) ++ [added o])%list.
Proof.
  intros l o ND. destruct o as [e|n v]; cbn [do_add added].
  - unfold obj_push_back. destruct (string_key e) as [k|] eqn:K.
    + destruct l as [|x l]; [reflexivity|]. f_equal. now apply remove_key.
    + now destruct l.
  - unfold obj_add_member. cbn [string_key make_member make_element ehas edata]. f_equal. now apply remove_key.
Qed.

Lemma member_keys_filter : forall k l, member_keys (filter (fun e => negb (has_key k e)) l) =
  filter (fun x => negb (String.eqb x k)) (member_keys l).
Proof.
  induction l as [|e l IH]; [reflexivity|]. cbn [filter].
  assert (C : forall x r, member_keys (x :: r) = (opt_list (string_key x) ++ member_keys r)%list) by reflexivity.
  rewrite C, filter_app, <- IH. unfold has_key at 1. destruct (string_key e) as [s|] eqn:S.
  - cbn [opt_list filter]. destruct (String.eqb s k); cbn [negb]; [reflexivity|].
    rewrite C, S. reflexivity.
  - cbn [negb]. rewrite C, S. reflexivity.
Qed.

Lemma survivors_snoc : forall l e,
  survivors (l ++ [e]) = ((match string_key e with
                           | Some k => filter (fun x => negb (has_key k x)) (survivors l)
                           | None => survivors l end) ++ [e])%list.
Proof.
  induction l as [|x l IH]; intros e; cbn.
  - now destruct (string_key e).
  - rewrite IH, member_keys_app. clear IH.
    destruct (string_key x) as [kx|] eqn:X.
    + rewrite existsb_app.
      destruct (existsb (String.eqb kx) (member_keys l)) eqn:E; [reflexivity|].
      assert (K : member_keys [e] = opt_list (string_key e)).
      { unfold member_keys. cbn. apply app_nil_r. }
      rewrite K. destruct (string_key e) as [k|]; cbn.
      * rewrite orb_false_r. assert (HK : has_key k x = String.eqb kx k) by (unfold has_key; now rewrite X).
        rewrite HK. destruct (String.eqb kx k); reflexivity.
      * reflexivity.
    + destruct (string_key e) as [k|]; [|reflexivity]. cbn [filter app].
      assert (HK : has_key k x = false) by (unfold has_key; now rewrite X). now rewrite HK.
Qed.

Theorem C22_members_unique : forall ops,
  let l := fold_left do_add ops [] in
  NoDup (member_keys l) /\ l = survivors (map added ops).
Proof.
  intros ops. cbn zeta. induction ops as [|o ops IH] using rev_ind; [split; [constructor|reflexivity]|].
  destruct IH as [ND EQ]. rewrite fold_left_app. cbn [fold_left].
  rewrite (obj_add_step _ o ND). split.
  - rewrite member_keys_app. cbn. rewrite app_nil_r.
    destruct (string_key (added o)) as [k|] eqn:K; cbn.
    + apply NoDup_snoc.
      * rewrite member_keys_filter. now apply NoDup_filter.
      * rewrite member_keys_filter. intros H. apply filter_In in H as [_ H].
        now rewrite String.eqb_refl in H.
    + now rewrite app_nil_r.
  - rewrite map_app. cbn [map]. rewrite survivors_snoc, EQ. reflexivity.
Qed.

(** C22: inserting by position (Object::insert, used by merging) gives no such guarantee, and a
    key held by an inherited-key (extend) member is not seen at all. *)
Theorem C22_nonstring_keys_refuted :
  let m := make_element (DMember (Some (make_element (DExtend [make_element (DString "k")]))) None) in
  fold_left do_add [Push m; Push m] [] = [m; m].
Proof. reflexivity. Qed.

Example C22_nonvacuous :
  let m k v := make_member k (Some (make_element (DNumber v))) in
  fold_left do_add [Push (m "a" "1"); Push (make_empty KSelect); AddMember "b" None; Push (m "a" "2")] [] =
  [make_empty KSelect; make_member "b" None; m "a" "2"].
Proof. reflexivity. Qed.

Print Assumptions C11_clone_all.
Print Assumptions C11_clone_observably_equal.
Print Assumptions C11_clone_flags.
Print Assumptions C12_equality_meaning.
Print Assumptions C12_equivalence.
Print Assumptions C12_equal_agree.
Print Assumptions C12_names_ignored.
Print Assumptions C12_null_pointer_refuted.
Print Assumptions C13_dictionary.
Print Assumptions C13_claim.
Print Assumptions C13_append_refuted.
Print Assumptions C22_members_unique.
Print Assumptions C22_nonstring_keys_refuted.
