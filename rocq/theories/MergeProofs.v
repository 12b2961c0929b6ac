From Verif Require Import Base Element ElementSpec ElementProofs InfoProofs Extend MergeSpec.

Section OverrideFacts.
  Context {A K : Type} (key : A -> option K) (eqb : K -> K -> bool).
  Context (eqb_spec : forall a b, reflect (a = b) (eqb a b)).
  Notation same := (same key eqb). Notation once := (once key eqb).
  Notation latest := (latest key eqb). Notation override := (override key eqb).

  Lemma same_iff : forall x y, same x y = true <-> key x = key y /\ key x <> None.
  Proof.
    intros x y. unfold MergeSpec.same. destruct (key x) as [a|], (key y) as [b|]; try (split; [discriminate|intuition congruence]).
    destruct (eqb_spec a b); split; intros; try discriminate; try (split; congruence); try reflexivity.
    destruct H as [H _]. congruence.
  Qed.
  Lemma same_false : forall x y, same x y = false <-> (key x <> key y \/ key x = None).
  Proof.
    intros x y. split.
    - intros H. destruct (key x) as [a|] eqn:E; [|now right]. left. intros E'.
      assert (T : same x y = true) by (apply same_iff; rewrite E, E'; split; congruence). congruence.
    - intros H. destruct (same x y) eqn:E; [|reflexivity]. apply same_iff in E as [E1 E2]. intuition.
  Qed.
  Lemma same_sym : forall x y, same x y = same y x.
  Proof.
    intros x y. destruct (same x y) eqn:E; symmetry.
    - apply same_iff in E as [E N]. apply same_iff. split; congruence.
    - apply same_false in E. apply same_false. destruct (key x) eqn:X, (key y) eqn:Y; auto; left; congruence || (destruct E; congruence).
  Qed.
  Lemma same_cong : forall x y z, key x = key y -> same x z = same y z.
  Proof. intros x y z E. unfold MergeSpec.same. now rewrite E. Qed.

  (** replace the first entry about the same key, else append *)
  Fixpoint put (l : list A) (x : A) : list A :=
    match l with
    | [] => [x]
    | y :: r => if same y x then x :: r else y :: put r x
    end.

  (** no two entries about the same key *)
  Definition distinct (l : list A) : Prop := ForallOrdPairs (fun x y => same x y = false) l.

  Lemma once_in : forall l x, In x (once l) -> In x l.
  Proof.
    induction l as [|y l IH]; cbn; intros x H; [exact H|]. destruct H as [H|H]; [now left|]. apply filter_In in H as [H _]. auto.
  Qed.
  Lemma FOP_filter : forall (R : A -> A -> Prop) f l, ForallOrdPairs R l -> ForallOrdPairs R (filter f l).
  Proof.
    intros R f l H. induction H as [|x l F H IH]; cbn; [constructor|]. destruct (f x); [|exact IH].
    constructor; [|exact IH]. rewrite Forall_forall in *. intros y Hy. apply filter_In in Hy as [Hy _]. auto.
  Qed.
  Lemma once_distinct : forall l, distinct (once l).
  Proof.
    induction l as [|x l IH]; cbn; [constructor|]. constructor.
    - rewrite Forall_forall. intros y Hy. apply filter_In in Hy as [_ Hy]. now destruct (same x y).
    - now apply FOP_filter.
  Qed.
  Lemma once_covers : forall l x, In x l -> key x <> None -> exists y, In y (once l) /\ same y x = true.
  Proof.
    induction l as [|z l IH]; cbn; intros x H N; [destruct H|]. destruct (same z x) eqn:E.
    - exists z. split; [now left|exact E].
    - destruct H as [->|H].
      { exfalso. apply same_false in E as [E|E]; congruence. }
      destruct (IH x H N) as (y & Hy & Ey). exists y. split; [|exact Ey]. right. apply filter_In. split; [exact Hy|].
      apply same_iff in Ey as [E1 E2]. rewrite (same_sym z y), (same_cong y x z E1), same_sym, E. reflexivity.
  Qed.

  Lemma filter_none : forall (f : A -> bool) l, (forall x, In x l -> f x = false) -> filter f l = [].
  Proof.
    induction l as [|x l IH]; intros H; [reflexivity|]. cbn. rewrite (H x) by now left. apply IH. intros y Hy. apply H. now right.
  Qed.

  Lemma once_snoc : forall l x, once (l ++ [x]) = if existsb (fun y => same y x) l then once l else once l ++ [x].
  Proof.
    induction l as [|y l IH]; intros x; [reflexivity|]. cbn [app MergeSpec.once existsb]. rewrite IH. destruct (same y x) eqn:E; cbn [orb].
    - destruct (existsb _ l); [reflexivity|]. rewrite filter_app. cbn [filter]. rewrite E. cbn [negb]. now rewrite app_nil_r.
    - destruct (existsb _ l); [reflexivity|]. rewrite filter_app. cbn [filter]. rewrite E. reflexivity.
  Qed.

  Lemma latest_key : forall l x, key (latest l x) = key x.
  Proof.
    intros l x. unfold MergeSpec.latest. assert (G : forall m d, (forall y, In y m -> same x y = true) -> key d = key x -> key (last m d) = key x).
    { induction m as [|y m IH]; intros d H Hd; [exact Hd|]. cbn. destruct m as [|z m]; [|apply IH; [|exact Hd]].
      - assert (E := H y (or_introl eq_refl)). apply same_iff in E as [E _]. congruence.
      - intros w Hw. apply H. now right. }
    apply G; [|reflexivity]. intros y Hy. now apply filter_In in Hy as [_ Hy].
  Qed.

  Lemma last_snoc : forall (l : list A) x d, last (l ++ [x]) d = x.
  Proof. induction l as [|y l IH]; intros x d; [reflexivity|]. cbn. rewrite IH. destruct l; reflexivity. Qed.

  Lemma latest_snoc : forall l x y, latest (l ++ [x]) y = if same y x then x else latest l y.
  Proof.
    intros l x y. unfold MergeSpec.latest. rewrite filter_app. cbn. destruct (same y x); [apply last_snoc|now rewrite app_nil_r].
  Qed.

  Lemma put_map : forall (f : A -> A) x l, (forall y, key (f y) = key y) -> distinct l ->
    put (map f l) x = map (fun y => if same y x then x else f y) l ++ (if existsb (fun y => same y x) l then [] else [x]).
  Proof.
    intros f x l Hf D. induction D as [|y l F D IH]; [reflexivity|]. cbn [map put existsb].
    rewrite (same_cong (f y) y x (Hf y)). destruct (same y x) eqn:E; cbn [orb].
    - cbn. rewrite app_nil_r. f_equal. apply map_ext_in. intros z Hz.
      rewrite Forall_forall in F. specialize (F z Hz). destruct (same z x) eqn:Ez; [|reflexivity]. exfalso.
      apply same_iff in E as [E1 E2]. apply same_iff in Ez as [E3 E4]. apply same_false in F as [F|F]; congruence.
    - cbn. now rewrite IH.
  Qed.

  Lemma existsb_once : forall l x, existsb (fun y => same y x) (once l) = existsb (fun y => same y x) l.
  Proof.
    intros l x. apply eq_true_iff_eq. rewrite !existsb_exists. split.
    - intros (y & Hy & E). exists y. split; [now apply once_in|exact E].
    - intros (y & Hy & E). assert (E' := E). apply same_iff in E' as [E1 E2].
      destruct (once_covers l y Hy E2) as (z & Hz & Ez). exists z. split; [exact Hz|].
      apply same_iff in Ez as [E3 E4]. apply same_iff. split; congruence.
  Qed.

  Lemma override_snoc : forall l x, override (l ++ [x]) = put (override l) x.
  Proof.
    intros l x. unfold MergeSpec.override. rewrite (put_map (latest l) x (once l)) by (apply latest_key || apply once_distinct).
    rewrite existsb_once, once_snoc.
    assert (M : map (latest (l ++ [x])) (once l) = map (fun y => if same y x then x else latest l y) (once l)).
    { apply map_ext. intros y. apply latest_snoc. }
    destruct (existsb _ l) eqn:E; [now rewrite app_nil_r|]. rewrite map_app, M. f_equal. cbn. f_equal.
    rewrite latest_snoc. destruct (same x x) eqn:Ex; [reflexivity|]. unfold MergeSpec.latest.
    rewrite filter_none; [reflexivity|]. intros y Hy. apply same_false in Ex as [Ex|Ex]; [congruence|]. apply same_false. now right.
  Qed.

  Lemma override_distinct : forall l, distinct l -> override l = l.
  Proof.
    induction l as [|x l IH] using rev_ind; intros D; [reflexivity|]. rewrite override_snoc.
    assert (D' : distinct l /\ forall y, In y l -> same y x = false).
    { clear IH. induction l as [|y l IH]; [split; [constructor|intros ? []]|]. cbn in D. inversion D as [|? ? F D']; subst.
      destruct (IH D') as [A1 A2]. apply Forall_app in F as [F1 F2]. split; [now constructor|].
      intros z [->|Hz]; [|now apply A2]. now inversion F2. }
    destruct D' as [D1 D2]. rewrite IH by exact D1. clear -D2. induction l as [|y l IH]; [reflexivity|]. cbn.
    rewrite (D2 y) by now left. rewrite IH; [reflexivity|]. intros z Hz. apply D2. now right.
  Qed.

  Lemma fold_put : forall r l, distinct l -> fold_left put r l = override (l ++ r).
  Proof.
    intros r l D. induction r as [|x r IH] using rev_ind; [now rewrite app_nil_r, override_distinct|].
    rewrite fold_left_app, app_assoc, override_snoc, IH. reflexivity.
  Qed.

  Lemma fold_put_override : forall r l, fold_left put r (override l) = override (l ++ r).
  Proof.
    induction r as [|x r IH] using rev_ind; intros l; [now rewrite app_nil_r|].
    rewrite fold_left_app, app_assoc, override_snoc, IH. reflexivity.
  Qed.

  Lemma override_keeps_distinct : forall l, distinct (override l).
  Proof.
    intros l. unfold MergeSpec.override. assert (G : forall o, distinct o -> distinct (map (latest l) o)).
    { intros o D. induction D as [|x o F D IH]; cbn; [constructor|]. constructor; [|exact IH].
      rewrite Forall_forall in *. intros y Hy. apply in_map_iff in Hy as (z & <- & Hz). specialize (F z Hz).
      apply same_false. apply same_false in F. rewrite !latest_key. exact F. }
    apply G, once_distinct.
  Qed.
End OverrideFacts.

Lemma clone_cAll : forall e, clone cAll e = e.
Proof. intros [n m a h d]. now rewrite clone_unfold. Qed.

(** meta and attributes *)
Definition ikey (kv : string * element) : option string := Some (fst kv).

Lemma iset_put : forall l k v, iset l k v = put ikey String.eqb l (k, v).
Proof.
  induction l as [|[k' v'] l IH]; intros k v; [reflexivity|]. cbn. unfold same. cbn. destruct (String.eqb_spec k' k) as [->|]; [reflexivity|].
  now rewrite IH.
Qed.

Lemma fold_put_filter : forall skip s t,
  info_merge skip t s = fold_left (put ikey String.eqb) (filter (fun kv => negb (skip (fst kv))) s) t.
Proof.
  intros skip s. unfold info_merge. induction s as [|[k v] s IH]; intros t; [reflexivity|]. cbn.
  destruct (skip k); cbn; [apply IH|]. rewrite IH, clone_cAll, iset_put. reflexivity.
Qed.

Lemma info_merge_override : forall skip s l,
  info_merge skip (override_info l) s = override_info (l ++ filter (fun kv => negb (skip (fst kv))) s).
Proof.
  intros skip s l. rewrite fold_put_filter. unfold override_info.
  apply (fold_put_override ikey String.eqb String.eqb_spec).
Qed.

Lemma nodup_distinct : forall l : info, NoDup (map fst l) -> distinct ikey String.eqb l.
Proof.
  induction l as [|[k v] l IH]; cbn; intros N; [constructor|]. inversion N as [|? ? Hn N']; subst. constructor; [|now apply IH].
  rewrite Forall_forall. intros [k' v'] H. unfold same. cbn. destruct (String.eqb_spec k k') as [->|]; [|reflexivity].
  exfalso. apply Hn. now apply (in_map fst) in H.
Qed.

Lemma override_info_id : forall l, NoDup (map fst l) -> override_info l = l.
Proof. intros l N. apply (override_distinct ikey String.eqb String.eqb_spec). now apply nodup_distinct. Qed.

(** object entries *)
Lemma slot_eqb_spec : forall a b, reflect (a = b) (slot_eqb a b).
Proof.
  intros [x|x] [y|y]; cbn; try (constructor; congruence); destruct (String.eqb_spec x y); constructor; congruence.
Qed.

Lemma string_key_slot : forall e, string_key e = match slot_of e with Some (SMember k) => Some k | _ => None end.
Proof.
  intros [n m a h d]. unfold string_key. cbn. destruct h; [|destruct d as [| | | | | |[[? ? ? [] []]|]| | | | | |]; reflexivity].
  destruct d as [| | | | | |[[? ? ? [] []]|]| | | | | |]; reflexivity.
Qed.

Lemma asserted_key_slot : forall e, asserted_key e = match slot_of e with Some (SMember k) => Some k | _ => None end.
Proof.
  intros [n m a h d]. unfold asserted_key, eget. cbn. destruct h; [|reflexivity].
  destruct d as [| | | | | |[[? ? ? [] []]|]| | | | | |]; reflexivity.
Qed.

Lemma ref_symbol_slot : forall e, ref_symbol e = match slot_of e with Some (SRef k) => Some k | _ => None end.
Proof.
  intros [n m a h d]. unfold ref_symbol, eget. cbn. destruct h; [|reflexivity].
  destruct d as [| | | | | |[[? ? ? [] []]|]| | | | | |]; reflexivity.
Qed.

Lemma slot_kind : forall e, match slot_of e with
  | Some (SMember _) => ekind e = KMember | Some (SRef _) => ekind e = KRef | None => True end.
Proof.
  intros [n m a h d]. cbn. destruct h; [|exact I]. destruct d as [| | | | | |[[? ? ? [] []]|]| | | | | |]; exact I || reflexivity.
Qed.

Lemma plain_cases : forall e, plain_entry e ->
  (exists k, slot_of e = Some (SMember k) /\ ekind e = KMember) \/
  (exists s, slot_of e = Some (SRef s) /\ ekind e = KRef) \/
  (slot_of e = None /\ ekind e <> KMember /\ ekind e <> KRef /\ ekind e <> KSelect).
Proof.
  intros e P. unfold plain_entry in P. assert (S := slot_kind e). destruct (slot_of e) as [[k|k]|].
  - left. eauto.
  - right. left. eauto.
  - right. right. split; [reflexivity|]. destruct (ekind e); try congruence; try contradiction; repeat split; congruence.
Qed.

Lemma member_match_plain : forall k e, plain_entry e ->
  member_match k e = Some (match slot_of e with Some (SMember k') => String.eqb k k' | _ => false end).
Proof.
  intros k e P. unfold member_match. rewrite asserted_key_slot.
  destruct (plain_cases e P) as [(k' & E & Ek)|[(s & E & Ek)|(E & N1 & N2 & N3)]]; rewrite E; [now rewrite Ek|now rewrite Ek|].
  destruct (ekind e); congruence.
Qed.
Lemma ref_match_plain : forall s e, plain_entry e ->
  ref_match s e = Some (match slot_of e with Some (SRef s') => String.eqb s s' | _ => false end).
Proof.
  intros k e P. unfold ref_match. rewrite ref_symbol_slot.
  destruct (plain_cases e P) as [(k' & E & Ek)|[(s & E & Ek)|(E & N1 & N2 & N3)]]; rewrite E; [now rewrite Ek|now rewrite Ek|].
  destruct (ekind e); congruence.
Qed.

Lemma splice_put : forall p m l, (forall x, In x l -> p x = Some (same slot_of slot_eqb x m)) ->
  splice p m l = Some (if existsb (fun x => same slot_of slot_eqb x m) l then Some (put slot_of slot_eqb l m) else None).
Proof.
  intros p m l. induction l as [|x l IH]; intros H; [reflexivity|]. cbn. rewrite (H x) by now left.
  destruct (same slot_of slot_eqb x m); [reflexivity|]. cbn. rewrite IH by (intros y Hy; apply H; now right).
  cbn. destruct (existsb _ l); reflexivity.
Qed.

Lemma put_absent : forall l m, existsb (fun x => same slot_of slot_eqb x m) l = false -> put slot_of slot_eqb l m = l ++ [m].
Proof.
  induction l as [|x l IH]; intros m H; [reflexivity|]. cbn in *. apply orb_false_elim in H as [H1 H2]. rewrite H1.
  now rewrite IH.
Qed.

Lemma push_back_absent : forall l m, existsb (fun x => same slot_of slot_eqb x m) l = false -> obj_push_back l m = l ++ [m].
Proof.
  intros l m H. unfold obj_push_back. destruct l as [|x l]; [reflexivity|]. rewrite string_key_slot.
  destruct (slot_of m) as [[k|k]|] eqn:E; try reflexivity. f_equal. apply remove_first_none. apply find_key_none.
  intros I. unfold member_keys in I. apply in_flat_map in I as (y & Hy & Iy). rewrite string_key_slot in Iy.
  destruct (slot_of y) as [[k'|k']|] eqn:Ey; try contradiction. destruct Iy as [->|[]].
  assert (F : existsb (fun x => same slot_of slot_eqb x m) (x :: l) = true).
  { apply existsb_exists. exists y. split; [exact Hy|]. unfold same. rewrite Ey, E. cbn. apply String.eqb_refl. }
  congruence.
Qed.

Lemma merge_entry_put : forall l m, Forall plain_entry l -> plain_entry m ->
  merge_entry l m = Some (put slot_of slot_eqb l m).
Proof.
  intros l m Fl Pm. rewrite Forall_forall in Fl. unfold merge_entry. rewrite clone_cAll.
  assert (Fin : forall p, (forall x, In x l -> p x = Some (same slot_of slot_eqb x m)) ->
    match splice p m l with None => None | Some (Some l') => Some l' | Some None => Some (obj_push_back l m) end = Some (put slot_of slot_eqb l m)).
  { intros p Hp. rewrite (splice_put p m l Hp). destruct (existsb _ l) eqn:E; [reflexivity|].
    now rewrite push_back_absent, put_absent. }
  destruct (plain_cases m Pm) as [(k & E & Ek)|[(s & E & Ek)|(E & N1 & N2 & N3)]].
  - rewrite Ek, asserted_key_slot, E. apply Fin. intros x Hx. rewrite (member_match_plain k x (Fl x Hx)). f_equal.
    unfold same. rewrite E. destruct (slot_of x) as [[k'|k']|]; try reflexivity. cbn. apply String.eqb_sym.
  - rewrite Ek, ref_symbol_slot, E. apply Fin. intros x Hx. rewrite (ref_match_plain s x (Fl x Hx)). f_equal.
    unfold same. rewrite E. destruct (slot_of x) as [[k'|k']|]; try reflexivity. cbn. apply String.eqb_sym.
  - assert (X : existsb (fun x => same slot_of slot_eqb x m) l = false).
    { destruct (existsb _ l) eqn:X; [|reflexivity]. apply existsb_exists in X as (y & _ & Y). unfold same in Y. rewrite E in Y.
      destruct (slot_of y); discriminate. }
    rewrite push_back_absent, put_absent by exact X. destruct (ekind m); congruence.
Qed.

Lemma put_plain : forall l m, Forall plain_entry l -> plain_entry m -> Forall plain_entry (put slot_of slot_eqb l m).
Proof.
  intros l m F P. induction F as [|x l Px F IH]; cbn; [now constructor|]. destruct (same _ _ x m); constructor; auto.
Qed.

Lemma foldM_put : forall r l, Forall plain_entry l -> Forall plain_entry r ->
  foldM merge_entry l r = Some (fold_left (put slot_of slot_eqb) r l).
Proof.
  induction r as [|m r IH]; intros l Fl Fr; [reflexivity|]. inversion Fr as [|? ? Pm Fr']; subst. cbn.
  rewrite merge_entry_put by assumption. apply IH; [now apply put_plain|assumption].
Qed.

Lemma override_in : forall l x, In x (override_entries l) -> In x l.
Proof.
  intros l x H. unfold override_entries, override in H. apply in_map_iff in H as (y & E & Hy). apply once_in in Hy.
  unfold latest in E. assert (G : forall (m : list element) d, last m d = d \/ In (last m d) m).
  { induction m as [|z m IH]; intros d; [now left|]. cbn. destruct m as [|w m]; [right; now left|]. destruct (IH d) as [G|G]; [now left|right; now right]. }
  destruct (G (filter (same slot_of slot_eqb y) l) y) as [G'|G']; rewrite E in G'; [rewrite G'; exact Hy|]. apply filter_In in G' as [G' _]. exact G'.
Qed.

Lemma override_plain : forall l, Forall plain_entry l -> Forall plain_entry (override_entries l).
Proof. intros l F. rewrite Forall_forall in *. intros x Hx. apply F. now apply override_in. Qed.

Lemma foldM_override : forall r l, Forall plain_entry l -> Forall plain_entry r ->
  foldM merge_entry (override_entries l) r = Some (override_entries (l ++ r)).
Proof.
  intros r l Fl Fr. rewrite foldM_put by (auto; now apply override_plain). f_equal.
  apply (fold_put_override slot_of slot_eqb slot_eqb_spec).
Qed.

(** chains *)
Lemma merge_from_snoc : forall r t x, merge_from t (r ++ [x]) = match merge_from t r with Ok t' => merge_step t' x | e => e end.
Proof.
  induction r as [|y r IH]; intros t x; cbn.
  - destruct (merge_step t x); reflexivity.
  - destruct (merge_step t y); [apply IH|reflexivity|reflexivity].
Qed.

Lemma merge_unfold : forall e r, merge (e :: r) = match merge_from e r with Ok t => Ok (Some t) | Throws w => Throws w | Undefined => Undefined end.
Proof. intros e r. cbn [merge]. now rewrite clone_cAll. Qed.

Lemma chain_meta_snoc : forall e r x,
  info_merge skip_meta_keywords (chain_meta e r) (emeta x) = chain_meta e (r ++ [x]).
Proof.
  intros e r x. unfold chain_meta. rewrite info_merge_override. f_equal. rewrite flat_map_app, <- app_assoc. cbn. rewrite app_nil_r.
  do 2 f_equal. apply filter_ext. intros [k v]. unfold inherited, skip_meta_keywords. cbn. f_equal. rewrite orb_false_r, orb_assoc. reflexivity.
Qed.
Lemma filter_true : forall A (l : list A), filter (fun _ => true) l = l.
Proof. induction l as [|x l IH]; cbn; [reflexivity|now rewrite IH]. Qed.
Lemma chain_attrs_snoc : forall e r x,
  info_merge skip_nothing (chain_attrs e r) (eattrs x) = chain_attrs e (r ++ [x]).
Proof.
  intros e r x. unfold chain_attrs. rewrite info_merge_override. cbn [skip_nothing negb]. unfold skip_nothing. cbn [negb].
  rewrite filter_true, flat_map_app, <- app_assoc. cbn [flat_map]. now rewrite app_nil_r.
Qed.

(** one step on an already merged element *)
Lemma elem_eta : forall e, Elem (ename e) (emeta e) (eattrs e) (ehas e) (edata e) = e.
Proof. now intros []. Qed.

Definition nonempty {A} (l : list A) : bool := match l with [] => false | _ => true end.

Lemma object_chain : forall e r, ekind e = KObject -> Forall (fun x => ekind x = KObject) r ->
  NoDup (map fst (emeta e)) -> NoDup (map fst (eattrs e)) ->
  Forall plain_entry (flat_map entries (e :: r)) -> distinct slot_of slot_eqb (entries e) ->
  exists d, merge_from e r = Ok (Elem (ename e) (chain_meta e r) (chain_attrs e r)
      (ehas e || existsb (fun x => nonempty (entries x)) r) (DObject d)) /\
    ((ehas e || existsb (fun x => nonempty (entries x)) r)%bool = true -> d = override_entries (flat_map entries (e :: r))) /\
    ((ehas e || existsb (fun x => nonempty (entries x)) r)%bool = false -> flat_map entries (e :: r) = []).
Proof.
  intros e r Ke Kr Nm Na. induction r as [|x r IH] using rev_ind; intros Pl Ds.
  - cbn [merge_from existsb]. rewrite orb_false_r. unfold chain_meta, chain_attrs. cbn [flat_map]. rewrite !app_nil_r.
    rewrite !override_info_id by assumption. destruct e as [n m a h d]. cbn in *. unfold ekind in Ke. cbn in Ke.
    destruct d as [| | | | | | |l| | | | |]; try discriminate. exists l. split; [reflexivity|]. unfold entries. cbn.
    split; intros ->; [|reflexivity]. cbn. symmetry. apply (override_distinct slot_of slot_eqb slot_eqb_spec). exact Ds.
  - apply Forall_app in Kr as [Kr Kx]. inversion Kx as [|? ? Kx' _]; subst. rewrite app_comm_cons, flat_map_app in Pl. apply Forall_app in Pl as [Pl Px].
    cbn [flat_map] in Px. rewrite app_nil_r in Px.
    destruct (IH Kr Pl Ds) as (d & E & H1 & H2). rewrite merge_from_snoc, E.
    set (h := (ehas e || existsb (fun x => nonempty (entries x)) r)%bool) in *.
    unfold merge_step. unfold ekind at 2. cbn [edata dsd_kind]. rewrite Kx'. cbn [kind_beq negb]. unfold ekind at 1. cbn [edata dsd_kind].
    unfold element_merge. cbn [set_meta set_attrs emeta eattrs]. rewrite chain_meta_snoc, chain_attrs_snoc.
    rewrite existsb_app. cbn [existsb]. rewrite orb_false_r, orb_assoc. fold h.
    rewrite app_comm_cons, flat_map_app. cbn [flat_map]. rewrite app_nil_r.
    destruct x as [nx mx ax hx dx]. unfold ekind in Kx'. cbn [edata] in Kx'.
    destruct dx as [| | | | | | |lx| | | | |]; try discriminate. cbn [ehas].
    change (entries (Elem nx mx ax hx (DObject lx))) with (if hx then lx else []) in *. destruct hx; cbn [nonempty].
    + unfold value_merge. cbn [edata ehas eset]. destruct lx as [|y lx].
      * exists d. cbn [of_option nonempty]. rewrite orb_false_r, app_nil_r. auto.
      * cbn [nonempty]. rewrite orb_true_r. exists (override_entries (flat_map entries (e :: r) ++ y :: lx)).
        split; [|split; [reflexivity|discriminate]].
        destruct h eqn:Eh.
        -- cbn [edata]. rewrite (H1 eq_refl). rewrite foldM_override by assumption. reflexivity.
        -- cbn [edata]. rewrite (H2 eq_refl).
           assert (F := foldM_override (y :: lx) [] (Forall_nil _) Px). change (override_entries []) with (@nil element) in F.
           rewrite F. reflexivity.
    + exists d. cbn [of_option]. rewrite orb_false_r, app_nil_r. auto.
Qed.

Lemma last_valued_snoc : forall e r x, last_valued e (r ++ [x]) = if ehas x then x else last_valued e r.
Proof.
  intros e r x. unfold last_valued. rewrite app_comm_cons, filter_app. cbn [filter]. destruct (ehas x); [apply last_snoc|now rewrite app_nil_r].
Qed.

Definition primitive (k : kind) : bool := match k with KString | KNumber | KBoolean | KRef => true | _ => false end.

Lemma last_valued_kind : forall e r, Forall (fun x => ekind x = ekind e) r -> ekind (last_valued e r) = ekind e.
Proof.
  intros e r F. induction r as [|x r IH] using rev_ind.
  - unfold last_valued. cbn. destruct (ehas e); reflexivity.
  - apply Forall_app in F as [F1 F2]. inversion F2; subst. rewrite last_valued_snoc. destruct (ehas x); auto.
Qed.

Lemma primitive_chain : forall e r, primitive (ekind e) = true -> Forall (fun x => ekind x = ekind e) r ->
  NoDup (map fst (emeta e)) -> NoDup (map fst (eattrs e)) ->
  merge_from e r = Ok (Elem (ename e) (chain_meta e r) (chain_attrs e r) (existsb ehas (e :: r)) (edata (last_valued e r))).
Proof.
  intros e r Ke Kr Nm Na. induction r as [|x r IH] using rev_ind.
  - cbn [merge_from existsb]. rewrite orb_false_r. unfold chain_meta, chain_attrs, last_valued. cbn [flat_map filter]. rewrite !app_nil_r.
    rewrite !override_info_id by assumption. destruct e as [n m a h d]. cbn. destruct h; reflexivity.
  - apply Forall_app in Kr as [Kr Kx]. inversion Kx as [|? ? Kx' _]; subst. assert (LK := last_valued_kind e r Kr).
    rewrite merge_from_snoc, (IH Kr). unfold merge_step.
    change (ekind (Elem (ename e) (chain_meta e r) (chain_attrs e r) (existsb ehas (e :: r)) (edata (last_valued e r)))) with (ekind (last_valued e r)).
    rewrite LK, Kx'. assert (KB : kind_beq (ekind e) (ekind e) = true) by (destruct (ekind e); reflexivity). rewrite KB. cbn [negb].
    assert (EM : of_option (element_merge (Elem (ename e) (chain_meta e r) (chain_attrs e r) (existsb ehas (e :: r)) (edata (last_valued e r))) x)
      = Ok (Elem (ename e) (chain_meta e (r ++ [x])) (chain_attrs e (r ++ [x])) (existsb ehas (e :: r ++ [x])) (edata (last_valued e (r ++ [x]))))).
    { unfold element_merge. cbn [set_meta set_attrs emeta eattrs]. rewrite chain_meta_snoc, chain_attrs_snoc.
      rewrite last_valued_snoc. rewrite app_comm_cons, existsb_app. cbn [existsb]. rewrite orb_false_r. destruct (ehas x) eqn:Hx.
      - rewrite orb_true_r. unfold value_merge. cbn [edata]. unfold ekind in *. rewrite (dsd_map_id _ clone_all) by (intros; apply clone_all_id).
        destruct (edata (last_valued e r)), (edata x); cbn in *; try congruence; rewrite <- LK in Ke; try discriminate; reflexivity.
      - rewrite orb_false_r. reflexivity. }
    rewrite EM. destruct (ekind e); try discriminate; reflexivity.
Qed.

Lemma array_chain : forall e r, ekind e = KArray -> Forall (fun x => ekind x = KArray) r ->
  NoDup (map fst (emeta e)) -> NoDup (map fst (eattrs e)) ->
  merge_from e r = Ok (Elem (ename e) (chain_meta e r) (chain_attrs e r) (ehas e)
    (if ehas e then DArray (flat_map entries (e :: r)) else edata e)).
Proof.
  intros e r Ke Kr Nm Na. induction r as [|x r IH] using rev_ind.
  - cbn [merge_from]. unfold chain_meta, chain_attrs. cbn [flat_map]. rewrite !app_nil_r.
    rewrite !override_info_id by assumption. destruct e as [n m a h d]. unfold ekind in Ke. cbn in *. unfold entries. cbn.
    destruct h; [|reflexivity]. destruct d; try discriminate. reflexivity.
  - apply Forall_app in Kr as [Kr Kx]. inversion Kx as [|? ? Kx' _]; subst.
    rewrite merge_from_snoc, (IH Kr). unfold merge_step.
    assert (Kt : ekind (Elem (ename e) (chain_meta e r) (chain_attrs e r) (ehas e) (if ehas e then DArray (flat_map entries (e :: r)) else edata e)) = KArray).
    { unfold ekind. cbn [edata]. destruct (ehas e); [reflexivity|exact Ke]. }
    rewrite Kt, Kx'. cbn [kind_beq negb]. unfold element_merge. cbn [set_meta set_attrs emeta eattrs]. rewrite chain_meta_snoc, chain_attrs_snoc.
    rewrite app_comm_cons, flat_map_app. cbn [flat_map]. rewrite app_nil_r.
    destruct x as [nx mx ax hx dx]. unfold ekind in Kx'. cbn [edata] in Kx'. destruct dx as [| | | | |lx| | | | | | |]; try discriminate.
    change (entries (Elem nx mx ax hx (DArray lx))) with (if hx then lx else []). cbn [ehas]. destruct hx.
    + unfold value_merge. cbn [edata ehas]. destruct (ehas e) eqn:He.
      * cbn [eset of_option]. rewrite (map_ext _ (fun x => x) clone_cAll), map_id. reflexivity.
      * unfold ekind in Ke. destruct (edata e); try discriminate. reflexivity.
    + cbn [of_option]. destruct (ehas e); [now rewrite app_nil_r|reflexivity].
Qed.
