From Verif Require Import Base Utf8 Utf8Proofs Element SourceMap SourceMapSpec.
Local Open Scope N_scope.

Definition cnt (l : list N) : nat := List.length (filter (N.eqb 10) l).

Lemma np_length : forall cps i, List.length (newline_positions i cps) = cnt cps.
Proof.
  induction cps as [|c cps IH]; intros i; [reflexivity|]. unfold cnt. cbn [newline_positions filter].
  rewrite N.eqb_sym. destruct (10 =? c); cbn; now rewrite IH.
Qed.

Lemma ub_big : forall cps i x, x < i -> upper_bound (newline_positions i cps) x = O.
Proof.
  induction cps as [|c cps IH]; intros i x H; [reflexivity|]. cbn [newline_positions].
  destruct (c =? 10); cbn [upper_bound].
  - destruct (N.leb_spec i x); [lia|reflexivity].
  - apply IH. lia.
Qed.

Lemma ub_np : forall cps i x, i <= x + 1 ->
  upper_bound (newline_positions i cps) x = cnt (firstn (N.to_nat (x + 1 - i)) cps).
Proof.
  induction cps as [|c cps IH]; intros i x H.
  - now rewrite firstn_nil.
  - destruct (N.eq_dec i (x + 1)) as [->|Ne].
    + rewrite ub_big by lia. now replace (x + 1 - (x + 1)) with 0 by lia.
    + replace (N.to_nat (x + 1 - i)) with (S (N.to_nat (x + 1 - (i + 1)))) by lia.
      cbn [newline_positions firstn]. unfold cnt. cbn [filter]. rewrite (N.eqb_sym 10 c).
      destruct (c =? 10); cbn [upper_bound List.length].
      * destruct (N.leb_spec i x); [|lia]. f_equal. apply IH. lia.
      * apply IH. lia.
Qed.

Lemma ub_index : forall cps x,
  upper_bound (0 :: newline_positions 1 cps) x = S (cnt (upto x cps)).
Proof.
  intros cps x. cbn [upper_bound]. destruct (N.leb_spec 0 x); [|lia]. f_equal.
  rewrite ub_np by lia. unfold upto. do 3 f_equal. lia.
Qed.

(** start of the last line of a prefix *)
Fixpoint start (s i : N) (pre : list N) : N :=
  match pre with
  | [] => s
  | c :: r => if c =? 10 then start i (i + 1) r else start s (i + 1) r
  end.

Lemma nth_start : forall k cps s i,
  nth_error (s :: newline_positions i cps) (cnt (firstn k cps)) = Some (start s i (firstn k cps)).
Proof.
  induction k as [|k IH]; intros cps s i; [reflexivity|]. destruct cps as [|c cps]; [reflexivity|].
  cbn [firstn start newline_positions]. unfold cnt. cbn [filter]. rewrite (N.eqb_sym 10 c).
  destruct (c =? 10).
  - cbn [List.length]. change (nth_error (i :: newline_positions (i + 1) cps) (cnt (firstn k cps)) = Some (start i (i + 1) (firstn k cps))).
    apply IH.
  - specialize (IH cps s (i + 1)). exact IH.
Qed.

Lemma last_line_le : forall l, (List.length (last_line l) <= List.length l)%nat.
Proof.
  induction l as [|c r IH]; [reflexivity|]. cbn. destruct (existsb _ r); [lia|]. destruct (c =? 10); cbn; lia.
Qed.

Lemma last_line_none : forall l, existsb (N.eqb 10) l = false -> last_line l = l.
Proof.
  destruct l as [|c r]; [reflexivity|]. cbn [existsb last_line]. rewrite orb_false_iff. intros [A B]. rewrite B.
  change (10 =? c) with (N.eqb 10 c) in A. rewrite (N.eqb_sym c 10), A. reflexivity.
Qed.

Lemma start_none : forall l s i, existsb (N.eqb 10) l = false -> start s i l = s.
Proof.
  induction l as [|c r IH]; intros s i H; [reflexivity|]. cbn [existsb start] in *. apply orb_false_iff in H as [A B].
  rewrite (N.eqb_sym c 10), A. now apply IH.
Qed.

Lemma start_spec : forall l s i, existsb (N.eqb 10) l = true ->
  start s i l + N.of_nat (List.length (last_line l)) + 1 = i + N.of_nat (List.length l).
Proof.
  induction l as [|c r IH]; intros s i H; [discriminate|]. cbn [existsb] in H. cbn [start last_line].
  destruct (existsb (N.eqb 10) r) eqn:E.
  - destruct (c =? 10); rewrite IH by reflexivity; cbn [List.length]; lia.
  - rewrite orb_false_r, (N.eqb_sym 10 c) in H. rewrite H. rewrite (start_none r _ _ E). cbn [List.length]. lia.
Qed.

Lemma start_column : forall l,
  start 0 1 l + N.of_nat (List.length (last_line l)) = N.of_nat (List.length l).
Proof.
  intros l. destruct (existsb (N.eqb 10) l) eqn:E.
  - assert (H := start_spec l 0 1 E). lia.
  - rewrite (start_none _ _ _ E), (last_line_none _ E). lia.
Qed.

Lemma cnt_app : forall a b, cnt (a ++ b) = (cnt a + cnt b)%nat.
Proof. intros a b. unfold cnt. now rewrite filter_app, app_length. Qed.

Lemma cnt_split : forall p l, cnt l = (cnt (upto p l) + cnt (from p l))%nat.
Proof. intros p l. unfold upto, from. now rewrite <- cnt_app, firstn_skipn. Qed.

Lemma cnt_in : forall l, cnt l <> O <-> In 10 l.
Proof.
  intros l. unfold cnt. split.
  - intros H. destruct (filter (N.eqb 10) l) as [|x r] eqn:E; [now elim H|].
    assert (G : In x (filter (N.eqb 10) l)) by (rewrite E; now left).
    apply filter_In in G as [G1 G2]. apply N.eqb_eq in G2. now subst.
  - intros H E. apply length_zero_iff_nil in E.
    assert (G : In 10 (filter (N.eqb 10) l)) by (apply filter_In; split; [exact H|reflexivity]).
    rewrite E in G. destruct G.
Qed.

Lemma lb_ub : forall l e, 0 < e -> lower_bound l e = upper_bound l (e - 1).
Proof.
  induction l as [|y l IH]; intros e H; [reflexivity|]. cbn.
  destruct (N.ltb_spec y e), (N.leb_spec y (e - 1)); try lia. f_equal. now apply IH.
Qed.

Lemma np_bounds : forall cps i x, In x (newline_positions i cps) -> i <= x.
Proof.
  induction cps as [|c cps IH]; intros i x H; [destruct H|]. cbn in H.
  destruct (c =? 10); [destruct H as [<-|H]; [lia|]|]; apply IH in H; lia.
Qed.

Fixpoint asc (l : list N) : Prop :=
  match l with
  | x :: ((y :: _) as r) => x < y /\ asc r
  | _ => True
  end.

Lemma asc_cons : forall x l, asc l -> (forall y, In y l -> x < y) -> asc (x :: l).
Proof. intros x [|y l] A H; [exact I|]. split; [apply H; now left|exact A]. Qed.

Lemma np_asc : forall cps i, asc (newline_positions i cps).
Proof.
  induction cps as [|c cps IH]; intros i; [exact I|]. cbn [newline_positions].
  destruct (c =? 10); [|apply IH]. apply asc_cons; [apply IH|]. intros y Hy. apply np_bounds in Hy. lia.
Qed.

Lemma asc_last : forall l x d, asc l -> In x l -> x <= last l d.
Proof.
  induction l as [|y l IH]; intros x d A H; [destruct H|]. destruct l as [|z l].
  - destruct H as [<-|[]]. cbn. lia.
  - destruct A as [A1 A2]. destruct H as [<-|H].
    + assert (G := IH z d A2 (or_introl eq_refl)). change (last (y :: z :: l) d) with (last (z :: l) d). lia.
    + exact (IH x d A2 H).
Qed.

Lemma lb_all : forall l e, (forall x, In x l -> x < e) -> lower_bound l e = List.length l.
Proof.
  induction l as [|y l IH]; intros e H; [reflexivity|]. cbn.
  destruct (N.ltb_spec y e) as [_|G]; [|specialize (H y (or_introl eq_refl)); lia].
  f_equal. apply IH. intros x Hx. apply H. now right.
Qed.

Lemma lb_full : forall l e, lower_bound l e = List.length l -> forall x, In x l -> x < e.
Proof.
  induction l as [|y l IH]; intros e H x Hx; [destruct Hx|]. cbn in H.
  destruct (N.ltb_spec y e) as [G|G]; [|discriminate]. destruct Hx as [<-|Hx]; [exact G|].
  apply IH; [now injection H|exact Hx].
Qed.

Lemma last_in : forall A (l : list A) d, l <> [] -> In (last l d) l.
Proof.
  induction l as [|x l IH]; intros d H; [now elim H|]. destruct l as [|y l]; [now left|].
  right. apply IH. discriminate.
Qed.

Lemma last_lb : forall l e, l <> [] -> asc l -> (last l 0 <? e) = Nat.eqb (lower_bound l e) (List.length l).
Proof.
  intros l e Hl A. destruct (N.ltb_spec (last l 0) e) as [H|H]; symmetry.
  - apply Nat.eqb_eq. apply lb_all. intros x Hx. apply (asc_last l x 0 A) in Hx. lia.
  - apply Nat.eqb_neq. intros E. assert (G := lb_full _ _ E _ (last_in _ l 0 Hl)). lia.
Qed.

Lemma upto_length : forall p l, In 10 (from p l) -> N.of_nat (List.length (upto p l)) = p.
Proof.
  intros p l H. unfold upto, from in *. rewrite firstn_length.
  destruct (Nat.le_gt_cases (List.length l) (N.to_nat p)) as [G|G].
  - rewrite skipn_all2 in H by exact G. destruct H.
  - lia.
Qed.

Lemma index_position : forall cps p, In 10 (from p cps) -> p < two64 - 1 ->
  let l := 0 :: newline_positions 1 cps in
  let it := upper_bound l p in
  Nat.eqb it (List.length l) = false /\ N.of_nat it = line_of cps p /\
  exists s, deref_prev l it = Some s /\ s <= p /\ p - s + 1 = column_of cps p.
Proof.
  intros cps p H B l it. subst l it. rewrite ub_index. cbn [List.length]. rewrite np_length. split; [|split].
  - apply Nat.eqb_neq. intros E. injection E as E. rewrite (cnt_split p cps) in E.
    apply cnt_in in H. lia.
  - unfold line_of, newlines. fold (cnt (upto p cps)). lia.
  - exists (start 0 1 (upto p cps)). split; [apply nth_start|].
    assert (C := start_column (upto p cps)). assert (L := upto_length p cps H). unfold column_of. lia.
Qed.

Lemma index_outside : forall cps p, ~ In 10 (from p cps) ->
  let l := 0 :: newline_positions 1 cps in
  upper_bound l p = List.length l.
Proof.
  intros cps p H. cbn zeta. rewrite ub_index. cbn [List.length]. rewrite np_length. f_equal.
  rewrite (cnt_split p cps). assert (G := cnt_in (from p cps)). destruct (cnt (from p cps)); [lia|].
  exfalso. apply H, G. discriminate.
Qed.

Lemma wsub_le : forall a b, b <= a -> a < two64 -> wsub a b = a - b.
Proof.
  intros a b H G. unfold wsub. replace (a + two64 - b) with (a - b + 1 * two64) by lia.
  rewrite N.mod_add by (unfold two64; lia). apply N.mod_small. lia.
Qed.

Lemma index_len : forall cps, N.of_nat (List.length (0 :: newline_positions 1 cps)) = line_of cps (N.of_nat (List.length cps)).
Proof.
  intros cps. cbn [List.length]. rewrite np_length. unfold line_of, upto, newlines. rewrite Nat2N.id, firstn_all.
  fold (cnt cps). lia.
Qed.

Lemma exists_newline : forall l, if existsb (N.eqb 10) l then In 10 l else ~ In 10 l.
Proof.
  intros l. destruct (existsb _ _) eqn:E.
  - apply existsb_exists in E as (x & Hx & Ex). apply N.eqb_eq in Ex. now subst.
  - intros H. assert (G : existsb (N.eqb 10) l = true).
    { apply existsb_exists. exists 10. split; [exact H|reflexivity]. }
    congruence.
Qed.

Lemma get_line_spec : forall cps r, 0 < location r + len r < 2 ^ 63 ->
  let e := location r + len r in
  GetLineFromMap (0 :: newline_positions 1 cps) r = Some (Position
    (if existsb (N.eqb 10) (from (location r) cps) then line_of cps (location r) else 0)
    (if existsb (N.eqb 10) (from (location r) cps) then column_of cps (location r) else 0)
    (if existsb (N.eqb 10) (from (e - 1) cps) then line_of cps (e - 1) else line_of cps (N.of_nat (List.length cps)))
    (if existsb (N.eqb 10) (from (e - 1) cps) then column_of cps (e - 1) else 1)).
Proof.
  intros cps r Hr e. assert (T : two64 = 2 * 2 ^ 63) by reflexivity.
  assert (Hl : location r < two64 - 1) by lia. assert (He : e - 1 < two64 - 1) by (subst e; lia).
  assert (Hmod : (location r + len r) mod two64 = e) by (apply N.mod_small; subst e; lia).
  assert (He0 : 0 < e) by (subst e; lia). assert (He1 : e < two64) by (subst e; lia).
  clearbody e. clear Hr T.
  remember (0 :: newline_positions 1 cps) as l eqn:El.
  assert (Ne : l <> []) by (now subst). assert (As : asc l).
  { subst. apply asc_cons; [apply np_asc|]. intros y Hy. apply np_bounds in Hy. lia. }
  unfold GetLineFromMap. rewrite Hmod.
  assert (From : (if Nat.eqb (upper_bound l (location r)) (List.length l) then Some (0, 0)
      else match deref_prev l (upper_bound l (location r)) with
           | Some p => Some (N.of_nat (upper_bound l (location r)), (wsub (location r) p + 1) mod two64)
           | None => None end) = Some
      (if existsb (N.eqb 10) (from (location r) cps) then line_of cps (location r) else 0,
       if existsb (N.eqb 10) (from (location r) cps) then column_of cps (location r) else 0)).
  { assert (EX := exists_newline (from (location r) cps)). destruct (existsb (N.eqb 10) (from (location r) cps)).
    - destruct (index_position cps (location r) EX Hl) as (A & B & s & D & S1 & S2). rewrite <- El in A, B, D.
      rewrite A, D, wsub_le, B by lia. do 2 f_equal. rewrite N.mod_small by lia. exact S2.
    - assert (A := index_outside cps (location r) EX). cbn zeta in A. rewrite <- El in A.
      rewrite A, Nat.eqb_refl. reflexivity. }
  rewrite From. clear From. rewrite (last_lb l e Ne As), (lb_ub l e He0).
  destruct l as [|x0 l0] eqn:El'; [congruence|]. rewrite <- El' in *. clear El' x0 l0.
  assert (EX := exists_newline (from (e - 1) cps)). destruct (existsb (N.eqb 10) (from (e - 1) cps)).
  - destruct (index_position cps (e - 1) EX He) as (A & B & s & D & S1 & S2). rewrite <- El in A, B, D.
    rewrite A, D, B. rewrite wsub_le by lia. do 2 f_equal. lia.
  - assert (A := index_outside cps (e - 1) EX). cbn zeta in A. rewrite <- El in A.
    rewrite A, Nat.eqb_refl. do 2 f_equal. rewrite El. apply index_len.
Qed.
