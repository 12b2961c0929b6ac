From Coq Require Import Permutation.
From Verif Require Import Base SoValue SoValueSpec SoValueProofs PatternSpec PatternProofs SchemaSpec ValidProofs Element Extend Registry Expand
  ExpandShape ElementUtils JsonValue JsonSchema GenConv BodyProofs SchemaProofs ConformSpec ConformProofs.

Lemma foldR_ok : forall A B (f : A -> B -> run A) a x r b, foldR f a (x :: r) = Some (Ok b) ->
  exists a', f a x = Some (Ok a') /\ foldR f a' r = Some (Ok b).
Proof. intros. cbn in H. ob H. eauto. Qed.

(** ** the schema side of a member *)
Record srec : Type := SR { t_key : string; t_pat : option string; t_fs : list field; t_req : bool }.
Definition step (s : oschema) (t : srec) : oschema :=
  match t_pat t with
  | Some p => OS (os_props s) (emplace_unique (os_patterns s) p (VObject (t_fs t))) (os_required s) (os_allOf s)
  | None => OS (os_props s ++ [(t_key t, VObject (t_fs t))]) (os_patterns s)
               (if t_req t then os_required s ++ [t_key t] else os_required s) (os_allOf s)
  end.
Definition pattern_key (k k' : element) : Prop :=
  (k' = k \/ exists l, edata k = DExtend l /\ merge l = Ok (Some k')) /\ is_kind KString k' = true.
Definition srel (n : nat) (b : bool) (m : element) (t : srec) : Prop :=
  exists k x f ft nl opt rq, edata m = DMember (Some k) (Some x) /\
    has_type_attr m "fixed" = Some f /\ has_type_attr m "fixedType" = Some ft /\ has_type_attr m "nullable" = Some nl /\
    has_type_attr m "optional" = Some opt /\
    (exists n', n' < n /\ render_schema n' x (SO (b || f) ft nl rq) = Some (Ok (t_fs t))) /\
    ((is_variable m = true /\ exists k' p, pattern_key k k' /\ render_pattern k' (SO (b || f) ft nl rq) = Some (Ok p) /\ t_pat t = Some p) \/
     (is_variable m = false /\ t_pat t = None /\ member_key k = Some (t_key t) /\ (t_req t = true -> opt = false))).
Lemma srel_le : forall n n' b m t, n <= n' -> srel n b m t -> srel n' b m t.
Proof.
  intros n n' b m t L (k & x & f & ft & nl & opt & rq & A & B & C & D & E & (n2 & Hn & R) & F).
  exists k, x, f, ft, nl, opt, rq. repeat (split; [assumption|]). split; [|exact F]. exists n2. split; [lia|exact R].
Qed.
Lemma Forall2_imp : forall A B (R S : A -> B -> Prop) xs ys, (forall a b, R a b -> S a b) -> Forall2 R xs ys -> Forall2 S xs ys.
Proof. intros A B R S xs ys I F. induction F; constructor; auto. Qed.

Lemma sprop_fold : forall n fx b o, (forall x ms s s', flat fx x ms -> render_sproperty n s x o = Some (Ok s') ->
    exists T, s' = fold_left step T s /\ Forall2 (srel n b) ms T) ->
  forall l mss, Forall2 (flat fx) l mss -> forall s s', foldR (fun s x => render_sproperty n s x o) s l = Some (Ok s') ->
  exists T, s' = fold_left step T s /\ Forall2 (srel n b) (concat mss) T.
Proof.
  intros n fx b o H l mss F. induction F as [|x ms l mss Fx F IH]; intros s s' R.
  - injection R as <-. exists []. split; [reflexivity|constructor].
  - apply foldR_ok in R as (s1 & R1 & R2). destruct (H _ _ _ _ Fx R1) as (T1 & -> & S1). destruct (IH _ _ R2) as (T2 & -> & S2).
    exists (T1 ++ T2)%list. split; [now rewrite fold_left_app|]. cbn. now apply Forall2_app.
Qed.
Lemma fmap_extend : forall k k', edata k = DExtend k' -> forall x, merged k = Some (Ok x) -> exists l, edata k = DExtend l /\ merge l = Ok (Some x).
Proof. intros k k' E x M. apply merged_list in M as (l & _ & H & Hm). eauto. Qed.

Lemma sprop_flat : forall n fx x ms b o s s', flat fx x ms -> (b = true -> fx = true) -> s_fixed o = b ->
  render_sproperty n s x o = Some (Ok s') -> exists T, s' = fold_left step T s /\ Forall2 (srel n b) ms T.
Proof.
  induction n as [|n IH]; intros fx x ms b o s s' F Hb Ho R; [discriminate|].
  assert (Le : forall ms T, Forall2 (srel n b) ms T -> Forall2 (srel (S n) b) ms T).
  { intros ms0 T. apply Forall2_imp. intros m t. apply srel_le. lia. }
  destruct F as [e k v D|e D|e y ms H D F|e t y ms D Hy F|e l y ms D Hy F|e l mss D H Hfx Nf F|e l D H Ns]; cbn [render_sproperty] in R; rewrite ?D in R.
  - ob R. ob R. ob R. ob R. ob R. apply lift_ok in E, E0, E1, E2, E3. cbv zeta in R. destruct (negb (ehas e)); [discriminate|]. ob R. apply lift_ok in E4. subst k.
    destruct (is_variable e) eqn:V.
    + ob R. ob R. ob R. ob R. injection R as <-. apply lift_ok in E6. subst v.
      exists [SR "" (Some a6) a8 false]. split; [reflexivity|]. constructor; [|constructor].
      exists a4, a7, a, a0, a1, a3. eexists. repeat (split; [eassumption|]). rewrite <- Ho. split; [exists n; split; [lia|exact E7]|].
      left. split; [exact V|]. exists a5, a6. split; [|split; [exact E5|reflexivity]].
      unfold pattern_key. destruct (edata a4) as [|d0|ds|ds|db|l|kk v|l|d0|ds|l|l|l] eqn:D4; try discriminate E4.
      * injection E4 as <-. split; [now left|]. unfold is_kind, ekind. now rewrite D4.
      * ob E4. destruct (is_kind KString a9) eqn:K; [|discriminate]. injection E4 as <-. split; [|exact K].
        right. destruct (fmap_extend a4 l D4 _ E6) as (l2 & D2 & M2). exists l2. split; congruence.
    + ob R. ob R. ob R. injection R as <-. apply lift_ok in E4, E5. subst v.
      exists [SR a5 None a7 ((s_required o || a2) && negb a3)]. split; [reflexivity|]. constructor; [|constructor].
      exists a4, a6, a, a0, a1, a3. eexists. repeat (split; [eassumption|]). rewrite <- Ho. split; [exists n; split; [lia|exact E6]|].
      right. split; [exact V|]. split; [reflexivity|]. split; [exact E4|]. cbn. intros T. apply andb_true_iff in T as [_ T]. now apply negb_true_iff in T.
  - exists []. split; [|constructor]. cbn. destruct (edata e); try destruct D; now injection R as <-.
  - rewrite H in R. destruct (IH _ _ _ _ _ _ _ F Hb Ho R) as (T & -> & S). exists T. auto.
  - unfold resolve in R. rewrite Hy in R. cbn in R. destruct (IH _ _ _ _ _ _ _ F Hb Ho R) as (T & -> & S). exists T. auto.
  - ob R. apply merged_list in E as (l' & _ & D' & M). assert (a = y) by congruence. subst a.
    destruct (IH _ _ _ _ _ _ _ F Hb Ho R) as (T & -> & S). exists T. auto.
  - subst fx. assert (b = false) by (destruct b; [now discriminate Hb|reflexivity]). subst b.
    ob R. apply lift_ok in E. assert (a = false). { destruct a; [|reflexivity]. exfalso. apply Nf. now apply (declares_iff e "fixed" true). } subst a.
    rewrite H in R. rewrite H0 in R. cbn [orb] in R.
    destruct (sprop_fold n false false (SO false false false false)) with (l := l) (mss := mss) (s := s) (s' := s') as (T & -> & S); auto.
    + intros x ms s0 s0' Fx Rx. apply (IH false x ms false (SO false false false false) s0 s0' Fx); [discriminate|reflexivity|exact Rx].
    + exists T. split; [reflexivity|]. apply Le. now rewrite H0.
  - exists []. split; [|constructor]. ob R. rewrite H in R. now injection R as <-.
Qed.

(** ** the body side of a member *)
Definition brel (n : nat) (b : bool) (m : element) (r : option (string * value)) : Prop :=
  exists k vx f nl opt, edata m = DMember (Some k) vx /\ has_type_attr m "fixed" = Some f /\ has_type_attr m "nullable" = Some nl /\
    has_type_attr m "optional" = Some opt /\
    ((r = None /\ (opt = true \/ exists n', render_key n' k = Some (Ok ""%string))) \/
     (exists x key v n' n'', vx = Some x /\ r = Some (key, v) /\ n' < n /\ key <> ""%string /\ render_key n'' k = Some (Ok key) /\ render_value n' x (VO (b || f) nl) = Some (Ok v))).
Lemma brel_le : forall n n' b m t, n <= n' -> brel n b m t -> brel n' b m t.
Proof.
  intros n n' b m t L (k & vx & f & nl & opt & A & B & C & D & [E|(x & key & v & n1 & n2 & X & E & F & G)]); exists k, vx, f, nl, opt; repeat (split; [assumption|]); [now left|].
  right. exists x, key, v, n1, n2. split; [exact X|]. split; [exact E|]. split; [lia|exact G].
Qed.
Fixpoint somes {A} (l : list (option A)) : list A :=
  match l with [] => [] | Some a :: r => a :: somes r | None :: r => somes r end.
Lemma somes_app : forall A (l r : list (option A)), somes (l ++ r) = (somes l ++ somes r)%list.
Proof. intros A l r. induction l as [|[a|] l IH]; cbn; [reflexivity| |]; now rewrite IH. Qed.
Lemma emplace_all_app : forall a b obj, emplace_all obj (a ++ b) = emplace_all (emplace_all obj a) b.
Proof. induction a as [|[k v] a IH]; intros b obj; cbn; [reflexivity|apply IH]. Qed.
Lemma emplace_comm : forall ms k v k' v', k <> k' -> In k (map fst ms) ->
  emplace_unique (emplace_unique ms k' v') k v = emplace_unique (emplace_unique ms k v) k' v'.
Proof.
  induction ms as [|[k0 v0] r IH]; intros k v k' v' N H; [destruct H|]. cbn [emplace_unique].
  destruct (String.eqb_spec k0 k') as [E1|E1], (String.eqb_spec k0 k) as [E2|E2]; try congruence; cbn [emplace_unique].
  - destruct (String.eqb_spec k0 k); [congruence|]. destruct (String.eqb_spec k0 k'); [reflexivity|congruence].
  - destruct (String.eqb_spec k0 k); [|congruence]. destruct (String.eqb_spec k0 k'); [congruence|reflexivity].
  - destruct (String.eqb_spec k0 k); [congruence|]. destruct (String.eqb_spec k0 k'); [congruence|].
    f_equal. apply IH; [exact N|]. destruct H; [cbn in *; congruence|assumption].
Qed.
Lemma emplace_twice : forall ms k v v', emplace_unique (emplace_unique ms k v') k v = emplace_unique ms k v.
Proof.
  induction ms as [|[k0 v0] r IH]; intros k v v'; cbn [emplace_unique]; [now rewrite String.eqb_refl|].
  destruct (String.eqb_spec k0 k) as [->|N]; cbn [emplace_unique]; [now rewrite String.eqb_refl|].
  destruct (String.eqb_spec k0 k); [congruence|]. now rewrite IH.
Qed.
Lemma emplace_key : forall ms k v, In k (map fst (emplace_unique ms k v)).
Proof. intros. rewrite keys_emplace. destruct (in_dec string_dec k (map fst ms)); rewrite in_app_iff; cbn; auto. Qed.
Lemma emplace_all_late : forall r obj k v, In k (map fst obj) -> ~ In k (map fst r) ->
  emplace_unique (emplace_all obj r) k v = emplace_all (emplace_unique obj k v) r.
Proof.
  induction r as [|[k' v'] r IH]; intros obj k v H N; [reflexivity|]. cbn [emplace_all].
  rewrite IH; [|rewrite keys_emplace, in_app_iff; now left|intros I; apply N; now right].
  rewrite emplace_comm; [reflexivity|intros ->; apply N; now left|exact H].
Qed.
Lemma emplace_all_emplace : forall X obj k v, NoDup (map fst X) -> emplace_all obj (emplace_unique X k v) = emplace_unique (emplace_all obj X) k v.
Proof.
  induction X as [|[k' v'] r IH]; intros obj k v N; [reflexivity|]. cbn [emplace_unique]. inversion N as [|? ? Nk Nr]; subst.
  destruct (String.eqb_spec k' k) as [->|E]; cbn [emplace_all]; [|now apply IH].
  rewrite emplace_all_late; [now rewrite emplace_twice|apply emplace_key|exact Nk].
Qed.
Lemma emplace_all_nodup : forall B X, NoDup (map fst X) -> NoDup (map fst (emplace_all X B)).
Proof. induction B as [|[k v] B IH]; intros X N; [exact N|]. cbn. apply IH. now apply nodup_emplace. Qed.
Lemma emplace_all_all : forall B X obj, NoDup (map fst X) -> emplace_all obj (emplace_all X B) = emplace_all (emplace_all obj X) B.
Proof.
  induction B as [|[k v] B IH]; intros X obj N; [reflexivity|]. cbn [emplace_all].
  rewrite IH by now apply nodup_emplace. now rewrite emplace_all_emplace.
Qed.
Lemma emplace_all_new : forall B obj, NoDup (map fst (obj ++ B)) -> emplace_all obj B = (obj ++ B)%list.
Proof.
  induction B as [|[k v] B IH]; intros obj N; cbn [emplace_all]; [now rewrite app_nil_r|].
  rewrite emplace_absent.
  - rewrite IH; [now rewrite <- app_assoc|]. now rewrite <- app_assoc.
  - rewrite map_app in N. apply NoDup_remove_2 in N. intros H. apply N, in_or_app. now left.
Qed.

Lemma viop_false : forall n x nl o', v_inherit_or_pass n (VO false nl) x = Some (Ok o') -> o' = VO false false.
Proof. intros n x nl o' H. unfold v_inherit_or_pass in H. ob H. injection H as <-. cbn. now destruct a. Qed.

Lemma prop_flat : forall n fx x ms b obj obj', flat fx x ms -> (b = true -> fx = true) ->
  render_property n obj x (VO b false) = Some (Ok obj') -> exists B, obj' = emplace_all obj (somes B) /\ Forall2 (brel n b) ms B.
Proof.
  induction n as [n IH] using lt_wf_ind. intros fx x ms b obj obj' F Hb R. destruct n as [|n]; [discriminate|].
  assert (Le : forall ms n' T, n' <= S n -> Forall2 (brel n' b) ms T -> Forall2 (brel (S n) b) ms T).
  { intros ms0 n' T L. apply Forall2_imp. intros m t. now apply brel_le. }
  destruct F as [e k v D|e D|e y ms H D F|e t y ms D Hy F|e l y ms D Hy F|e l mss D H Hfx Nf F|e l D H Ns]; cbn [render_property] in R; rewrite ?D in R.
  - ob R. apply v_update_ok in E as (f & nl & Hf & Hn & ->). cbn [o_fixed o_nullable orb] in R. destruct (negb (ehas e)); [discriminate|].
    ob R. apply lift_ok in E. subst k. ob R. apply lift_ok in E. ob R. rename a into k, a0 into opt, a1 into omit.
    destruct omit.
    { injection R as <-. exists [None]. split; [reflexivity|]. constructor; [|constructor]. exists k, v, f, nl, opt. repeat (split; [assumption|]).
      left. split; [reflexivity|]. left. destruct opt; [reflexivity|discriminate E0]. }
    ob R. destruct a as [|c key].
    { injection R as <-. exists [None]. split; [reflexivity|]. constructor; [|constructor]. exists k, v, f, nl, opt. repeat (split; [assumption|]).
      left. split; [reflexivity|]. right. now exists n. }
    ob R. ob R. injection R as <-. apply lift_ok in E2. exists [Some (String c key, a0)]. split; [reflexivity|]. constructor; [|constructor].
    exists k, v, f, nl, opt. repeat (split; [assumption|]). right. exists a, (String c key), a0, n, n.
    split; [exact E2|]. split; [reflexivity|]. split; [lia|]. split; [discriminate|]. split; [exact E1|exact E3].
  - exists []. split; [|constructor]. cbn. destruct (edata e); try destruct D; now injection R as <-.
  - rewrite H in R. destruct (IH n ltac:(lia) _ _ _ _ _ _ F Hb R) as (T & -> & S). exists T. split; [reflexivity|]. apply (Le _ n); [lia|exact S].
  - unfold resolve in R. rewrite Hy in R. cbn in R. destruct (IH n ltac:(lia) _ _ _ _ _ _ F Hb R) as (T & -> & S). exists T. split; [reflexivity|]. apply (Le _ n); [lia|exact S].
  - ob R. apply merged_list in E as (l' & _ & D' & M). assert (a = y) by congruence. subst a.
    destruct (IH n ltac:(lia) _ _ _ _ _ _ F Hb R) as (T & -> & S). exists T. split; [reflexivity|]. apply (Le _ n); [lia|exact S].
  - subst fx. assert (b = false) by (destruct b; [now discriminate Hb|reflexivity]). subst b.
    ob R. destruct n as [|n]; [discriminate E|]. cbn [render_value] in E. rewrite D in E. ob E. rewrite H in E.
    apply v_update_ok in E0 as (f & nl & Hf & Hn & ->). cbn [o_fixed o_nullable orb] in E.
    assert (f = false). { destruct f; [|reflexivity]. exfalso. apply Nf. now apply (declares_iff e "fixed" true). } subst f.
    ob E. injection E as <-. injection R as <-.
    assert (G : forall l mss, Forall2 (flat false) l mss -> forall obj0 obj1,
       foldR (fun obj x => bind (v_inherit_or_pass n (VO false nl) x) (fun o' => render_property n obj x o')) obj0 l = Some (Ok obj1) ->
       exists B, obj1 = emplace_all obj0 (somes B) /\ Forall2 (brel n false) (concat mss) B).
    { clear -IH. intros l mss F. induction F as [|x ms l mss Fx F IHF]; intros obj0 obj1 R.
      - injection R as <-. exists []. split; [reflexivity|constructor].
      - apply foldR_ok in R as (s1 & R1 & R2). ob R1. apply viop_false in E. subst a.
        destruct (IH n ltac:(lia) _ _ _ false _ _ Fx ltac:(discriminate) R1) as (T1 & -> & S1). destruct (IHF _ _ R2) as (T2 & -> & S2).
        exists (T1 ++ T2)%list. split; [now rewrite somes_app, emplace_all_app|]. cbn. now apply Forall2_app. }
    destruct (G _ _ F _ _ E0) as (B & -> & SB). exists B. split.
    + now rewrite emplace_all_all by constructor.
    + apply (Le _ n); [lia|exact SB].
  - ob R. destruct n as [|n]; [discriminate E|]. cbn [render_value] in E. rewrite D in E. ob E. rewrite H in E.
    exists []. split; [|constructor]. cbn. ob E. apply sdn_ok in E1 as [(x & w & Fx & _)|(_ & ->)].
    + exfalso. apply Ns. exists x. now apply fallback_iff.
    + destruct (o_nullable a0); injection E as <-; injection R as <-; reflexivity.
Qed.
