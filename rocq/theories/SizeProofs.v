(** The size the code computes is the number of values *)
From Verif Require Import Base SoValue Element Extend Expand ExpandShape JsonSpec GenSpec ElementUtils JsonValue ConformSpec ConformProofs ConformObject CountSpec CountProofs Prop_Gen ConformValid GenConv.

Definition small (c : N) : Prop := (c < 2 ^ 32)%N.
Definition sized (n : nat) (e : element) (inh : bool) (k : enat) : Prop :=
  forall c, size_of n e inh = Some (Ok c) -> small c /\ reading c = k.

Lemma noexc_ok : forall A (m : run A) a, noexc m = Some (Ok a) -> m = Some (Ok a).
Proof. intros A [[x|t|]|] a H; cbn in H; try discriminate; exact H. Qed.
Definition size_fold (op : N -> N -> N) (n : nat) (f : bool) (a : N) (l : list element) : run N :=
  foldR (fun a b => bind (size_of n b f) (fun x => ret (op a x))) a l.

Lemma fold_sized : forall (op : N -> N -> N) (eop : enat -> enat -> enat) n f,
  (forall a b, small a -> small b -> fits (eop (reading a) (reading b)) -> small (op a b) /\ reading (op a b) = eop (reading a) (reading b)) ->
  forall l ks, Forall2 (fun x k => sized n x f k) l ks -> forall a c, small a -> prefixes_fit eop (reading a) ks ->
  size_fold op n f a l = Some (Ok c) -> small c /\ reading c = fold_left eop ks (reading a).
Proof.
  intros op eop n f H l ks F. induction F as [|x k l ks Sx F IH]; intros a c Sa Pf R.
  - injection R as <-. auto.
  - unfold size_fold in R. apply foldR_ok in R as (a' & R1 & R2). ob R1. injection R1 as <-. destruct (Sx _ E) as [S1 S2].
    assert (F1 := Pf 1). cbn [firstn fold_left] in F1. rewrite <- S2 in F1. destruct (H a a0 Sa S1 F1) as [H1 H2].
    cbn [fold_left]. rewrite <- S2, <- H2. apply IH; auto. intros m. rewrite H2, S2. exact (Pf (S m)).
Qed.
Lemma mult_sized : forall n f l ks c, Forall2 (fun x k => sized n x f k) l ks -> prefixes_fit emul (Fin 1) ks ->
  noexc (size_fold c_mul n f 1%N l) = Some (Ok c) -> small c /\ reading c = product ks.
Proof.
  intros n f l ks c F P R. apply noexc_ok in R. apply (fold_sized c_mul emul n f) with (ks := ks) in R; auto; try reflexivity. intros a b. apply C26_mul.
Qed.
Lemma sum_sized : forall n f l ks c, Forall2 (fun x k => sized n x f k) l ks -> prefixes_fit eadd (Fin 0) ks ->
  noexc (size_fold c_add n f 0%N l) = Some (Ok c) -> small c /\ reading c = sum ks.
Proof.
  intros n f l ks c F P R. apply noexc_ok in R. apply (fold_sized c_add eadd n f) with (ks := ks) in R; auto; try reflexivity. intros a b. apply C26_add.
Qed.
Lemma all_forall : forall f l ks, all_counted f l ks -> Forall2 (fun x k => counted f x k) l ks.
Proof. induction 1; constructor; auto. Qed.
Lemma null_sized : forall e s k k' c, small s -> reading s = k -> or_null e k k' ->
  bind (lift (has_type_attr e "nullable")) (fun b => ret (if b then c_add s 1 else s)%N) = Some (Ok c) -> small c /\ reading c = k'.
Proof.
  intros e s k k' c S Hs O R. subst k. ob R. injection R as <-. apply lift_ok in E. apply declares_iff in E.
  destruct O as [[N ->]|(D & -> & F)]; destruct a; auto.
  - exfalso. apply N, E. reflexivity.
  - apply C26_add; auto. reflexivity.
  - exfalso. apply E in D. discriminate D.
Qed.
Lemma open_small : small c_open /\ reading c_open = Inf.
Proof. split; reflexivity. Qed.
Lemma fixed_flag : forall (inh : bool) e (m : run bool) b, m = (if inh then ret true else lift (has_type_attr e "fixed")) -> m = Some (Ok b) ->
  (b = true <-> fixed inh e).
Proof.
  intros inh e m b -> H. unfold fixed. destruct inh; [injection H as <-; tauto|]. apply lift_ok in H. apply declares_iff in H. rewrite H.
  split; [auto|intros [K|K]; [discriminate|exact K]].
Qed.
Lemma defines_spec : forall e, defines_value e = true <-> defines e.
Proof. exact defines_iff. Qed.

Theorem counted_sized : forall n inh e k, counted inh e k -> sized n e inh k.
Proof.
  induction n as [n IHn] using lt_wf_ind. intros inh e k C c R. destruct n as [|n]; [discriminate|].
  assert (IH : forall inh e k, counted inh e k -> sized n e inh k) by (intros; apply IHn; [lia|assumption]).
  assert (All : forall f l ks, all_counted f l ks -> Forall2 (fun x k => sized n x f k) l ks).
  { intros f l ks A. apply all_forall in A. clear -A IH. induction A; constructor; auto. }
  assert (Prim : primitive e -> exists x, (if (defines_value e && inh)%bool then x = true else has_type_attr e "fixed" = Some x) /\
      bind (lift (has_type_attr e "nullable")) (fun y => ret (let s := if x then 1%N else match edata e with DBoolean _ => 2%N | _ => c_open end in if y then c_add s 1 else s)%N) = Some (Ok c)).
  { intros P. assert (R' := R). cbn [size_of] in R'. unfold primitive in P. destruct (edata e); try destruct P; ob R'; exists a; split; try exact R'.
    all: destruct (defines_value e && inh)%bool; [now injection E as <-|now apply lift_ok in E]. }
  inversion C as [inh' e' D|inh' e' k' P F H O|inh' e' k' P F N O|inh' e' l f ks names k' D Af Cl H M Nd Pf O|inh' e' l ks k' D F H A Pf O
    |inh' e' l f k' D Af Cl H O|inh' e' l k' D F H O|inh' e' l ks k' D Hi F Ft H A Ex O|inh' e' l k' D Hi F Ft O
    |inh' e' v n0 m0 a0 l f ks k' D Af En A Pf Dj Nn O|inh' e' x k' H D Cx|inh' e' t x k' D Rs Cx|inh' e' l x k' H D M Cx]; subst.
  - cbn [size_of] in R. rewrite D in R. injection R as <-. split; reflexivity.
  - (* fixed *)
    destruct (Prim P) as (x & Hx & Rn). rewrite (proj2 (defines_spec e) (or_introl H)) in Hx. cbn [andb] in Hx.
    assert (x = true).
    { destruct inh; [exact Hx|]. destruct F as [F|F]; [discriminate|]. apply declares_iff in Hx. now apply Hx. }
    subst x. apply (null_sized e 1 (Fin 1) k c) in Rn; auto; reflexivity.
  - (* open *)
    destruct (Prim P) as (x & Hx & Rn).
    assert (x = false).
    { destruct (defines_value e && inh)%bool eqn:B.
      - apply andb_true_iff in B as [B ->]. exfalso. apply (N eq_refl). now apply defines_spec.
      - apply declares_iff in Hx. destruct x; [|reflexivity]. exfalso. now apply F, Hx. }
    subst x. eapply null_sized in Rn; [exact Rn| | |exact O].
    + destruct (edata e); reflexivity.
    + unfold primitive in P. destruct (edata e); try destruct P; reflexivity.
  - (* object *)
    cbn [size_of] in R. rewrite D in R. ob R. ob R. ob R.
    assert (a = f).
    { apply (fixed_flag inh e) in E; [|reflexivity]. unfold fixed, adds in *. apply Bool.eq_iff_eq_true. tauto. }
    subst a. assert (a0 = true).
    { destruct f; [now injection E0 as <-|]. apply lift_ok in E0. apply declares_iff in E0. destruct Cl as [Cl|Cl]; [discriminate|]. now apply E0. }
    subst a0. rewrite H in E1. apply (mult_sized n f l ks) in E1; auto.
    + destruct E1 as [S1 S2]. now apply (null_sized e a1 (product ks) k c).
    + clear -M IHn. induction M as [|f m l km x key names kc ks D H Dk Hk V N O C M IHM]; constructor; auto.
      intros c R. destruct n as [|n]; [discriminate|]. cbn [size_of] in R. rewrite D, H in R.
      assert (is_variable m = false) as W by (destruct (is_variable m) eqn:W; [exfalso; now apply V, variable_iff|reflexivity]). rewrite W in R. ob R.
      destruct (IHn n ltac:(lia) f x kc C a E) as [S1 S2].
      assert (Mu : c_mul 1 a = a).
      { unfold c_mul, c_open, modulus, small in *. cbn [N.eqb orb]. destruct (N.eqb_spec a 0) as [->|]; [reflexivity|].
        change (1 =? 4294967295)%N with false. cbn [orb]. destruct (N.eqb_spec a 4294967295) as [->|]; [reflexivity|]. rewrite N.mul_1_l. apply N.mod_small. exact S1. }
      rewrite Mu in R. apply (null_sized m a kc kc c) in R; auto. left. auto.
  - (* tuple *)
    cbn [size_of] in R. rewrite D in R. ob R. apply (fixed_flag inh e) in E; [|reflexivity]. apply E in F. subst a. ob R. rewrite H in E0.
    apply (mult_sized n true l ks) in E0; auto. destruct E0 as [S1 S2]. now apply (null_sized e a (product ks) k c).
  - (* object without members *)
    cbn [size_of] in R. rewrite D in R. ob R. ob R. ob R.
    assert (a = f).
    { apply (fixed_flag inh e) in E; [|reflexivity]. unfold fixed, adds in *. apply Bool.eq_iff_eq_true. tauto. }
    subst a. assert (a0 = true).
    { destruct f; [now injection E0 as <-|]. apply lift_ok in E0. apply declares_iff in E0. destruct Cl as [Cl|Cl]; [discriminate|]. now apply E0. }
    subst a0. rewrite H in E1. injection E1 as <-. now apply (null_sized e 1 (Fin 1) k c).
  - (* array without entries *)
    cbn [size_of] in R. rewrite D in R. ob R. apply (fixed_flag inh e) in E; [|reflexivity]. apply E in F. subst a. ob R. rewrite H in E0. injection E0 as <-.
    now apply (null_sized e 1 (Fin 1) k c).
  - (* typed array *)
    cbn [size_of] in R. rewrite D in R. ob R. apply (fixed_flag false e) in E; [|reflexivity]. destruct a; [exfalso; destruct (proj1 E eq_refl); [discriminate|contradiction]|].
    ob R. apply lift_ok in E0. apply declares_iff in E0. destruct a; [|exfalso; apply E0 in Ft; discriminate]. rewrite H in R. ob R.
    now apply (null_sized e c_open Inf k c).
  - (* open array *)
    cbn [size_of] in R. rewrite D in R. ob R. apply (fixed_flag false e) in E; [|reflexivity]. destruct a; [exfalso; destruct (proj1 E eq_refl); [discriminate|contradiction]|].
    ob R. apply lift_ok in E0. apply declares_iff in E0. destruct a; [exfalso; now apply Ft, E0|]. now apply (null_sized e c_open Inf k c).
  - (* enum *)
    cbn [size_of] in R. rewrite D in R. unfold enum_entries in R. rewrite En in R. change (is_kind KArray (Elem n0 m0 a0 true (DArray l))) with true in R. cbv iota in R.
    ob R. assert (a = f).
    { apply (fixed_flag inh e) in E; [|reflexivity]. unfold fixed, adds in *. apply Bool.eq_iff_eq_true. tauto. }
    subst a. ob R. apply (sum_sized n f l ks) in E0; auto. destruct E0 as [S1 S2]. now apply (null_sized e a (sum ks) k c).
  - cbn [size_of] in R. rewrite D, H in R. exact (IH _ _ _ Cx _ R).
  - cbn [size_of] in R. rewrite D in R. ob R. apply lift_ok in E. unfold resolve in E. rewrite Rs in E. injection E as <-. exact (IH _ _ _ Cx _ R).
  - cbn [size_of] in R. rewrite D, H in R. ob R. unfold of_res in E. rewrite M in E. injection E as <-. exact (IH _ _ _ Cx _ R).
Qed.
