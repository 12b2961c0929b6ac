From Verif Require Import Base SoValue.

(** nested induction principle *)
Section ValueInd.
  Variable P : value -> Prop.
  Hypothesis Hnull : P VNull.
  Hypothesis Htrue : P VTrue.
  Hypothesis Hfalse : P VFalse.
  Hypothesis Hstr : forall s, P (VString s).
  Hypothesis Hnum : forall s, P (VNumber s).
  Hypothesis Hobj : forall ms, Forall (fun kv => P (snd kv)) ms -> P (VObject ms).
  Hypothesis Harr : forall vs, Forall P vs -> P (VArray vs).
  Fixpoint value_ind' (v : value) : P v :=
    match v with
    | VNull => Hnull
    | VTrue => Htrue
    | VFalse => Hfalse
    | VString s => Hstr s
    | VNumber s => Hnum s
    | VObject ms => Hobj ms ((fix go (l : list (string * value)) : Forall (fun kv => P (snd kv)) l :=
        match l with [] => Forall_nil _ | x :: r => Forall_cons x (value_ind' (snd x)) (go r) end) ms)
    | VArray vs => Harr vs ((fix go (l : list value) : Forall P l :=
        match l with [] => Forall_nil _ | x :: r => Forall_cons x (value_ind' x) (go r) end) vs)
    end.
End ValueInd.


From Coq Require Import Permutation.
From Verif Require Import SoValueSpec.

Lemma unique_keys_obj : forall ms,
  unique_keys (VObject ms) <-> NoDup (map fst ms) /\ Forall (fun kv => unique_keys (snd kv)) ms.
Proof.
  intros ms. cbn [unique_keys]. apply and_iff_compat_l.
  induction ms as [|kv r IH]; [split; constructor|].
  rewrite IH, Forall_cons_iff. reflexivity.
Qed.
Lemma unique_keys_arr : forall vs, unique_keys (VArray vs) <-> Forall unique_keys vs.
Proof.
  intros vs. cbn [unique_keys]. induction vs as [|v r IH]; [split; constructor|].
  rewrite IH, Forall_cons_iff. reflexivity.
Qed.

Lemma veq_arr : forall xs ys, veq (VArray xs) (VArray ys) = true <-> Forall2 (fun a b => veq a b = true) xs ys.
Proof.
  induction xs as [|x xs IH]; intros [|y ys].
  - split; [constructor|reflexivity].
  - split; [discriminate|inversion 1].
  - split; [discriminate|inversion 1].
  - specialize (IH ys). cbn [veq] in *. rewrite andb_true_iff, IH. split.
    + intros [A B]. now constructor.
    + inversion 1; subst. now split.
Qed.

Lemma veq_obj : forall xs ys, veq (VObject xs) (VObject ys) = true <->
  List.length xs = List.length ys /\
  Forall (fun kx => exists y, In (fst kx, y) ys /\ veq (snd kx) y = true) xs.
Proof.
  intros xs ys. cbn [veq]. rewrite andb_true_iff, Nat.eqb_eq. apply and_iff_compat_l.
  induction xs as [|[k x] xs IH]; [split; constructor|].
  rewrite andb_true_iff, IH, Forall_cons_iff, existsb_exists. cbn [fst snd].
  apply and_iff_compat_r. split.
  - intros ([k' y] & Hin & E). cbn in E. apply andb_prop in E as [E1 E2].
    apply String.eqb_eq in E1. subst. now exists y.
  - intros (y & Hin & E). exists (k, y). split; [exact Hin|]. cbn. now rewrite String.eqb_refl, E.
Qed.

Lemma veq_same : forall a b, unique_keys a -> veq a b = true -> same a b.
Proof.
  induction a as [ | | | | |ms IH|vs IH] using value_ind'; intros b U E; destruct b; try discriminate E;
    try (constructor; fail).
  - cbn in E. apply String.eqb_eq in E. subst. constructor.
  - cbn in E. apply String.eqb_eq in E. subst. constructor.
  - apply unique_keys_obj in U as [Nd Uf]. apply veq_obj in E as [L F].
    assert (exists ys', Permutation ys' ms0 /\
       Forall2 (fun a b => fst a = fst b /\ same (snd a) (snd b)) ms ys') as (ys' & P & F2).
    { revert ms0 L F. induction ms as [|[k x] r IHr]; intros ys L F.
      - destruct ys; [|discriminate L]. exists []. split; constructor.
      - apply Forall_cons_iff in IH as [Ix IH]. apply Forall_cons_iff in Uf as [Ux Uf].
        apply Forall_cons_iff in F as [(y & Hin & Exy) F]. cbn in *.
        apply NoDup_cons_iff in Nd as [Nk Nd].
        apply in_split in Hin as (l1 & l2 & ->).
        destruct (IHr IH Nd Uf (l1 ++ l2)) as (ys' & P & F2).
        { rewrite app_length in *. cbn in L. lia. }
        { rewrite Forall_forall in *. intros [k' x'] Hx. destruct (F _ Hx) as (y' & Hin & E').
          cbn in *. exists y'. split; [|exact E']. apply in_app_or in Hin as [Hin|[Heq|Hin]].
          - apply in_or_app; now left.
          - injection Heq as -> ->. exfalso. apply Nk. apply (in_map fst) in Hx. exact Hx.
          - apply in_or_app; now right. }
        exists ((k, y) :: ys'). split; [now apply Permutation_cons_app|].
        constructor; [|exact F2]. cbn. split; [reflexivity|]. now apply Ix. }
    econstructor; eassumption.
  - apply unique_keys_arr in U. apply veq_arr in E. constructor.
    revert vs0 E. induction vs as [|x r IHr]; intros ys E; inversion E; subst; [constructor|].
    apply Forall_cons_iff in IH as [Ix IH]. apply Forall_cons_iff in U as [Ux U].
    constructor; [now apply Ix|now apply IHr].
Qed.

Lemma Forall2_len : forall A B (R : A -> B -> Prop) xs ys, Forall2 R xs ys -> List.length xs = List.length ys.
Proof. induction 1; cbn; congruence. Qed.

(** transitivity needs no uniqueness *)
Lemma veq_trans : forall a b c, veq a b = true -> veq b c = true -> veq a c = true.
Proof.
  induction a as [ | | | | |ms IH|vs IH] using value_ind'; intros b c E F; destruct b; try discriminate E;
    destruct c; try discriminate F; try reflexivity.
  - cbn in *. apply String.eqb_eq in E, F. subst. apply String.eqb_refl.
  - cbn in *. apply String.eqb_eq in E, F. subst. apply String.eqb_refl.
  - apply veq_obj in E as [L1 F1], F as [L2 F2]. apply veq_obj. split; [congruence|].
    rewrite Forall_forall in *. intros kx Hin.
    destruct (F1 _ Hin) as (y & A & B). destruct (F2 _ A) as (z & C & D).
    exists z. split; [exact C|]. exact (IH _ Hin _ _ B D).
  - apply veq_arr in E, F. apply veq_arr. revert vs1 F. clear -IH E.
    induction E as [|x y r r' H F2 IHE]; intros zs F; inversion F; subst; constructor;
    apply Forall_cons_iff in IH as [Ix IH]; [eapply Ix; eassumption|now apply IHE].
Qed.

Lemma same_veq : forall a b, same a b -> veq a b = true.
Proof.
  induction a as [ | | | |sn|ms IH|vs IH] using value_ind'; intros b S;
    inversion S as [ | | |st|sn'|xs ys ys' P F2|xs ys F2]; subst; try reflexivity.
  - cbn. apply String.eqb_refl.
  - cbn. apply String.eqb_refl.
  - apply veq_obj. split.
    { rewrite (Forall2_len _ _ _ _ _ F2). now apply Permutation_length. }
    assert (forall kx, In kx ms -> exists y, In (fst kx, y) ys' /\ veq (snd kx) y = true).
    { clear P S. induction F2 as [|[k x] [k' y] r r' [Hk Hs] F2 IHF]; [intros ? []|].
      apply Forall_cons_iff in IH as [Ix IH]. cbn in *. subst k'.
      intros kx [<-|Hin].
      - exists y. cbn. split; [now left|now apply Ix].
      - destruct (IHF IH _ Hin) as (y' & A & B). exists y'. split; [now right|exact B]. }
    apply Forall_forall. intros kx Hin. destruct (H _ Hin) as (y & A & B). exists y.
    split; [|exact B]. eapply Permutation_in; eassumption.
  - apply veq_arr. clear S. induction F2 as [|x y r r' Hs F2 IHF]; [constructor|].
    apply Forall_cons_iff in IH as [Ix IH]. constructor; [now apply Ix|now apply IHF].
Qed.

Lemma same_refl : forall a, same a a.
Proof.
  induction a as [ | | | | |ms IH|vs IH] using value_ind'; try constructor.
  - eapply same_object; [apply Permutation_refl|].
    induction IH; constructor; auto.
  - induction IH; constructor; auto.
Qed.

Lemma Forall2_perm_l : forall A B (R : A -> B -> Prop) xs ys xs',
  Forall2 R xs ys -> Permutation xs xs' -> exists ys', Permutation ys ys' /\ Forall2 R xs' ys'.
Proof.
  intros A B R xs ys xs' F P. revert ys F.
  induction P as [|x l l' P IH|x y l|l l' l'' P1 IH1 P2 IH2]; intros ys F.
  - inversion F; subst. exists []. split; constructor.
  - inversion F as [|? b ? bs Hx Ft]; subst. destruct (IH _ Ft) as (ys' & P' & F').
    exists (b :: ys'). split; [now constructor|now constructor].
  - inversion F as [|? b ? bs Hx Ft]; subst. inversion Ft as [|? c ? cs Hy Ft2]; subst.
    exists (c :: b :: cs). split; [apply perm_swap|]. repeat constructor; assumption.
  - destruct (IH1 _ F) as (ys' & P' & F'). destruct (IH2 _ F') as (ys'' & P'' & F'').
    exists ys''. split; [now transitivity ys'|exact F''].
Qed.

Lemma Forall2_flip : forall A B (R : A -> B -> Prop) xs ys, Forall2 R xs ys -> Forall2 (fun b a => R a b) ys xs.
Proof. induction 1; constructor; auto. Qed.

Lemma same_sym : forall a b, same a b -> same b a.
Proof.
  induction a as [ | | | |sn|ms IH|vs IH] using value_ind'; intros b S;
    inversion S as [ | | |st|sn'|xs ys ys' P F2|xs ys F2]; subst; try (constructor; fail).
  - assert (F : Forall2 (fun a b => fst a = fst b /\ same (snd a) (snd b)) ys' ms).
    { clear P S. induction F2 as [|[k x] [k' y] r r' [Hk Hs] F2 IHF]; [constructor|].
      apply Forall_cons_iff in IH as [Ix IH]. constructor; [|now apply IHF]. cbn in *. split; [auto|now apply Ix]. }
    destruct (Forall2_perm_l _ _ _ _ _ _ F P) as (ms' & P' & F').
    eapply same_object; [symmetry; exact P'|exact F'].
  - constructor. clear S. induction F2 as [|x y r r' Hs F2 IHF]; [constructor|].
    apply Forall_cons_iff in IH as [Ix IH]. constructor; [now apply Ix|now apply IHF].
Qed.

Lemma same_trans : forall a b c, same a b -> same b c -> same a c.
Proof.
  induction a as [ | | | |sn|ms IH|vs IH] using value_ind'; intros b c S1 S2;
    inversion S1 as [ | | |st|sn'|xs ys ys' P F2|xs ys F2]; subst;
    try (inversion S2; subst; constructor; fail).
  - inversion S2 as [ | | | | |? zs zs' P' F' |]; subst.
    destruct (Forall2_perm_l _ _ _ _ _ _ F' (Permutation_sym P)) as (zs'' & P'' & F'').
    eapply same_object; [transitivity zs'; [symmetry; exact P''|exact P']|].
    clear S1 S2 P P' F' P'' zs zs' ys. revert zs'' F''.
    induction F2 as [|[k x] [k' y] r r' [Hk Hs] F2 IHF]; intros zs F''; inversion F'' as [|? [k2 z] ? ? [A B] F3]; subst; constructor.
    + apply Forall_cons_iff in IH as [Ix IH]. cbn in *. split; [congruence|]. eapply Ix; eassumption.
    + apply Forall_cons_iff in IH as [Ix IH]. now apply IHF.
  - inversion S2 as [ | | | | | |? zs F']; subst. constructor.
    clear S1 S2. revert zs F'.
    induction F2 as [|x y r r' Hs F2 IHF]; intros zs F'; inversion F'; subst; constructor;
    apply Forall_cons_iff in IH as [Ix IH]; [eapply Ix; eassumption|now apply IHF].
Qed.

(** *** C09 *)
Lemma vfind_emplace_eq : forall ms k v, vfind (emplace_unique ms k v) k = Some v.
Proof.
  induction ms as [|[k' v'] r IH]; intros k v; cbn.
  - now rewrite String.eqb_refl.
  - destruct (String.eqb_spec k' k) as [->|N]; cbn.
    + now rewrite String.eqb_refl.
    + apply String.eqb_neq in N. now rewrite N.
Qed.
Lemma vfind_emplace_neq : forall ms k v k', k' <> k -> vfind (emplace_unique ms k v) k' = vfind ms k'.
Proof.
  induction ms as [|[k0 v0] r IH]; intros k v k' N; cbn.
  - apply not_eq_sym, String.eqb_neq in N. now rewrite N.
  - destruct (String.eqb_spec k0 k) as [->|N0]; cbn; [|now rewrite IH].
    apply not_eq_sym, String.eqb_neq in N. now rewrite N.
Qed.
Lemma keys_emplace : forall ms k v,
  map fst (emplace_unique ms k v) = map fst ms ++ (if in_dec string_dec k (map fst ms) then [] else [k]).
Proof.
  induction ms as [|[k0 v0] r IH]; intros k v; cbn [emplace_unique map fst].
  - reflexivity.
  - destruct (String.eqb_spec k0 k) as [->|N0]; cbn [map fst].
    + destruct (in_dec string_dec k (k :: map fst r)) as [_|n]; [now rewrite app_nil_r|].
      exfalso. apply n. now left.
    + rewrite IH, <- app_comm_cons. f_equal. f_equal.
      destruct (in_dec string_dec k (map fst r)) as [i|n], (in_dec string_dec k (k0 :: map fst r)) as [i'|n']; auto.
      * exfalso. apply n'. now right.
      * exfalso. destruct i' as [E|i']; [congruence|contradiction].
Qed.
Lemma emplace_absent : forall ms k v, ~ In k (map fst ms) -> emplace_unique ms k v = ms ++ [(k, v)].
Proof.
  induction ms as [|[k0 v0] r IH]; intros k v N; cbn; [reflexivity|].
  destruct (String.eqb_spec k0 k) as [->|N0]; [exfalso; apply N; now left|].
  f_equal. apply IH. intros H. apply N. now right.
Qed.
Lemma emplace_present : forall m1 k v0 m2 v, ~ In k (map fst m1) ->
  emplace_unique (m1 ++ (k, v0) :: m2) k v = m1 ++ (k, v) :: m2.
Proof.
  induction m1 as [|[k0 x] r IH]; intros k v0 m2 v N; cbn.
  - now rewrite String.eqb_refl.
  - destruct (String.eqb_spec k0 k) as [->|N0]; [exfalso; apply N; now left|].
    f_equal. apply IH. intros H. apply N. now right.
Qed.
Lemma nodup_emplace : forall ms k v, NoDup (map fst ms) -> NoDup (map fst (emplace_unique ms k v)).
Proof.
  intros ms k v N. rewrite keys_emplace. destruct (in_dec string_dec k (map fst ms)) as [i|n].
  - now rewrite app_nil_r.
  - apply (Permutation_NoDup (l := k :: map fst ms)); [|now constructor].
    apply Permutation_cons_append.
Qed.

Lemma emplace_arr_spec : forall vs v, Forall unique_keys vs -> unique_keys v ->
  ((exists e, In e vs /\ same e v) -> emplace_unique_arr vs v = vs) /\
  ((forall e, In e vs -> ~ same e v) -> emplace_unique_arr vs v = vs ++ [v]).
Proof.
  intros vs v U Uv. unfold emplace_unique_arr. split.
  - intros (e & Hin & S). replace (existsb (fun e => veq e v) vs) with true; [reflexivity|].
    symmetry. apply existsb_exists. exists e. split; [exact Hin|now apply same_veq].
  - intros H. destruct (existsb (fun e => veq e v) vs) eqn:E; [|reflexivity].
    apply existsb_exists in E as (e & Hin & E). exfalso. apply (H e Hin).
    apply veq_same; [|exact E]. rewrite Forall_forall in U. now apply U.
Qed.
