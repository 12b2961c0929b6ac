(** Properties C09, C10: simple objects (packages/drafter/src/utils/so/Value.{h,cc}). *)
From Coq Require Import Permutation.
From Verif Require Import Base SoValue SoValueSpec SoValueProofs.

(** C09: insertion under a new key appends; under a key already there (first occurrence) it
    replaces the value in place and changes nothing else. *)
Theorem C09_insert_appends_or_replaces : forall ms k v,
  (~ In k (map fst ms) -> emplace_unique ms k v = ms ++ [(k, v)]) /\
  (forall m1 v0 m2, ms = m1 ++ (k, v0) :: m2 -> ~ In k (map fst m1) ->
     emplace_unique ms k v = m1 ++ (k, v) :: m2).
Proof.
  intros ms k v. split; [apply emplace_absent|]. intros m1 v0 m2 -> N. now apply emplace_present.
Qed.

(** C09: an object built from the empty one by any sequence of insertions has unique keys,
    and a lookup finds the last value inserted under the key (None if never inserted). *)
Definition insert_all (ops : list (string * value)) : list (string * value) :=
  fold_left (fun ms kv => emplace_unique ms (fst kv) (snd kv)) ops [].
Definition last_inserted (ops : list (string * value)) (k : string) : option value :=
  fold_left (fun r kv => if string_dec (fst kv) k then Some (snd kv) else r) ops None.

Theorem C09_history : forall ops,
  NoDup (map fst (insert_all ops)) /\
  (forall k, vfind (insert_all ops) k = last_inserted ops k) /\
  (forall k, In k (map fst (insert_all ops)) <-> In k (map fst ops)).
Proof.
  intros ops. unfold insert_all, last_inserted.
  assert (G : forall ms, NoDup (map fst ms) ->
    let r := fold_left (fun ms kv => emplace_unique ms (fst kv) (snd kv)) ops ms in
    NoDup (map fst r) /\
    (forall k, vfind r k = fold_left (fun r kv => if string_dec (fst kv) k then Some (snd kv) else r) ops (vfind ms k)) /\
    (forall k, In k (map fst r) <-> In k (map fst ms) \/ In k (map fst ops))).
  { induction ops as [|[k0 v0] ops IH]; intros ms N; cbn [fold_left map fst snd].
    - cbn. split; [exact N|]. split; [reflexivity|]. intros k. split; [now left|now intros [H|[]]].
    - destruct (IH (emplace_unique ms k0 v0) (nodup_emplace _ _ _ N)) as (A & B & C).
      split; [exact A|]. split.
      + intros k. rewrite B. f_equal. destruct (string_dec k0 k) as [->|D].
        * apply vfind_emplace_eq.
        * apply vfind_emplace_neq. congruence.
      + intros k. rewrite C, keys_emplace, in_app_iff.
        destruct (in_dec string_dec k0 (map fst ms)) as [i|n]; cbn [In].
        * split; [intros [[H|[]]|H]; auto|]. intros [H|[<-|H]]; auto.
        * split; [intros [[H|[H|[]]]|H]; auto|]. intros [H|[H|H]]; auto. }
  destruct (G [] (NoDup_nil _)) as (A & B & C). split; [exact A|]. split; [exact B|].
  intros k. rewrite C. cbn. tauto.
Qed.

(** C09 for arrays used as sets: a value equal to an element leaves the array unchanged,
    any other value is appended. *)
Theorem C09_array_insert : forall vs v, Forall unique_keys vs -> unique_keys v ->
  ((exists e, In e vs /\ same e v) -> emplace_unique_arr vs v = vs) /\
  ((forall e, In e vs -> ~ same e v) -> emplace_unique_arr vs v = vs ++ [v]).
Proof. exact emplace_arr_spec. Qed.

Example C09_nonvacuous :
  insert_all [("a"%string, VNull); ("b"%string, VTrue); ("a"%string, VFalse)]
  = [("a"%string, VFalse); ("b"%string, VTrue)].
Proof. reflexivity. Qed.

(** C10: on values without duplicate keys [==] decides "same document". *)
Theorem C10_eq_is_same_document : forall a b, unique_keys a -> (veq a b = true <-> same a b).
Proof. intros a b U. split; [now apply veq_same|apply same_veq]. Qed.

(** C10: [==] is reflexive and transitive on all values and symmetric on values without
    duplicate keys. *)
Theorem C10_equivalence :
  (forall a, veq a a = true) /\
  (forall a b, unique_keys a -> unique_keys b -> veq a b = veq b a) /\
  (forall a b c, veq a b = true -> veq b c = true -> veq a c = true).
Proof.
  split; [|split].
  - intros a. apply same_veq, same_refl.
  - intros a b Ua Ub. destruct (veq a b) eqn:E, (veq b a) eqn:F; auto; exfalso.
    + apply veq_same in E; [|exact Ua]. apply same_sym, same_veq in E. congruence.
    + apply veq_same in F; [|exact Ub]. apply same_sym, same_veq in F. congruence.
  - exact veq_trans.
Qed.

(** C10: with duplicate keys symmetry fails. *)
Theorem C10_duplicates_symmetry_refuted : exists a b, veq a b = true /\ veq b a = false.
Proof.
  exists (VObject [("a"%string, VNull); ("a"%string, VNull)]),
         (VObject [("a"%string, VNull); ("b"%string, VNull)]). split; reflexivity.
Qed.

Example C10_nonvacuous :
  unique_keys (VObject [("a"%string, VNull); ("b"%string, VTrue)]) /\
  veq (VObject [("a"%string, VNull); ("b"%string, VTrue)]) (VObject [("b"%string, VTrue); ("a"%string, VNull)]) = true /\
  veq (VArray [VNull; VTrue]) (VArray [VTrue; VNull]) = false.
Proof.
  split; [|split; reflexivity]. apply unique_keys_obj. split; [|repeat constructor].
  repeat constructor; cbn; intuition discriminate.
Qed.

Print Assumptions C09_insert_appends_or_replaces.
Print Assumptions C09_history.
Print Assumptions C09_array_insert.
Print Assumptions C10_eq_is_same_document.
Print Assumptions C10_equivalence.
Print Assumptions C10_duplicates_symmetry_refuted.
