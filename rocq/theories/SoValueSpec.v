(** Specification for C09/C10: what "same document" means for simple values. *)
From Coq Require Import Permutation.
From Verif Require Import Base SoValue.

(** equality of JSON documents: objects are unordered, arrays are ordered *)
Inductive same : value -> value -> Prop :=
| same_null : same VNull VNull
| same_true : same VTrue VTrue
| same_false : same VFalse VFalse
| same_string : forall s, same (VString s) (VString s)
| same_number : forall s, same (VNumber s) (VNumber s)
| same_object : forall xs ys ys', Permutation ys' ys ->
    Forall2 (fun a b => fst a = fst b /\ same (snd a) (snd b)) xs ys' ->
    same (VObject xs) (VObject ys)
| same_array : forall xs ys, Forall2 same xs ys -> same (VArray xs) (VArray ys).

(** no object in the tree has two members with the same name *)
Fixpoint unique_keys (v : value) : Prop :=
  match v with
  | VObject ms => NoDup (map fst ms) /\
      (fix all (l : list (string * value)) : Prop :=
         match l with [] => True | kv :: r => unique_keys (snd kv) /\ all r end) ms
  | VArray vs =>
      (fix all (l : list value) : Prop :=
         match l with [] => True | x :: r => unique_keys x /\ all r end) vs
  | _ => True
  end.
