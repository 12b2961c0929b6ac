(** Specification for C26, C28, C30, C47 *)
From Verif Require Import Base Element Extend Registry Expand.

(** A fuelled function [m] computes [r]: it answers [r] from some amount of fuel on. Two answers
    are the same answer. *)
Definition computes {A} (m : nat -> run A) (r : res A) : Prop := exists f0, forall f, f0 <= f -> m f = Some r.

Lemma computes_unique : forall A (m : nat -> run A) r r', computes m r -> computes m r' -> r = r'.
Proof.
  intros A m r r' (a & H) (b & K). specialize (H (a + b) ltac:(lia)). specialize (K (a + b) ltac:(lia)). congruence.
Qed.

(** natural numbers with an infinity *)
Inductive enat : Type := Fin (n : N) | Inf.
Definition eadd (a b : enat) : enat := match a, b with Fin x, Fin y => Fin (x + y) | _, _ => Inf end.
Definition emul (a b : enat) : enat :=
  match a, b with
  | Fin x, Fin y => Fin (x * y)
  | Fin x, Inf | Inf, Fin x => if (x =? 0)%N then Fin 0 else Inf
  | Inf, Inf => Inf
  end.
Definition fits (a : enat) : Prop := match a with Fin x => (x < 2 ^ 32 - 1)%N | Inf => True end.
