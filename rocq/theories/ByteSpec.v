(** Specification for C32-C34: positions of characters in UTF-8 texts, and the bytes ranges cover *)
From Verif Require Import Base Utf8Spec ByteBuffer.
Local Open Scope N_scope.

(** the offset at which character number [i] of a text starts *)
Definition starts (cs : list N) (i : N) : N := slen (utf8s (firstn (N.to_nat i) cs)).
(** byte [p] belongs to character number [i] *)
Definition char_at (cs : list N) (p i : N) : Prop :=
  i < N.of_nat (List.length cs) /\ starts cs i <= p /\ p < starts cs (i + 1).

(** the bytes a range covers, in order *)
Fixpoint upfrom (a : N) (n : nat) : list N := match n with O => [] | S n => a :: upfrom (a + 1) n end.
Definition bytes_of (r : range) : list N := upfrom (location r) (N.to_nat (length r)).
Definition covered (rs : list range) : list N := concat (map bytes_of rs).

(** no two neighbours touch *)
Fixpoint coalesced (rs : list range) : Prop :=
  match rs with
  | a :: ((b :: _) as r) => location b <> location a + length a /\ coalesced r
  | _ => True
  end.
(** blocks in ascending order *)
Fixpoint ascending (rs : list range) : Prop :=
  match rs with
  | a :: ((b :: _) as r) => location a + length a <= location b /\ ascending r
  | _ => True
  end.
Definition addressable (rs : list range) : Prop := Forall (fun r => location r + length r < 2 ^ 64) rs.

(** the characters at given positions *)
Definition text_at (s : string) (ps : list N) : string :=
  fold_right (fun p t => match String.get (N.to_nat p) s with Some a => String a t | None => t end) ""%string ps.
