(** Specification for C40-C43: whitespace, lines, occurrences of one text in another *)
From Verif Require Import Base.
Local Open Scope string_scope.

(** blank, tab, line feed, vertical tab, form feed, carriage return *)
Definition white (a : ascii) : Prop := In (byte a) [32; 9; 10; 11; 12; 13]%N.
Definition all (P : ascii -> Prop) (s : string) : Prop := Forall P (list_ascii_of_string s).
Definition has (a : ascii) (s : string) : Prop := In a (list_ascii_of_string s).

(** [t] is what remains of [s] without the whitespace around it: [a] in front and [b] behind *)
Definition trimmed (a s t b : string) : Prop :=
  s = a +++ t +++ b /\ all white a /\ all white b /\
  (forall c r, t = String c r -> ~ white c) /\ (forall r c, t = r +++ String c "" -> ~ white c).

(** every piece followed by the delimiter *)
Definition terminated (d : ascii) (ps : list string) : string := sconcat (map (fun p => p +++ String d "") ps).

(** [p] occurs in [s] *)
Definition occurs (p s : string) : Prop := exists a b, s = a +++ p +++ b.
(** its first occurrence in [a +++ p +++ b] is the one behind [a] *)
Definition leftmost (a p b : string) : Prop :=
  forall a' b', a' +++ p +++ b' = a +++ p +++ b -> String.length a <= String.length a'.

(** [t] is [s] with all occurrences of [f], found from left to right and not overlapping, replaced by [r];
    [n] of them *)
Inductive replaced (f r : string) : nat -> string -> string -> Prop :=
| replaced_none : forall s, ~ occurs f s -> replaced f r 0 s s
| replaced_more : forall n a b t, leftmost a f b -> replaced f r n b t -> replaced f r (S n) (a +++ f +++ b) (a +++ r +++ t).

(** a run of [n] chars *)
Fixpoint run_of (n : nat) (c : ascii) : string := match n with O => "" | S n => String c (run_of n c) end.

(** equal but for the case of ASCII letters *)
Definition same_letter (a b : ascii) : Prop :=
  a = b \/ exists k, (k < 26)%N /\ (byte a = 65 + k \/ byte a = 97 + k)%N /\ (byte b = 65 + k \/ byte b = 97 + k)%N.
Definition same_but_case (a b : string) : Prop := Forall2 same_letter (list_ascii_of_string a) (list_ascii_of_string b).
