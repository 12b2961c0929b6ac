(** Specification of UTF-8 (RFC 3629), written without reference to the code: Unicode
    scalar values and their byte encodings by division with remainder. *)
From Verif Require Import Base.
Local Open Scope N_scope.

(** RFC 3629 section 3 / Unicode D76: a scalar value is a code point that is no surrogate *)
Definition scalarb (c : N) : bool :=
  (c <? 0xD800) || ((0xDFFF <? c) && (c <=? 0x10FFFF)).
Definition scalar (c : N) : Prop := scalarb c = true.

(** RFC 3629 section 3, the table of byte sequences *)
Definition utf8_bytes (c : N) : list N :=
  if c <=? 0x7F then [c]
  else if c <=? 0x7FF then [192 + c / 64; 128 + c mod 64]
  else if c <=? 0xFFFF then [224 + c / 4096; 128 + (c / 64) mod 64; 128 + c mod 64]
  else [240 + c / 262144; 128 + (c / 4096) mod 64; 128 + (c / 64) mod 64; 128 + c mod 64].

Fixpoint of_bytes (l : list N) : string :=
  match l with [] => EmptyString | b :: t => String (chr b) (of_bytes t) end.

Definition utf8 (c : N) : string := of_bytes (utf8_bytes c).
Definition utf8s (cs : list N) : string := sconcat (map utf8 cs).

(** a byte string is well formed UTF-8 iff it is the encoding of some scalar values *)
Definition wf_utf8 (s : string) : Prop := exists cs, Forall scalar cs /\ s = utf8s cs.

Definition contb (a : ascii) : bool := in_range 0x80 0xBF (byte a).

(** a sequence with the right shape: a lead byte announcing [n] continuation bytes, followed
    by exactly [n] bytes of the form 10xxxxxx (it may still be overlong, a surrogate or
    above U+10FFFF) *)
Definition shaped (s : string) : Prop :=
  match s with
  | String a EmptyString => byte a < 0x80
  | String a (String b EmptyString) => in_range 0xC0 0xDF (byte a) = true /\ contb b = true
  | String a (String b (String c EmptyString)) =>
      in_range 0xE0 0xEF (byte a) = true /\ contb b = true /\ contb c = true
  | String a (String b (String c (String d EmptyString))) =>
      in_range 0xF0 0xF7 (byte a) = true /\ contb b = true /\ contb c = true /\ contb d = true
  | _ => False
  end.


(** ** how malformed bytes are read (C06) *)
(** how many bytes a character takes, by its first byte alone *)
Definition announced (a : ascii) : nat :=
  if byte a <? 0x80 then 1%nat else if byte a <? 0xE0 then 2%nat else if byte a <? 0xF0 then 3%nat else 4%nat.
(** the same bytes with the marks of UTF-8 put where they belong: 110xxxxx or 11110xxx on the first byte, 10xxxxxx on the others *)
Definition first_repaired (a : ascii) : ascii :=
  if byte a <? 0x80 then a else if byte a <? 0xE0 then chr (192 + byte a mod 32) else if byte a <? 0xF0 then a else chr (240 + byte a mod 8).
Fixpoint others_repaired (s : string) : string :=
  match s with EmptyString => EmptyString | String b s => String (chr (128 + byte b mod 64)) (others_repaired s) end.
Definition repaired (s : string) : string :=
  match s with EmptyString => EmptyString | String a s => String (first_repaired a) (others_repaired s) end.
(** what a byte string is read as: characters of the announced lengths, each read as if repaired, replaced if it is no scalar value even so;
    one that is cut off by the end is replaced *)
Inductive read_as : string -> list N -> Prop :=
| read_end : read_as EmptyString []
| read_char : forall a s rest c cs, S (String.length s) = announced a -> scalar c -> repaired (String a s) = utf8 c -> read_as rest cs ->
    read_as (String a s +++ rest) (c :: cs)
| read_bad : forall a s rest cs, S (String.length s) = announced a -> (forall c, scalar c -> repaired (String a s) <> utf8 c) -> read_as rest cs ->
    read_as (String a s +++ rest) (0xFFFD :: cs)
| read_cut : forall a s, (S (String.length s) < announced a)%nat -> read_as (String a s) [0xFFFD].
