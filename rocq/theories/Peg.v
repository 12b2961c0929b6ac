(** Matching in the style of PEGTL (tao::pegtl, the library the grammars of apib-parser are written in; its source is not part
    of /repo, the meaning of its rules is taken from its reference). A rule given the input left and the state
    matches a prefix, or fails (the input is rewound, the state keeps what actions did), or raises parse_error. *)
From Verif Require Import Base.

Inductive pres (S : Type) : Type := Matched (rest : string) (s : S) | Failed (s : S) | Raised (s : S) | Runaway.
Arguments Matched {S} _ _.
Arguments Failed {S} _.
Arguments Raised {S} _.
Arguments Runaway {S}.
Definition rule (S : Type) : Type := string -> S -> pres S.

Section Rules.
  Context {S : Type}.
  (** one, range, not_one, ...: one character of a class *)
  Definition p_one (f : ascii -> bool) : rule S := fun i s =>
    match i with String a r => if f a then Matched r s else Failed s | EmptyString => Failed s end.
  (** seq *)
  Definition p_seq (p q : rule S) : rule S := fun i s =>
    match p i s with Matched r s' => q r s' | Failed s' => Failed s' | Raised s' => Raised s' | Runaway => Runaway end.
  (** sor: ordered choice *)
  Definition p_sor (p q : rule S) : rule S := fun i s =>
    match p i s with Failed s' => q i s' | o => o end.
  (** opt *)
  Definition p_opt (p : rule S) : rule S := fun i s =>
    match p i s with Failed s' => Matched i s' | o => o end.
  (** star: as often as the rule matches *)
  Fixpoint p_star_from (n : nat) (p : rule S) : rule S := fun i s =>
    match n with
    | O => Runaway
    | Datatypes.S n =>
      match p i s with Matched r s' => p_star_from n p r s' | Failed s' => Matched i s' | o => o end
    end.
  Definition p_star (p : rule S) : rule S := fun i s => p_star_from (Datatypes.S (String.length i)) p i s.
  (** plus *)
  Definition p_plus (p : rule S) : rule S := p_seq p (p_star p).
  (** list<R, Sep> = seq<R, star<Sep, R>> *)
  Definition p_list (p sep : rule S) : rule S := p_seq p (p_star (p_seq sep p)).
  (** rep_opt<Max, R>: at most Max times *)
  Fixpoint p_rep_opt (n : nat) (p : rule S) : rule S := fun i s =>
    match n with
    | O => Matched i s
    | Datatypes.S n => match p i s with Matched r s' => p_rep_opt n p r s' | Failed s' => Matched i s' | o => o end
    end.
  (** not_at<R>, for rules without actions *)
  Definition p_not_at (p : rule S) : rule S := fun i s =>
    match p i s with Matched _ _ => Failed s | Failed _ => Matched i s | o => o end.
  (** rep_max<Max, R> = seq<rep_opt<Max, R>, not_at<R>> *)
  Definition p_rep_max (n : nat) (p : rule S) : rule S := p_seq (p_rep_opt n p) (p_not_at p).
  (** must<R>: failing raises *)
  Definition p_must (p : rule S) : rule S := fun i s =>
    match p i s with Failed s' => Raised s' | o => o end.
  (** if_must<C, R> = seq<C, must<R>> *)
  Definition p_if_must (c p : rule S) : rule S := p_seq c (p_must p).
  (** try_catch: a raised parse_error is a failure *)
  Definition p_try_catch (p : rule S) : rule S := fun i s =>
    match p i s with Raised s' => Failed s' | o => o end.
  Definition p_eof : rule S := fun i s => match i with EmptyString => Matched i s | _ => Failed s end.
  (** the text between the input before and after a match *)
  Definition consumed (i r : string) : string := String.substring 0 (String.length i - String.length r) i.
  (** a rule with an action: apply is called with the text matched *)
  Definition p_act (f : string -> S -> S) (p : rule S) : rule S := fun i s =>
    match p i s with Matched r s' => Matched r (f (consumed i r) s') | o => o end.
End Rules.

(** change_state<T>: the rule runs with a fresh state, success() merges it when the rule matches *)
Definition p_change {S T : Type} (fresh : T) (success : T -> S -> S) (p : rule T) : rule S := fun i s =>
  match p i fresh with
  | Matched r t => Matched r (success t s)
  | Failed _ => Failed s
  | Raised _ => Raised s
  | Runaway => Runaway
  end.
(** the state after parsing, whatever happened *)
Definition p_state {S : Type} (o : pres S) : option S :=
  match o with Matched _ s => Some s | Failed s => Some s | Raised s => Some s | Runaway => None end.
(** character classes: pegtl::ascii::alnum, abnf::VCHAR, abnf::WSP *)
Definition c_range (lo hi : N) (a : ascii) : bool := (lo <=? byte a)%N && (byte a <=? hi)%N.
Definition c_digit (a : ascii) : bool := c_range 48 57 a.
Definition c_alpha (a : ascii) : bool := c_range 65 90 a || c_range 97 122 a.
Definition c_alnum (a : ascii) : bool := c_alpha a || c_digit a.
Definition c_in (s : string) (a : ascii) : bool := existsb (Ascii.eqb a) (list_ascii_of_string s).
Definition c_vchar (a : ascii) : bool := c_range 33 126 a.
Definition c_wsp (a : ascii) : bool := c_in (String (chr 32) (String (chr 9) EmptyString)) a.
