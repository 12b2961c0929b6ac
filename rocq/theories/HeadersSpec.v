(** Specification for C53: what a line of a headers section says *)
From Verif Require Import Base ByteBuffer StringSpec.
Local Open Scope string_scope.

(** the chars a header name may hold *)
Definition name_char (a : ascii) : Prop :=
  has a "ABCDEFGHIJKLMNOPQRSTUVWXYZabcdefghijklmnopqrstuvwxyz0123456789-#$%&'*+.^_`|~".
(** the chars of a token by RFC 7230, section 3.2.6 *)
Definition rfc_token_char (a : ascii) : Prop := a = "!"%char \/ name_char a.

Definition spaces_ (n : nat) : string := run_of n " ".
(** the chars that end a name *)
Definition ends_name (a : ascii) : Prop := a = " "%char \/ a = "009"%char \/ a = ":"%char.
Definition is_name (s : string) : Prop := s <> "" /\ all (fun a => ~ ends_name a) s.

(** the header a line gives: its name must be valid; the value is trimmed *)
Inductive gives (line : string) : option (string * string) -> Prop :=
| gives_nothing : forall i rest, line = spaces_ i +++ rest -> (forall c r, rest = String c r -> c = "009"%char \/ c = ":"%char) ->
    gives line None
| gives_invalid : forall i name rest, line = spaces_ i +++ name +++ rest -> is_name name -> ~ all name_char name ->
    (forall c r, rest = String c r -> ends_name c) -> gives line None
| gives_colon : forall i name k v a value b, line = spaces_ i +++ name +++ spaces_ k +++ ":" +++ v -> is_name name ->
    all name_char name -> trimmed a v value b -> gives line (Some (name, value))
| gives_plain : forall i name k v a value b, line = spaces_ i +++ name +++ spaces_ k +++ v -> is_name name ->
    all name_char name -> (forall c r, v = String c r -> c <> " "%char /\ c <> ":"%char) ->
    (k = 0 -> forall c r, v = String c r -> ends_name c) -> trimmed a v value b -> gives line (Some (name, value)).

(** header names compare without case *)
Definition named (hs : list (string * string)) (name : string) : Prop := exists n v, In (n, v) hs /\ same_but_case n name.
Definition repeatable (name : string) : Prop := same_but_case name "Set-Cookie" \/ same_but_case name "Link".

(** a code fence *)
Definition fence (line : string) : bool := (prefix "```" line || prefix "~~~" line)%bool.
(** the lines that count: if the first is a fence, those that are none *)
Definition counting (lines : list string) : list string :=
  match lines with
  | [] => []
  | l :: _ => if fence l then filter (fun x => negb (fence x)) lines else lines
  end.
(** what a range of a source shows: the text without the whitespace around it *)
Definition shows (source : string) (r : range) (line : string) : Prop :=
  line <> "" /\ exists before a b after, source = before +++ (a +++ line +++ b) +++ after /\
    r = R (slen before) (slen (a +++ line +++ b)) /\ trimmed a (a +++ line +++ b) line b.
