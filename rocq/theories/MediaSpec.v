(** Specification for C36 and C37: media types as text (RFC 6838 section 4.2 names, RFC 2616 section 3.7 parameters, as the header of
    grammar/Mediatype.h announces; several parameters are separated by blanks) *)
From Verif Require Import Base MediaType.

Definition letter (a : ascii) : Prop := (65 <= byte a <= 90 \/ 97 <= byte a <= 122)%N.
Definition digit (a : ascii) : Prop := (48 <= byte a <= 57)%N.
Definition mark (a : ascii) : Prop := In a (list_ascii_of_string "!#$&^_-.").
Definition every (P : ascii -> Prop) (s : string) : Prop := Forall P (list_ascii_of_string s).

(** names: at most 127 letters, digits and marks, the first no mark *)
Definition is_name (n : string) : Prop :=
  exists a r, n = String a r /\ (letter a \/ digit a) /\ every (fun c => letter c \/ digit c \/ mark c) r /\ (String.length r <= 126)%nat.
Definition blanks (s : string) : Prop := every (fun c => c = chr 32 \/ c = chr 9) s.

Fixpoint join (sep : string) (l : list string) : string :=
  match l with [] => "" | [x] => x | x :: r => x +++ sep +++ join sep r end.

(** the part behind the slash *)
Inductive sub_text : string -> string -> string -> Prop :=
| sub_plain n : is_name n -> sub_text n "" n
| sub_suffixed ns x : ns <> [] -> Forall is_name ns -> is_name x -> sub_text (join "+" ns) x (join "+" (ns ++ [x])).

(** what may stand between quotes; escapes stay as they are *)
Inductive quotable : string -> Prop :=
| q_nil : quotable ""
| q_char a r : a <> "\"%char -> a <> """"%char -> quotable r -> quotable (String a r)
| q_pair a r : ((33 <= byte a <= 126)%N \/ (128 <= byte a)%N \/ a = chr 32 \/ a = chr 9) -> quotable r -> quotable (String "\" (String a r)).
Inductive param_text : string * string -> string -> Prop :=
| param_plain k v : is_name k -> is_name v -> param_text (k, v) (k +++ "=" +++ v)
| param_quoted k v : is_name k -> quotable v -> param_text (k, v) (k +++ "=" +++ String """" (v +++ String """" "")).
Inductive params_text : list (string * string) -> string -> Prop :=
| params_one p t : param_text p t -> params_text [p] t
| params_more p t b ps r : param_text p t -> blanks b -> b <> ""%string -> params_text ps r -> params_text (p :: ps) (t +++ b +++ r).
(** the text ends, or the line does *)
Inductive line_end : string -> Prop :=
| end_of_text : line_end ""
| end_lf r : line_end (String (chr 10) r)
| end_crlf r : line_end (String (chr 13) (String (chr 10) r)).
Inductive media_text : media -> string -> Prop :=
| text_plain b1 t sub suf u b2 e : blanks b1 -> is_name t -> sub_text sub suf u -> blanks b2 -> line_end e ->
    media_text (MT t sub suf []) (b1 +++ t +++ "/" +++ u +++ b2 +++ e)
| text_params b1 t sub suf u b2 b3 ps p b4 e : blanks b1 -> is_name t -> sub_text sub suf u -> blanks b2 -> blanks b3 -> params_text ps p -> blanks b4 -> line_end e ->
    media_text (MT t sub suf ps) (b1 +++ t +++ "/" +++ u +++ b2 +++ ";" +++ b3 +++ p +++ b4 +++ e).

(** media types as the printer expects them: names, and at most one parameter, whose value is a name, or needs quotes and
    has none of the characters the printer escapes *)
Definition proper_names (m : media) : Prop := is_name (m_type m) /\ exists u, sub_text (m_subtype m) (m_suffix m) u.
Definition printable_value (v : string) : Prop :=
  is_name v \/ (Exists (fun c => needs_quotes c = true) (list_ascii_of_string v) /\ every (fun c => c <> "\"%char /\ c <> """"%char /\ c <> chr 13) v).
Definition printable (m : media) : Prop :=
  proper_names m /\ (m_params m = [] \/ exists k v, m_params m = [(k, v)] /\ is_name k /\ printable_value v).

(** equality that ignores the case of ASCII letters: the same length, and at each place the same character or
    the two cases of a letter *)
Definition same_letter (a b : ascii) : Prop :=
  a = b \/ ((65 <= byte a <= 90)%N /\ byte b = (byte a + 32)%N) \/ ((65 <= byte b <= 90)%N /\ byte a = (byte b + 32)%N).
Definition same_ignoring_case (a b : string) : Prop := Forall2 same_letter (list_ascii_of_string a) (list_ascii_of_string b).
