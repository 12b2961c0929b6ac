(** Model of packages/drafter/src/utils/so/JsonIo.cc. An [std::ostream] is the string written
    to it. *)
From Verif Require Import Base SoValue.
Local Open Scope string_scope.

(** one hexadecimal digit as written by printf %x (lower case) *)
Definition hexdigit (n : N) : ascii :=
  chr (if (n <? 10)%N then 48 + n else 87 + n)%N.

(** JsonIo.cc:26-34 json_utf_char: snprintf("\\u%04x", c), 6 chars. Simplification: exact for
    c < 2^16 (callers pass c <= 0x1f). *)
Definition json_utf_char (c : N) : string :=
  String "\" (String "u"
    (String (hexdigit (c / 4096 mod 16)) (String (hexdigit (c / 256 mod 16))
      (String (hexdigit (c / 16 mod 16)) (str1 (hexdigit (c mod 16))))))).

Definition dquote : ascii := chr 34.

(** JsonIo.cc:36-98 one iteration of escape_json_string *)
Definition escape_json_byte (b : ascii) : string :=
  let n := byte b in
  if (n =? 34)%N then String "\" (str1 dquote)            (* double quote *)
  else if (n =? 92)%N then "\\"
  else if (n =? 8)%N then "\b"
  else if (n =? 12)%N then "\f"
  else if (n =? 10)%N then "\n"
  else if (n =? 13)%N then "\r"
  else if (n =? 9)%N then "\t"
  else if (0x1f <? n)%N then str1 b
  else json_utf_char n.

Fixpoint escape_json_string (s : string) : string :=
  match s with
  | EmptyString => ""
  | String b r => escape_json_byte b +++ escape_json_string r
  end.

Definition nl : string := str1 (chr 10).

(** JsonIo.cc:100-106 break_indent (a non-positive indent writes no blanks; indents are never
    negative) *)
Fixpoint spaces2 (indent : nat) : string :=
  match indent with O => "" | S i => "  " +++ spaces2 i end.
Definition break_indent (indent : nat) : string := nl +++ spaces2 indent.

(** JsonIo.cc:108-201 json_printer<Packed>. [commas] is the C++ local [int commas], initially
    size-1 and decremented at each comma written. Simplification: [int] does not overflow
    (fewer than 2^31 members and nesting levels). *)
Fixpoint json_print (packed : bool) (indent : nat) (v : value) {struct v} : string :=
  match v with
  | VNull => "null"
  | VTrue => "true"
  | VFalse => "false"
  | VString s => str1 dquote +++ escape_json_string s +++ str1 dquote
  | VNumber s => s
  | VObject ms =>
      "{" +++
      (fix go (commas : Z) (l : list (string * value)) {struct l} : string :=
         match l with
         | [] => ""
         | (k, x) :: r =>
             (if packed then "" else break_indent (S indent)) +++
             str1 dquote +++ escape_json_string k +++ str1 dquote +++ ":" +++
             (if packed then "" else " ") +++
             json_print packed (S indent) x +++
             (if (0 <? commas)%Z then "," +++ go (commas - 1)%Z r else go commas r)
         end) (Z.of_nat (List.length ms) - 1)%Z ms +++
      (if packed || (match ms with [] => true | _ => false end) then "" else break_indent indent) +++
      "}"
  | VArray vs =>
      "[" +++
      (fix go (commas : Z) (l : list value) {struct l} : string :=
         match l with
         | [] => ""
         | x :: r =>
             (if packed then "" else break_indent (S indent)) +++
             json_print packed (S indent) x +++
             (if (0 <? commas)%Z then "," +++ go (commas - 1)%Z r else go commas r)
         end) (Z.of_nat (List.length vs) - 1)%Z vs +++
      (if packed || (match vs with [] => true | _ => false end) then "" else break_indent indent) +++
      "]"
  end.

(** JsonIo.cc:204-214 the two serialize_json overloads *)
Definition serialize_json (v : value) : string := json_print false 0 v.
Definition serialize_json_packed (v : value) : string := json_print true 0 v.
