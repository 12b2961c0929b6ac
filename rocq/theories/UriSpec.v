(** Specification for C72: URI templates (RFC 6570 with the characters RFC 1738 calls unsafe taken out of the literals, as the header
    of grammar/Uritemplate.h announces), and what is to be reported about a text that is none *)
From Verif Require Import Base UriTemplate Utf8Spec MediaSpec.

(** ** Characters *)
Definition hexadecimal (a : ascii) : Prop := In a (list_ascii_of_string "0123456789abcdefABCDEF").
(** a percent encoded byte *)
Definition triplet (t : string) : Prop := exists a b, hexadecimal a /\ hexadecimal b /\ t = String "%" (String a (String b "")).
Definition plain_chars : string :=
  "!#$&()*+,-./0123456789:;=?@ABCDEFGHIJKLMNOPQRSTUVWXYZ_abcdefghijklmnopqrstuvwxyz".
(** ucschar and iprivate of RFC 3987: beyond U+009F no surrogates, no noncharacters, nothing special; the planes 1 to 13, 15 and 16
    without their last two code points; of plane 14 what lies behind the tags *)
Definition international (c : N) : Prop :=
  (0xA0 <= c < 0xD800 \/ 0xE000 <= c < 0xFDD0 \/ 0xFDF0 <= c < 0xFFF0 \/
   (1 <= c / 0x10000 <= 16 /\ c / 0x10000 <> 14 /\ c mod 0x10000 < 0xFFFE) \/ 0xE1000 <= c < 0xEFFFE)%N.
Inductive literal_char : string -> Prop :=
| lit_triplet t : triplet t -> literal_char t
| lit_plain a : In a (list_ascii_of_string plain_chars) -> literal_char (String a "")
| lit_international c : international c -> literal_char (utf8 c).
(** text outside of expressions *)
Definition literal (t : string) : Prop := exists l, l <> [] /\ Forall literal_char l /\ t = sconcat l.

(** ** Variables *)
Inductive name_char : string -> Prop :=
| name_triplet t : triplet t -> name_char t
| name_plain a : letter a \/ digit a \/ a = "_"%char -> name_char (String a "").
Definition starts (c : ascii) (s : string) : Prop := exists r, s = String c r.
(** dots anywhere but in front, no two in a row *)
Inductive name_rest : string -> Prop :=
| rest_nil : name_rest ""
| rest_char c r : name_char c -> name_rest r -> name_rest (c +++ r)
| rest_dot r : ~ starts "." r -> name_rest r -> name_rest (String "." r).
Definition var_name (n : string) : Prop := exists c r, name_char c /\ name_rest r /\ n = (c +++ r)%string.
(** the number a text of digits stands for *)
Definition number (d : string) : N := fold_left (fun n a => (10 * n + (byte a - 48))%N) (list_ascii_of_string d) 0%N.
Inductive var_spec : variable -> string -> Prop :=
| spec_plain n : var_name n -> var_spec (Var n 0 false) n
| spec_prefix n d : var_name n -> every digit d -> (String.length d <= 3)%nat -> var_spec (Var n (number d) false) (n +++ ":" +++ d)
| spec_explode n : var_name n -> var_spec (Var n 0 true) (n +++ "*").

(** ** Where expressions begin and end *)
Inductive segment : Type := Text (t : string) | Braces (body : string) (closed : bool).
Definition free (c : ascii) (s : string) : Prop := ~ In c (list_ascii_of_string s).
Inductive cuts : string -> list segment -> Prop :=
| cut_end : cuts "" []
| cut_text t rest l : t <> ""%string -> free "{" t -> (rest = ""%string \/ starts "{" rest) -> cuts rest l -> cuts (t +++ rest) (Text t :: l)
| cut_closed b rest l : free "}" b -> cuts rest l -> cuts (String "{" (b +++ String "}" rest)) (Braces b true :: l)
| cut_open b : free "}" b -> cuts (String "{" b) [Braces b false].

(** ** Expressions *)
Definition operators : list (ascii * op_type) :=
  [("+"%char, ReservedChars); ("#"%char, Fragment); ("."%char, Label); ("/"%char, PathOp); (";"%char, PathParam); ("?"%char, QueryParam); ("&"%char, QueryContinue);
   ("="%char, ReservedOp); (","%char, ReservedOp); ("!"%char, ReservedOp); ("@"%char, ReservedOp); ("|"%char, ReservedOp)].
(** the operator in front of what is between the braces, and what follows it *)
Definition opens (body : string) (o : op_type) (rest : string) : Prop :=
  (exists c, body = String c rest /\ In (c, o) operators) \/
  (o = NoOp /\ rest = body /\ forall c r, body = String c r -> ~ In c (map fst operators)).
(** the pieces between commas *)
Definition pieces (s : string) (l : list string) : Prop := l <> [] /\ Forall (free ",") l /\ s = join "," l.
Definition item_of (p : string) (i : item) : Prop :=
  (exists v, i = GoodItem v /\ var_spec v p) \/ (i = InvalidItem p /\ forall v, ~ var_spec v p).
Inductive part_of : segment -> part -> Prop :=
| part_literal t : literal t -> part_of (Text t) (Literals t)
| part_invalid t : ~ literal t -> part_of (Text t) (InvalidPart t)
| part_expression b closed o rest ps is : opens b o rest -> pieces rest ps -> Forall2 item_of ps is ->
    part_of (Braces b closed) (Expression (Expr o is (negb closed))).

(** ** Templates nothing is to be said about *)
Definition simple_operator (o : op_type) : Prop := In o [NoOp; ReservedChars; Fragment; QueryParam; QueryContinue].
Inductive fine : segment -> Prop :=
| fine_text t : literal t -> fine (Text t)
| fine_braces b o rest ps : opens b o rest -> simple_operator o -> pieces rest ps -> Forall (fun p => exists v, var_spec v p) ps -> fine (Braces b true).
Definition template (uri : string) : Prop := exists l, cuts uri l /\ Forall fine l.

(** ** What is said about the others *)
Local Open Scope string_scope.
Definition upper_hex : string := "0123456789ABCDEF".
Definition hex_char (n : N) : string := match get (N.to_nat n) upper_hex with Some a => String a "" | None => "" end.
(** percent encoding: "%" and two hexadecimal digits for every byte *)
Definition percent (s : string) : string :=
  sconcat (map (fun a => "%" +++ hex_char (byte a / 16) +++ hex_char (byte a mod 16)) (list_ascii_of_string s)).
(** what stands where the text stops being right: its description, and the character to be encoded *)
Inductive blamed : string -> string -> option string -> Prop :=
| blame_triplet a b r : blamed (String "%" (String a (String b r))) ("percent encoded character '" +++ String "%" (String a (String b "'"))) None
| blame_dots d r : every (eq "."%char) d -> (2 <= String.length d)%nat -> ~ starts "." r -> blamed (d +++ r) ("continuous dots '" +++ d +++ "'") None
| blame_brace r : blamed (String "{" r) "nested expression brace '{'" (Some "{")
| blame_char c r : scalar c -> utf8 c <> "{" ->
    (utf8 c = "%" -> (String.length r <= 1)%nat) -> (utf8 c = "." -> ~ starts "." r) -> blamed (utf8 c +++ r) ("character '" +++ utf8 c +++ "'") (Some (utf8 c))
| blame_malformed r : (forall c q, scalar c -> r <> utf8 c +++ q) -> blamed r "" None.
Definition about_text (t w : string) : Prop :=
  exists good bad m e, t = good +++ bad /\ (good = "" \/ literal good) /\ (forall c q, literal_char c -> bad <> c +++ q) /\ blamed bad m e /\
    w = "URI template contains disallowed " +++ m +++ ". Disallowed characters must be percent encoded.".
Definition encode_hint (e : option string) : string :=
  match e with Some c => ", which should be encoded as '" +++ percent c +++ "'" | None => "" end.
(** the printed encoding has a single digit for the bytes below 16 (see C72_encoding_refuted) *)
Definition printable_char (e : option string) : Prop := match e with Some c => every (fun a => 16 <= byte a)%N c | None => True end.
Definition about_variable (t w : string) : Prop :=
  exists good bad m e, t = good +++ bad /\ ((good = "" /\ forall c q, name_char c -> bad <> c +++ q) \/ exists v, var_spec v good) /\ blamed bad m e /\
    (printable_char e ->
     w = "URI template variable '" +++ t +++ "' contains invalid " +++ m +++ encode_hint e +++
         ". Allowed characters for expressions are A-Z a-z 0-9 _ and percent encoded characters").
Definition about_operator (o : op_type) : list string :=
  match o with
  | NoOp | ReservedChars | Fragment | QueryParam | QueryContinue => []
  | Label => ["URI template 'label' expansion is not supported"]
  | PathOp => ["URI template 'path segment' expansion is not supported"]
  | PathParam => ["URI template 'path segment parameter' expansion is not supported"]
  | ReservedOp => ["URI template 'reserved operator' expansion is not supported"]
  end.
Definition about_item (p : string) (ws : list string) : Prop :=
  ((exists v, var_spec v p) /\ ws = []) \/ ((forall v, ~ var_spec v p) /\ exists w, ws = [w] /\ about_variable p w).
Inductive remarks : segment -> list string -> Prop :=
| remark_none t : literal t -> remarks (Text t) []
| remark_text t w : ~ literal t -> about_text t w -> remarks (Text t) [w]
| remark_braces b closed o rest ps ws : opens b o rest -> pieces rest ps -> Forall2 about_item ps ws ->
    remarks (Braces b closed) (about_operator o ++ concat ws ++ (if closed then [] else ["URI Template expression is missing closing bracket '}'"]))%list.
