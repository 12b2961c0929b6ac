(** What a signature of a section says, independently of SignatureSectionProcessor.h *)
From Verif Require Import Base StringSpec.
Local Open Scope string_scope.

(** [t] is [s] without the white space around it *)
Definition trims (s t : string) : Prop := exists a b, trimmed a s t b.
Definition starts (p s : string) : Prop := exists r, s = p +++ r.
Definition backtick : ascii := "`"%char.

(** the first piece of a text: a char, or a literal between two equal runs of an escape char. A run which is never
    closed starts no literal: its first char is a piece *)
Inductive piece (esc : list ascii) : string -> string -> string -> Prop :=
| piece_plain : forall c r, ~ In c esc -> piece esc (String c r) (String c "") r
| piece_quoted : forall c n body rest, In c esc -> (forall r, body +++ run_of (S n) c +++ rest <> String c r) ->
    leftmost body (run_of (S n) c) rest ->
    piece esc (run_of (S n) c +++ body +++ run_of (S n) c +++ rest) (run_of (S n) c +++ body +++ run_of (S n) c) rest
| piece_open : forall c n after, In c esc -> (forall r, after <> String c r) -> ~ occurs (run_of (S n) c) after ->
    piece esc (run_of (S n) c +++ after) (String c "") (run_of n c +++ after).

(** [p] is the text up to the first piece where [stop] holds, or all of it; [r] is the rest *)
Inductive taken (esc : list ascii) (stop : string -> Prop) : string -> string -> string -> Prop :=
| taken_end : taken esc stop "" "" ""
| taken_stop : forall c s, ~ In c esc -> stop (String c s) -> taken esc stop (String c s) "" (String c s)
| taken_step : forall c s p r p' r', piece esc (String c s) p r -> In c esc \/ ~ stop (String c s) ->
    taken esc stop r p' r' -> taken esc stop (String c s) (p +++ p') r'.

(** a literal of backticks stands for what is inside *)
Inductive bare : string -> string -> Prop :=
| bare_other : forall s, (forall r, s <> String backtick r) \/ (forall r, s <> r +++ String backtick "") -> bare s s
| bare_open : forall n after, (forall r, after <> String backtick r) -> ~ occurs (run_of (S n) backtick) after ->
    (exists r, run_of (S n) backtick +++ after = r +++ String backtick "") ->
    bare (run_of (S n) backtick +++ after) (run_of (S n) backtick +++ after)
| bare_quoted : forall n body rest w, (forall r, body +++ run_of (S n) backtick +++ rest <> String backtick r) ->
    leftmost body (run_of (S n) backtick) rest -> (exists r, run_of (S n) backtick +++ rest = r +++ String backtick "") ->
    trims body w ->
    bare (run_of (S n) backtick +++ body +++ run_of (S n) backtick +++ rest) w.

Definition kept (v : string) : list string := match v with EmptyString => [] | _ => [v] end.

(** the values of a text: divided by the commas outside of literals, each trimmed; all but the last one bare. [stop]: where
    the values end *)
Inductive listed (stop : string -> Prop) : string -> list string -> string -> Prop :=
| listed_last : forall s p r v, taken [backtick] (fun s => starts "," s \/ stop s) s p r -> ~ starts "," r -> trims p v ->
    listed stop s (kept v) r
| listed_more : forall s p r v w r1 vs r', taken [backtick] (fun s => starts "," s \/ stop s) s p (String "," r) ->
    trims p v -> bare v w -> trims r r1 -> listed stop r1 vs r' -> listed stop s (w :: vs) r'.

Definition brackets (a b : ascii) : Prop := (a = "["%char /\ b = "]"%char) \/ (a = "("%char /\ b = ")"%char).

(** [p]: the text up to the closing bracket and with it, or all of it; brackets inside are closed first *)
Inductive enclosed : ascii -> string -> string -> string -> Prop :=
| enclosed_end : forall z, enclosed z "" "" ""
| enclosed_close : forall z r, enclosed z (String z r) (String z "") r
| enclosed_piece : forall z c s p r p' r', c <> z -> c <> "["%char -> c <> "("%char -> piece [backtick] (String c s) p r ->
    enclosed z r p' r' -> enclosed z (String c s) (p +++ p') r'
| enclosed_nested : forall z a b s p r p' r', brackets a b -> enclosed b s p r -> enclosed z r p' r' ->
    enclosed z (String a s) (String a p +++ p') r'.

(** an attribute [p] of a list, and what ended it: a comma, the closing bracket or ([None]) the end of the text. [r] is the
    rest; after the end of the text it is the text [held]: what was read since the last literal or bracket *)
Inductive item : string -> string -> string -> option ascii -> string -> Prop :=
| item_end : forall held, item held "" "" None held
| item_close : forall held r, item held (String ")" r) "" (Some ")"%char) r
| item_comma : forall held r, item held (String "," r) "" (Some ","%char) r
| item_char : forall held c s r p d r', ~ In c ["["; "("; ")"; ","]%char -> piece [backtick] (String c s) (String c "") r ->
    item (held +++ String c "") r p d r' -> item held (String c s) (String c p) d r'
| item_literal : forall held s q r p d r', piece [backtick] s q r -> 1 < String.length q ->
    item "" r p d r' -> item held s (q +++ p) d r'
| item_nested : forall held a b s q r p d r', brackets a b -> enclosed b s q r -> item "" r p d r' ->
    item held (String a s) (String a q +++ p) d r'.

(** the attributes of a text behind the opening bracket; [None]: the behaviour is undefined *)
Inductive attributed : string -> option (list string * string) -> Prop :=
| attributed_last : forall s p d r a, item "(" s p d r -> d <> Some ","%char -> p <> "" -> (forall q, p <> q +++ ",") ->
    trims p a -> attributed s (Some (kept a, r))
| attributed_more : forall s p r a o, item "(" s p (Some ","%char) r -> trims p a -> attributed r o ->
    attributed s (match o with Some (l, r') => Some ((kept a ++ l)%list, r') | None => None end)
| attributed_empty : forall s d r, item "(" s "" d r -> d <> Some ","%char -> attributed s None
| attributed_comma : forall s p r, item "(" s (p +++ ",") None r -> attributed s None.

(** ** a whole signature *)
(** which parts it may have, the char in front of the values and the text in front of the content *)
Record shape : Type := Shape { with_id : bool; with_values : bool; with_attributes : bool; with_content : bool; before_values : ascii; before_content : string }.
Definition opens_values (t : shape) (s : string) : Prop := with_values t = true /\ starts (String (before_values t) "") s.
Definition opens_attributes (t : shape) (s : string) : Prop := with_attributes t = true /\ starts "(" s.
Definition opens_content (t : shape) (s : string) : Prop := with_content t = true /\ starts (before_content t) s.

(** the text: as given, or the first line *)
Inductive subject_of (text : string) : string -> string -> string -> Prop :=
| subject_given : forall c s, subject_of text (String c s) (String c s) ""
| subject_line : forall l s r, text = l +++ String "010" r -> ~ has "010" l -> trims l s -> subject_of text "" s r
| subject_only : forall s, ~ has "010" text -> trims text s -> subject_of text "" s "".

Inductive identified (t : shape) : string -> string -> string -> list string -> Prop :=
| identified_not : forall s, with_id t = false \/ s = "" -> identified t s "" s []
| identified_by : forall s s1 p r id s', with_id t = true -> s <> "" -> trims s s1 ->
    taken ["*"; "_"; "`"]%char (fun s => opens_values t s \/ opens_attributes t s \/ opens_content t s) s1 p r ->
    trims p id -> trims r s' ->
    identified t s id s' (match id with EmptyString => ["no identifier specified"] | _ => [] end).

(** the whole text of the values, the values, the rest, the warnings *)
Inductive valued (t : shape) : string -> string -> list string -> string -> list string -> Prop :=
| valued_not : forall s, s = "" \/ with_values t = false \/ starts "(" s \/ (with_id t = true /\ ~ starts (String (before_values t) "") s) ->
    valued t s "" [] s []
| valued_by : forall s s1 vs r s' front f v, s <> "" -> with_values t = true -> ~ starts "(" s ->
    trims s1 (front +++ s') -> s = (if with_id t then String (before_values t) s1 else s1) ->
    listed (fun s => opens_attributes t s \/ opens_content t s) (front +++ s') vs r -> trims r s' -> trims front f -> bare f v ->
    valued t s v vs s' (match vs with [] => ["no value(s) specified"] | _ => [] end).

Inductive characterised (t : shape) : string -> option (list string * string) -> Prop :=
| characterised_not : forall s, s = "" \/ with_attributes t = false \/ starts (before_content t) s \/ ~ starts "(" s ->
    characterised t s (Some ([], s))
| characterised_by : forall s l r s', with_attributes t = true -> ~ starts (before_content t) (String "(" s) ->
    attributed s (Some (l, r)) -> trims r s' -> characterised t (String "(" s) (Some (l, s'))
| characterised_undefined : forall s, with_attributes t = true -> ~ starts (before_content t) (String "(" s) ->
    attributed s None -> characterised t (String "(" s) None.

Inductive contained (t : shape) : string -> string -> Prop :=
| contained_not : forall s, s = "" \/ with_content t = false \/ ~ starts (before_content t) s -> contained t s ""
| contained_by : forall s c, with_content t = true -> before_content t +++ s <> "" -> trims s c -> contained t (before_content t +++ s) c.

(** the parts of a signature *)
Record parts : Type := Parts { p_id : string; p_value : string; p_values : list string; p_attributes : list string; p_content : string; p_rest : string }.
(** what a text says with its warnings; [None]: the behaviour is undefined *)
Inductive signed (t : shape) (text given : string) : option (parts * list string) -> Prop :=
| signed_by : forall s rest id s1 w1 v vs s2 w2 l s3 c, subject_of text given s rest -> identified t s id s1 w1 -> valued t s1 v vs s2 w2 ->
    characterised t s2 (Some (l, s3)) -> contained t s3 c ->
    signed t text given (Some (Parts id v vs l c rest, (w1 ++ w2)%list))
| signed_undefined : forall s rest id s1 w1 v vs s2 w2, subject_of text given s rest -> identified t s id s1 w1 -> valued t s1 v vs s2 w2 ->
    characterised t s2 None -> signed t text given None.
