(** Specification for C79: what values, names of types and type definitions of MSON say, independently of MSONUtility.h *)
From Verif Require Import Base StringSpec SignatureSpec RegexSpec KeywordsSpec TypeTables Mson.
Local Open Scope string_scope.

(** ** values *)
Definition emphasis (c : ascii) : Prop := c = "*"%char \/ c = "_"%char.
Definition ends (c : ascii) (s : string) : Prop := exists r, s = r +++ String c "".
Definition emphasised (s : string) : Prop := exists c r, emphasis c /\ s = String c r /\ ends c s.
(** the text of a value, and whether it is a variable: text in emphasis; text that begins and ends with the same emphasis char but is not in emphasis; or any other *)
Inductive denotes : string -> string -> bool -> Prop :=
| denotes_inner : forall c n body rest, emphasis c -> (forall r, body +++ run_of (S n) c +++ rest <> String c r) -> leftmost body (run_of (S n) c) rest ->
    ends c (run_of (S n) c +++ body +++ run_of (S n) c +++ rest) -> denotes (run_of (S n) c +++ body +++ run_of (S n) c +++ rest) body true
| denotes_open : forall c n after, emphasis c -> (forall r, after <> String c r) -> ~ occurs (run_of (S n) c) after -> ends c (run_of (S n) c +++ after) ->
    denotes (run_of (S n) c +++ after) (run_of (S n) c +++ after) true
| denotes_plain : forall s w, ~ emphasised s -> bare s w -> denotes s w false.
(** a value: the text [*] is a variable without a name *)
Inductive value_says : string -> mvalue -> Prop :=
| value_any : forall s b, denotes s "*" b -> value_says s (MV "" true)
| value_text : forall s w b, denotes s w b -> w <> "*" -> value_says s (MV w b).

(** ** names of types *)
Definition base_words : list (string * base_name) :=
  [("boolean", BooleanTN); ("string", StringTN); ("number", NumberTN); ("array", ArrayTN); ("enum", EnumTN); ("object", ObjectTN)].
Inductive name_says : string -> type_name -> Prop :=
| name_base : forall s b, In (s, b) base_words -> name_says s (TN b (Sym "" false))
| name_symbol : forall s v, ~ In s (map fst base_words) -> value_says s v -> name_says s (TN UndefinedTN (Sym (v_literal v) (v_variable v))).

(** ** type specifications *)
Definition free (l : list ascii) (s : string) : Prop := all (fun c => ~ In c l) s.
Definition round_and_square : list ascii := ["["; "]"; "("; ")"]%char.
(** a Markdown link and the text that is linked *)
Inductive link : string -> string -> Prop :=
| link_by : forall b1 x b2 y b3, blanks b1 -> blanks b2 -> blanks b3 -> free round_and_square y ->
    link (b1 +++ "[" +++ x +++ "]" +++ b2 +++ "[" +++ y +++ "]" +++ b3) x
| link_to : forall b1 x b2 y b3, blanks b1 -> blanks b2 -> blanks b3 -> free round_and_square y -> y <> "" ->
    link (b1 +++ "[" +++ x +++ "]" +++ b2 +++ "(" +++ y +++ ")" +++ b3) x.
(** a text that begins with a bracket stands for the text of the link it is, or for nothing *)
Inductive unlinked : string -> string -> Prop :=
| unlinked_plain : forall s, ~ starts "[" s -> unlinked s s
| unlinked_link : forall s u x t, starts "[" s -> before "000" s u -> link u x -> trims x t -> unlinked s t
| unlinked_none : forall s u, starts "[" s -> before "000" s u -> (forall x, ~ link u x) -> unlinked s "".

(** the texts of nested types. [inner]: at the begin of one; [linked]: behind the bracket that opens a link; [skipped]: behind the text of a link *)
Inductive inner : string -> list string -> Prop :=
| inner_none : forall s, free ["["; ","]%char s -> trims s "" -> inner s []
| inner_last : forall s t v, free ["["; ","]%char s -> trims s (t +++ "]") -> trims t v -> inner s [v]
| inner_open : forall s v, free ["["; ","]%char s -> trims s v -> v <> "" -> ~ ends "]" v -> inner s [v]
| inner_more : forall a v r r' l, free ["["; ","]%char a -> trims a v -> trims r r' -> inner r' l -> inner (a +++ String "," r) (kept v ++ l)%list
| inner_link : forall a r r' l, free ["["; ","]%char a -> trims r r' -> linked r' l -> inner (a +++ String "[" r) l
with linked : string -> list string -> Prop :=
| linked_end : forall s v, free ["["; "]"]%char s -> trims s v -> linked s (kept v)
| linked_again : forall a r r' l, free ["["; "]"]%char a -> trims r r' -> linked r' l -> linked (a +++ String "[" r) l
| linked_text : forall a v r r' l, free ["["; "]"]%char a -> trims a v -> trims r r' -> skipped r' l -> linked (a +++ String "]" r) (kept v ++ l)%list
with skipped : string -> list string -> Prop :=
| skipped_end : forall s, free [","%char] s -> skipped s []
| skipped_more : forall a r r' l, free [","%char] a -> trims r r' -> inner r' l -> skipped (a +++ String "," r) l.

Inductive maybe_name : string -> type_name -> Prop :=
| maybe_none : maybe_name "" (TN UndefinedTN (Sym "" false))
| maybe_some : forall s n, s <> "" -> name_says s n -> maybe_name s n.
(** an attribute that is no keyword: the name of a type, and the nested types in brackets *)
Inductive spec_says : string -> type_spec -> Prop :=
| spec_name : forall a s t n, unlinked a s -> free ["["%char] s -> trims s t -> maybe_name t n -> spec_says a (TS n [])
| spec_nested : forall a f r t n r' l ns, unlinked a (f +++ String "[" r) -> free ["["%char] f -> trims f t -> maybe_name t n ->
    trims r r' -> inner r' l -> Forall2 name_says l ns -> spec_says a (TS n ns).

(** ** type definitions *)
(** the keywords, in the order of the bits that stand for them *)
Definition attribute_words : list string := ["required"; "optional"; "fixed"; "sample"; "default"; "nullable"; "fixed-type"].
Definition bits_say (l : list string) (bits : N) : Prop :=
  (forall k w, nth_error attribute_words k = Some w -> N.testbit bits (N.of_nat k) = true <-> In w l) /\ forall k, (7 <= k)%N -> N.testbit bits k = false.
Definition other_words (l : list string) : list string := filter (fun a => negb (existsb (String.eqb a) attribute_words)) l.
(** the base type of a type's name *)
Inductive base_says (known : list (string * base_type)) : type_name -> base_type -> Prop :=
| base_primitive : forall b s, In b [BooleanTN; StringTN; NumberTN] -> base_says known (TN b s) PrimitiveBT
| base_values : forall b s, In b [ArrayTN; EnumTN] -> base_says known (TN b s) ValueBT
| base_object : forall s, base_says known (TN ObjectTN s) ObjectBT
| base_known : forall s b, m_find known (s_literal s) = Some b -> base_says known (TN UndefinedTN s) b
| base_unknown : forall s, m_find known (s_literal s) = None -> base_says known (TN UndefinedTN s) UndefinedBT.

(** what is done to the outside: a warning, or a dependency [on] of [by_] is entered into the table; C51 tells with which answers *)
Inductive effect : Type := Says (code : N) (message : string) | Depends (on by_ : string) (strict : bool).
(** the first of the other words is the type, each further one is ignored *)
Inductive type_says : list string -> type_spec -> list effect -> Prop :=
| type_none : forall l, other_words l = [] -> type_says l (TS (TN UndefinedTN (Sym "" false)) []) []
| type_first : forall l a more ts, other_words l = a :: more -> spec_says a ts ->
    type_says l ts (map (fun _ => Says 5 "ignoring unrecognized type attribute") more).
Definition is_name (s : symbol) : Prop := s_literal s <> "" /\ s_variable s = false.
Inductive unknown_type (context : string) : base_type -> symbol -> list effect -> Prop :=
| unknown_named : forall s, is_name s -> unknown_type context UndefinedBT s [Depends (s_literal s) context false]
| unknown_not : forall b s, b <> UndefinedBT \/ ~ is_name s -> unknown_type context b s [].
Inductive odd_nested : base_type -> list type_name -> list effect -> Prop :=
| odd_fine : forall b l, In b [ValueBT; ImplicitValueBT] \/ l = [] -> odd_nested b l []
| odd_said : forall b l, ~ In b [ValueBT; ImplicitValueBT] -> l <> [] ->
    odd_nested b l [Says 8 "nested types should be present only for types which are sub typed from either array or enum structure type"].
Inductive definition_says (known : list (string * base_type)) (context : string) (l : list string) : type_def -> list effect -> Prop :=
| definition_by : forall ts bits b e1 e2 e3, bits_say l bits -> type_says l ts e1 -> base_says known (t_name ts) b ->
    unknown_type context b (n_symbol (t_name ts)) e2 -> odd_nested b (t_nested ts) e3 ->
    definition_says known context l (TD b ts bits) (e1 ++ e2 ++ e3)%list.

(** ** names of properties *)
Definition property_shape : shape := Shape false true true false ":" "-".
Definition no_definition : type_def := TD UndefinedBT (TS (TN UndefinedTN (Sym "" false)) []) 0%N.
(** what is in emphasis is a value with its type; what only begins and ends like it stands for the whole [text] of the node. [None]: the behaviour is undefined *)
Inductive emphasised_text : string -> string -> Prop :=
| emphasised_inner : forall s w, emphasised s -> denotes s w true -> w <> s -> emphasised_text s w
| emphasised_not : forall s, emphasised s -> denotes s s true -> emphasised_text s "".
Inductive property_says (known : list (string * base_type)) (context text : string) : string -> option (string * value_def * list effect) -> Prop :=
| property_literal : forall s w, ~ emphasised s -> bare s w -> property_says known context text s (Some (w, VD [] no_definition, []))
| property_variable : forall s w p m v td e, emphasised_text s w -> signed property_shape text w (Some (p, m)) -> (if String.eqb (p_value p) "" then v = [] else exists x, v = [x] /\ value_says (p_value p) x) ->
    definition_says known context (p_attributes p) td e -> property_says known context text s (Some ("", VD v td, (map (Says 6) m ++ e)%list))
| property_undefined : forall s w, emphasised_text s w -> signed property_shape text w None -> property_says known context text s None.
