(** Model of packages/apib-parser/src/grammar/Uritemplate.h, grammar/recover.h and snowcrash/UriTemplateParser.cc *)
From Verif Require Import Base Peg.

(** ** Rules of PEGTL not used by the media type grammar *)
Section Rules.
  Context {S : Type}.
  (** seq<> *)
  Definition p_nothing : rule S := fun i s => Matched i s.
  (** any: one byte *)
  Definition p_any : rule S := p_one (fun _ => true).
  (** at<R>, its rules run without actions *)
  Definition p_at (p : rule S) : rule S := fun i s =>
    match p i s with Matched _ _ => Matched i s | Failed _ => Failed s | o => o end.
  (** utf8::any, utf8::ranges: one well formed UTF-8 sequence (RFC 3629) of a code point of the class *)
  Definition cont (a : ascii) : bool := c_range 128 191 a.
  Definition peek_utf8 (i : string) : option (N * string) :=
    match i with
    | EmptyString => None
    | String a r =>
      let b := byte a in
      if (b <? 128)%N then Some (b, r) else
      if c_range 192 223 a then
        match r with
        | String a1 r =>
          let c := ((b - 192) * 64 + (byte a1 - 128))%N in
          if cont a1 && (128 <=? c)%N then Some (c, r) else None
        | _ => None
        end else
      if c_range 224 239 a then
        match r with
        | String a1 (String a2 r) =>
          let c := ((b - 224) * 4096 + (byte a1 - 128) * 64 + (byte a2 - 128))%N in
          if cont a1 && cont a2 && (2048 <=? c)%N && negb ((55296 <=? c)%N && (c <=? 57343)%N) then Some (c, r) else None
        | _ => None
        end else
      if c_range 240 247 a then
        match r with
        | String a1 (String a2 (String a3 r)) =>
          let c := ((b - 240) * 262144 + (byte a1 - 128) * 4096 + (byte a2 - 128) * 64 + (byte a3 - 128))%N in
          if cont a1 && cont a2 && cont a3 && (65536 <=? c)%N && (c <=? 1114111)%N then Some (c, r) else None
        | _ => None
        end
      else None
    end.
  Definition p_utf8 (f : N -> bool) : rule S := fun i s =>
    match peek_utf8 i with Some (c, r) => if f c then Matched r s else Failed s | None => Failed s end.
End Rules.

(** ** recover.h *)
Section Recover.
  Context {S : Type}.
  (** recover.h:40-46 skip: to the terminator, maybe nothing *)
  Definition r_skip (t : rule S) : rule S := p_sor (p_plus (p_seq (p_not_at t) p_any)) p_nothing.
  (** recover.h:48-54 must_skip *)
  Definition r_must_skip (t : rule S) : rule S := p_seq (p_plus (p_seq (p_not_at t) p_any)) (p_at t).
  (** recover.h:56-62 item; 83-87 content_with_terminator *)
  Definition r_item (r t : rule S) : rule S := p_seq (p_must r) (p_must (p_at t)).
End Recover.

(** ** Uritemplate.h: what is recognised *)
Section Grammar.
  Context {S : Type}.
  Definition is_char (c : ascii) : rule S := p_one (Ascii.eqb c).
  Definition hexdig (a : ascii) : bool := c_digit a || c_range 65 70 a || c_range 97 102 a.
  (** Uritemplate.h:41-47 pct_encoded *)
  Definition u_pct : rule S := p_try_catch (p_if_must (is_char "%") (p_seq (p_one hexdig) (p_one hexdig))).
  (** Uritemplate.h:49-56 ucschar *)
  Definition in_ranges (l : list (N * N)) (c : N) : bool := existsb (fun x => (fst x <=? c)%N && (c <=? snd x)%N) l.
  Definition ucschar (c : N) : bool :=
    in_ranges [(0xA0, 0xD7FF); (0xF900, 0xFDCF); (0xFDF0, 0xFFEF);
               (0x10000, 0x1FFFD); (0x20000, 0x2FFFD); (0x30000, 0x3FFFD);
               (0x40000, 0x4FFFD); (0x50000, 0x5FFFD); (0x60000, 0x6FFFD);
               (0x70000, 0x7FFFD); (0x80000, 0x8FFFD); (0x90000, 0x9FFFD);
               (0xA0000, 0xAFFFD); (0xB0000, 0xBFFFD); (0xC0000, 0xCFFFD);
               (0xD0000, 0xDFFFD); (0xE1000, 0xEFFFD)]%N c.
  (** Uritemplate.h:58-60 iprivate *)
  Definition iprivate (c : N) : bool := in_ranges [(0xE000, 0xF8FF); (0xF0000, 0xFFFFD); (0x100000, 0x10FFFD)]%N c.
  (** Uritemplate.h:87-88 *)
  Definition u_open : rule S := is_char "{".
  Definition u_close : rule S := is_char "}".
  (** Uritemplate.h:98-103 varchar *)
  Definition u_varchar : rule S := p_sor u_pct (p_sor (p_one c_alpha) (p_sor (p_one c_digit) (is_char "_"))).
  (** Uritemplate.h:105-110 noncontinuous_dots *)
  Definition u_dot : rule S := p_try_catch (p_if_must (is_char ".") (p_not_at (is_char "."))).
  (** Uritemplate.h:112-120 varname, without its action *)
  Definition u_varname : rule S := p_seq u_varchar (p_star (p_sor u_dot u_varchar)).
  (** Uritemplate.h:185-194 ascii_allowed *)
  Definition ascii_allowed (a : ascii) : bool :=
    c_range 0x21 0x21 a || c_range 0x23 0x24 a || c_range 0x26 0x26 a || c_range 0x28 0x3b a || c_range 0x3d 0x3d a ||
    c_range 0x3f 0x5a a || c_range 0x5f 0x5f a || c_range 0x61 0x7a a.
  (** Uritemplate.h:196-203 literals_ *)
  Definition u_literals : rule S := p_plus (p_sor u_pct (p_sor (p_one ascii_allowed) (p_sor (p_utf8 ucschar) (p_utf8 iprivate)))).
  (** Uritemplate.h:94 prefix_value, without its action *)
  Definition u_prefix_value : rule S := p_rep_max 3 (p_one c_digit).
End Grammar.

(** ** Uritemplate.h:226-275 the state. The position of an invalid part is read only by code switched off
    (UriTemplateParser.cc:131-142, 203-214): left out. *)
Record variable : Type := Var { v_name : string; v_prefix : N; v_explode : bool }.
Inductive op_type : Type :=
| NoOp | ReservedChars | Fragment | Label | PathOp | PathParam | QueryParam | QueryContinue | ReservedOp.
Inductive item : Type := GoodItem (v : variable) | InvalidItem (content : string).
Record expression : Type := Expr { x_type : op_type; x_vars : list item; x_unclosed : bool }.
Inductive part : Type := Literals (s : string) | Expression (x : expression) | InvalidPart (content : string).

(** std::atol of at most three digits *)
Fixpoint digits (s : string) (acc : N) : N :=
  match s with String a r => digits r (acc * 10 + (byte a - 48))%N | EmptyString => acc end.

(** Uritemplate.h:330-374 the actions of variables *)
Definition g_varname : rule variable := p_act (fun t v => Var t (v_prefix v) (v_explode v)) u_varname.
Definition g_prefix : rule variable :=
  p_seq (is_char ":") (p_act (fun t v => Var (v_name v) (digits t 0) (v_explode v)) u_prefix_value).
Definition g_explode : rule variable := p_act (fun _ v => Var (v_name v) (v_prefix v) true) (is_char "*").
(** Uritemplate.h:122 varspec *)
Definition g_varspec : rule variable := p_seq g_varname (p_opt (p_sor g_prefix g_explode)).

(** Uritemplate.h:62-91, 376-394 the operators *)
Definition set_op (o : op_type) (x : expression) : expression := Expr o (x_vars x) (x_unclosed x).
Definition g_op (c : ascii) (o : op_type) : rule expression := p_act (fun _ => set_op o) (is_char c).
Definition g_operator : rule expression :=
  p_sor (p_sor (g_op "+" ReservedChars) (g_op "#" Fragment))
  (p_sor (p_sor (g_op "." Label) (p_sor (g_op "/" PathOp) (p_sor (g_op ";" PathParam) (p_sor (g_op "?" QueryParam) (g_op "&" QueryContinue)))))
         (p_act (fun _ => set_op ReservedOp) (p_one (c_in "=,!@|")))).

(** Uritemplate.h:124-131 variable_list; 310-328 the actions of its items. [term]: separator or terminator *)
Definition term {S} : rule S := p_sor (is_char ",") (p_sor u_close p_eof).
Definition add_item (v : item) (x : expression) : expression := Expr (x_type x) (x_vars x ++ [v]) (x_unclosed x).
Definition g_item : rule expression :=
  p_change (Var "" 0 false) (fun v => add_item (GoodItem v)) (r_item g_varspec term).
Definition g_invalid_item : rule expression :=
  p_change ""%string (fun t => add_item (InvalidItem t)) (p_act (fun t _ => t) (r_skip term)).
(** recover.h:64-73 head *)
Definition g_head : rule expression := p_sor (p_try_catch g_item) g_invalid_item.
(** recover.h:75-81, 108-116 tail, list *)
Definition g_variables : rule expression :=
  p_seq g_head (p_seq (p_star (p_seq (is_char ",") g_head)) (p_at (p_sor u_close p_eof))).
(** Uritemplate.h:133-145 expression *)
Definition g_missing_close : rule expression := p_act (fun _ x => Expr (x_type x) (x_vars x) true) p_nothing.
Definition g_expression : rule (list part) :=
  p_change (Expr NoOp [] false) (fun x l => l ++ [Expression x])%list
    (p_if_must u_open (p_seq (p_opt g_operator) (p_seq g_variables (p_sor u_close g_missing_close)))).
(** Uritemplate.h:205-211 literals; 281-301 its actions *)
Definition stop {S} : rule S := p_sor u_open p_eof.
Definition g_literals : rule (list part) :=
  p_sor (p_try_catch (p_change ""%string (fun t l => l ++ [Literals t])%list (p_act (fun t _ => t) (r_item u_literals stop))))
        (p_change ""%string (fun t l => l ++ [InvalidPart t])%list (p_act (fun t _ => t) (r_must_skip stop))).
(** Uritemplate.h:213-220 grammar, match_grammar *)
Definition g_template : rule (list part) := p_seq (p_plus (p_sor g_literals g_expression)) p_eof.

(** ** UriTemplateParser.cc *)
(** UriTemplateParser.cc:70-77 encodeString: hexadecimal digits without padding *)
Definition hex_digit (n : N) : ascii := if (n <? 10)%N then chr (48 + n) else chr (55 + n).
Definition hex (n : N) : string :=
  if (n <? 16)%N then String (hex_digit n) "" else String (hex_digit (n / 16)) (String (hex_digit (n mod 16)) "").
Fixpoint encode_string (s : string) : string :=
  match s with EmptyString => "" | String a r => "%" +++ hex (byte a) +++ encode_string r end.

(** UriTemplateParser.cc:21-124 error_locator: message, encoded *)
Definition located : Type := (string * string)%type.
Definition quoted (t : string) : string := "'" +++ t +++ "'".
Definition l_triplet : rule located :=
  p_act (fun t s => ("percent encoded character " +++ quoted t, snd s))%string (p_seq (is_char "%") (p_seq p_any p_any)).
Definition l_dots : rule located :=
  p_act (fun t s => ("continuous dots " +++ quoted t, snd s))%string (p_seq (is_char ".") (p_plus (is_char "."))).
Definition l_char : rule located :=
  p_act (fun t s => ((if String.eqb t "{" then "nested expression brace '{'" else "character " +++ quoted t)%string, encode_string t))
    (p_utf8 (fun _ => true)).
(** the rule given has none of these actions *)
Definition locator (r : rule located) : rule located := p_seq (p_sor r p_nothing) (p_sor l_triplet (p_sor l_dots l_char)).
Definition u_varspec {S} : rule S := p_seq u_varname (p_opt (p_sor (p_seq (is_char ":") u_prefix_value) (is_char "*"))).

(** UriTemplateParser.cc:115-148 checkVariableValidity *)
Definition invalid_variable (content : string) : option string :=
  match locator u_varspec content (""%string, ""%string) with
  | Raised _ | Runaway => None
  | Matched _ (m, e) | Failed (m, e) =>
    Some ("URI template variable '" +++ content +++ "' contains invalid " +++ m +++
          (if String.eqb e "" then "" else ", which should be encoded as '" +++ e +++ "'") +++
          ". Allowed characters for expressions are A-Z a-z 0-9 _ and percent encoded characters")%string
  end.
(** UriTemplateParser.cc:189-216 checkTemplateValidity of an invalid part *)
Definition invalid_part (content : string) : option string :=
  match locator u_literals content (""%string, ""%string) with
  | Raised _ | Runaway => None
  | Matched _ (m, _) | Failed (m, _) => Some ("URI template contains disallowed " +++ m +++ ". Disallowed characters must be percent encoded.")%string
  end.
(** UriTemplateParser.cc:161-183 isSupportedOperator, operatorToText *)
Definition supported (o : op_type) : bool :=
  match o with NoOp | ReservedChars | Fragment | QueryParam | QueryContinue => true | _ => false end.
Definition op_text (o : op_type) : string :=
  match o with Label => "label" | PathOp => "path segment" | PathParam => "path segment parameter" | _ => "reserved operator" end.
Definition sequence {A} (l : list (option A)) : option (list A) :=
  fold_right (fun o acc => match o, acc with Some x, Some l => Some (x :: l) | _, _ => None end) (Some []) l.
(** UriTemplateParser.cc:185-236 checkTemplateValidity: the warnings about a part *)
Definition check_part (p : part) : option (list string) :=
  match p with
  | Literals _ => Some []
  | InvalidPart t => option_map (fun m => [m]) (invalid_part t)
  | Expression x =>
    option_map (fun l =>
      ((if supported (x_type x) then [] else [("URI template '" +++ op_text (x_type x) +++ "' expansion is not supported")%string]) ++
       concat l ++
       (if x_unclosed x then ["URI Template expression is missing closing bracket '}'"%string] else []))%list)
      (sequence (map (fun v => match v with GoodItem _ => Some [] | InvalidItem t => option_map (fun m => [m]) (invalid_variable t) end) (x_vars x)))
  end.
(** UriTemplateParser.cc:252-291 parse: the parts and the texts of the warnings. Scheme, host and path are never read by the program;
    URI_REGEX matches every text. A parse_error would add its text as a warning: the result None stands for that, or for an endless loop. *)
Definition parse_parts (uri : string) : option (list part) :=
  match g_template uri [] with Matched _ l | Failed l => Some l | Raised _ | Runaway => None end.
Definition uri_warnings (uri : string) : option (list string) :=
  match uri with
  | EmptyString => Some []
  | _ => match parse_parts uri with
         | Some l => option_map (@concat string) (sequence (map check_part l))
         | None => None
         end
  end.
