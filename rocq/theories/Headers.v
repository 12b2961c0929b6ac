(** Model of packages/apib-parser/src/snowcrash/HeadersParser.{h,cc}: the lines of a headers section. Source maps of the
    headers are not modelled. *)
From Verif Require Import Base ByteBuffer StringUtility Source.
Local Open Scope string_scope.

Definition header : Type := string * string.
Definition FormattingWarning : N := 3%N.
Definition HTTPWarning : N := 13%N.

Fixpoint take_while (p : ascii -> bool) (s : string) : string :=
  match s with String a r => if p a then String a (take_while p r) else "" | EmptyString => "" end.
Fixpoint drop_while (p : ascii -> bool) (s : string) : string :=
  match s with String a r => if p a then drop_while p r else s | EmptyString => "" end.
(** the part of a text regexec sees *)
Definition before_nul (s : string) : string := take_while (fun a => negb (Ascii.eqb a NUL)) s.

Definition blank_or_colon (a : ascii) : bool := (Ascii.eqb a " " || Ascii.eqb a "009" || Ascii.eqb a ":")%bool.
(** HeadersParser.h:209-212 and RegexMatch.cc:54-92: the captures 1, 3 and 4 of
    "spaces, name: not colon or blank, one or more; separator: spaces, optional colon, spaces; value: anything"
    by the rules of POSIX: every subexpression, from left to right, takes as much
    as it can. "C" locale: every byte is a character; without REG_NEWLINE, line feeds match too. *)
Definition header_parts (line : string) : option (string * string * string) :=
  if String.eqb line "" then None else
  let s := drop_while (fun a => Ascii.eqb a " ") (before_nul line) in
  let name := take_while (fun a => negb (blank_or_colon a)) s in
  let rest := drop_while (fun a => negb (blank_or_colon a)) s in
  if String.eqb name "" then None else
  let gap := take_while (fun a => Ascii.eqb a " ") rest in
  let rest := drop_while (fun a => Ascii.eqb a " ") rest in
  match rest with
  | String ":" rest =>
    Some (name, gap +++ ":" +++ take_while (fun a => Ascii.eqb a " ") rest, drop_while (fun a => Ascii.eqb a " ") rest)
  | _ => Some (name, gap, rest)
  end.

(** HeadersParser.cc:42-47 isNotValidTokenChar. std::isalnum in the "C" locale; for a negative char its behaviour is
    undefined by the standard, here the char is no letter. *)
Definition valid_chars := "-#$%&'*+.^_`|~".
Definition is_alnum (a : ascii) : bool := (in_range 48 57 (byte a) || in_range 65 90 (byte a) || in_range 97 122 (byte a))%bool.
Definition in_text (a : ascii) (s : string) : bool := match index 0 (String a "") s with Some _ => true | None => false end.
Definition not_token_char (a : ascii) : bool := negb (is_alnum a || in_text a valid_chars).
(** HeadersParser.cc:49-53 findNonValidCharInHeaderName: [None] for end() *)
Fixpoint find_invalid (s : string) : option ascii :=
  match s with EmptyString => None | String a r => if not_token_char a then Some a else find_invalid r end.

(** HeadersParser.cc:67-68: std::hex << static_cast<int16_t>(c), char signed *)
Definition hex_digit (n : N) : ascii := chr (if (n <? 10)%N then 48 + n else 87 + n)%N.
Definition hex16 (a : ascii) : string :=
  let low := String (hex_digit (byte a mod 16)) "" in
  if (128 <=? byte a)%N then "ff" +++ String (hex_digit (byte a / 16)) low
  else if (byte a <? 16)%N then low else String (hex_digit (byte a / 16)) low.

(** HeadersParser.cc:30-39 isAllowedMultipleDefinition *)
Definition allowed_multiple (h : header) : bool := (iequal (fst h) "Set-Cookie" || iequal (fst h) "Link")%bool.
(** HeadersParser.cc:6-11 findHeader *)
Definition has_header (hs : list header) (h : header) : bool := existsb (fun x => iequal (fst x) (fst h)) hs.

(** HeadersParser.cc:113-122 HeaderParserValidator *)
Definition validate (ok : bool) (message : string) (loc : list range) : list annotation :=
  if ok then [] else [An loc HTTPWarning message].

(** HeadersParser.h:202-238 parseHeaderLine: the header if the line is valid, and the warnings *)
Definition parse_header_line (line : string) (headers : list header) (loc : list range) : option header * list annotation :=
  match header_parts line with
  | None =>
    (None, [An loc FormattingWarning "unable to parse HTTP header, expected '<header name> : <header value>', one header per line"])
  | Some (name, sep, value) =>
    let h := (name, trim value) in
    match find_invalid name with
    | Some c =>
      (None, [An loc HTTPWarning ("HTTP header name '" +++ name +++ "' contains illegal character '" +++ String c ("' (0x" +++ hex16 c +++ ") skipping the header"))])
    | None =>
      (if String.eqb name "" then None else Some h,
       app (validate (in_text ":" sep) ("missing colon after header name '" +++ name +++ "'") loc)
       (app (validate (negb (has_header headers h) || allowed_multiple h)%bool ("duplicate definition of '" +++ name +++ "' header") loc)
            (validate (negb (String.eqb (snd h) "")) ("HTTP header '" +++ name +++ "' has no value") loc)))
    end
  end.

(** HeadersParser.h:240-260 fetchLine: the lengths are of the type size_t *)
Definition fetch_line (input : string) (map : range) : outcome (option (range * string)) :=
  if (slen input <? wadd (location map) (length map))%N then Val None else
  let (off, len) := trim_info (substring (N.to_nat (location map)) (N.to_nat (length map)) input) in
  let len := Z.to_N (len mod 2 ^ 64) in
  if (len =? 0)%N then Val None else
  let loc := wadd (location map) (Z.to_N off) in
  andthen (substr input loc len) (fun line => Val (Some (R loc len, line))).

(** HeadersParser.h:262-265 isCodeFence: memcmp is given 3 bytes also of texts with less; the first difference decides *)
Definition is_code_fence (line : string) : bool := (prefix "```" line || prefix "~~~" line)%bool.

(** HeadersParser.h:268-308 headersFromContent. [first]: it == from *)
Fixpoint headers_loop (ranges : list range) (first fence : bool) (source : string) (index : list N)
  (headers : list header) (warnings : list annotation) : outcome (list header * list annotation) :=
  match ranges with
  | [] => Val (headers, warnings)
  | r :: ranges =>
    andthen (fetch_line source r) (fun f =>
    match f with
    | None => headers_loop ranges false fence source index headers warnings
    | Some (map, line) =>
      let fence := if first then is_code_fence line else fence in
      if (fence && is_code_fence line)%bool then headers_loop ranges false fence source index headers warnings else
      andthen (index_set_to_characters [map] index) (fun loc =>
      let (h, w) := parse_header_line line headers loc in
      headers_loop ranges false fence source index (app headers (match h with Some h => [h] | None => [] end)) (app warnings w))
    end)
  end.
Definition headers_from_content (ranges : list range) (source : string) (index : list N) (headers : list header)
  (warnings : list annotation) : outcome (list header * list annotation) :=
  headers_loop ranges true false source index headers warnings.
