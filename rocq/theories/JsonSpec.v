(** Specification: JSON texts per RFC 8259, as a grammar relation and as a reader. Nothing
    here refers to the printer. *)
From Verif Require Import Base Utf8Spec SoValue.
Local Open Scope string_scope.

(** RFC 8259 section 2: ws = space / tab / LF / CR *)
Definition is_ws (a : ascii) : bool :=
  let n := byte a in (n =? 32)%N || (n =? 9)%N || (n =? 10)%N || (n =? 13)%N.

Definition is_digit (a : ascii) : bool := in_range 48 57 (byte a).

(** RFC 8259 section 6: number = [ minus ] int [ frac ] [ exp ] *)
Fixpoint digits0 (s : string) : string :=       (* what remains after a run of digits *)
  match s with
  | String a r => if is_digit a then digits0 r else s
  | EmptyString => EmptyString
  end.
Definition digits1 (s : string) : option string :=
  match s with
  | String a r => if is_digit a then Some (digits0 r) else None
  | EmptyString => None
  end.
Definition exp_part (s : string) : option string :=
  match s with
  | String a r =>
      if (Ascii.eqb a "e" || Ascii.eqb a "E")%bool then
        match r with
        | String b r' => if (Ascii.eqb b "+" || Ascii.eqb b "-")%bool then digits1 r' else digits1 r
        | EmptyString => None
        end
      else Some s
  | EmptyString => Some s
  end.
Definition frac_part (s : string) : option string :=
  match s with
  | String a r => if Ascii.eqb a "." then digits1 r else Some s
  | EmptyString => Some s
  end.
Definition int_part (s : string) : option string :=
  match s with
  | String a r => if Ascii.eqb a "0" then Some r else digits1 s
  | EmptyString => None
  end.
Definition json_number (s : string) : bool :=
  let s1 := match s with String a r => if Ascii.eqb a "-" then r else s | EmptyString => s end in
  match int_part s1 with
  | None => false
  | Some s2 =>
    match frac_part s2 with
    | None => false
    | Some s3 => match exp_part s3 with Some EmptyString => true | _ => false end
    end
  end.

(** hexadecimal digits, either case *)
Definition hexval (a : ascii) : option N :=
  let n := byte a in
  if in_range 48 57 n then Some (n - 48)%N
  else if in_range 97 102 n then Some (n - 87)%N
  else if in_range 65 70 n then Some (n - 55)%N
  else None.
Definition hex4 (a b c d : ascii) : option N :=
  match hexval a, hexval b, hexval c, hexval d with
  | Some x, Some y, Some z, Some w => Some (((x * 16 + y) * 16 + z) * 16 + w)%N
  | _, _, _, _ => None
  end.

(** RFC 8259 section 7: the two-character escapes *)
Definition short_escape (a : ascii) : option ascii :=
  let n := byte a in
  if (n =? 34)%N then Some (chr 34)
  else if (n =? 92)%N then Some (chr 92)
  else if (n =? 47)%N then Some (chr 47)
  else if (n =? 98)%N then Some (chr 8)
  else if (n =? 102)%N then Some (chr 12)
  else if (n =? 110)%N then Some (chr 10)
  else if (n =? 114)%N then Some (chr 13)
  else if (n =? 116)%N then Some (chr 9)
  else None.

(** Section 7: the characters of a string up to and including the closing quotation mark;
    returns the denoted byte string and what follows. Bytes above 0x7F stand for themselves
    (UTF-8 text). A \u escape denotes the UTF-8 bytes of its code point; surrogates must come
    in pairs. *)
Fixpoint read_chars (s : string) : option (string * string) :=
  match s with
  | EmptyString => None
  | String a r =>
    if (byte a =? 34)%N then Some (EmptyString, r)
    else if (byte a =? 92)%N then
      match r with
      | String u r1 =>
        if (byte u =? 117)%N then
          match r1 with
          | String h1 (String h2 (String h3 (String h4 r2))) =>
            match hex4 h1 h2 h3 h4 with
            | None => None
            | Some c =>
              if in_range 0xD800 0xDBFF c then
                match r2 with
                | String b1 (String b2 (String k1 (String k2 (String k3 (String k4 r3))))) =>
                  if ((byte b1 =? 92)%N && (byte b2 =? 117)%N)%bool then
                    match hex4 k1 k2 k3 k4 with
                    | Some lo =>
                      if in_range 0xDC00 0xDFFF lo then
                        match read_chars r3 with
                        | Some (t, rest) =>
                            Some ((utf8 (0x10000 + (c - 0xD800) * 1024 + (lo - 0xDC00))) +++ t, rest)
                        | None => None
                        end
                      else None
                    | None => None
                    end
                  else None
                | _ => None
                end
              else if in_range 0xDC00 0xDFFF c then None
              else
                match read_chars r2 with
                | Some (t, rest) => Some (utf8 c +++ t, rest)
                | None => None
                end
            end
          | _ => None
          end
        else
          match short_escape u with
          | Some x => match read_chars r1 with
                      | Some (t, rest) => Some (String x t, rest)
                      | None => None
                      end
          | None => None
          end
      | EmptyString => None
      end
    else if (byte a <? 32)%N then None           (* control characters must be escaped *)
    else
      match read_chars r with
      | Some (t, rest) => Some (String a t, rest)
      | None => None
      end
  end.

Fixpoint skip_ws (s : string) : string :=
  match s with
  | String a r => if is_ws a then skip_ws r else s
  | EmptyString => EmptyString
  end.

Definition num_char (a : ascii) : bool :=
  is_digit a || Ascii.eqb a "-" || Ascii.eqb a "+" || Ascii.eqb a "." || Ascii.eqb a "e" || Ascii.eqb a "E".
(** the longest prefix of number characters, and the rest *)
Fixpoint span_num (s : string) : string * string :=
  match s with
  | String a r => if num_char a then let '(p, q) := span_num r in (String a p, q) else (EmptyString, s)
  | EmptyString => (EmptyString, EmptyString)
  end.

Fixpoint strip_prefix (p s : string) : option string :=
  match p, s with
  | EmptyString, _ => Some s
  | String a p', String b s' => if Ascii.eqb a b then strip_prefix p' s' else None
  | _, _ => None
  end.

(** Sections 3-5: values, objects, arrays. [fuel] bounds the recursion. *)
Fixpoint read_value (fuel : nat) (s : string) {struct fuel} : option (value * string) :=
  match fuel with
  | O => None
  | S f =>
    let s := skip_ws s in
    match strip_prefix "null" s with Some r => Some (VNull, r) | None =>
    match strip_prefix "true" s with Some r => Some (VTrue, r) | None =>
    match strip_prefix "false" s with Some r => Some (VFalse, r) | None =>
    match s with
    | EmptyString => None
    | String a r =>
      if (byte a =? 34)%N then
        match read_chars r with Some (t, rest) => Some (VString t, rest) | None => None end
      else if (byte a =? 123)%N then               (* { *)
        match skip_ws r with
        | String c r' =>
          if (byte c =? 125)%N then Some (VObject [], r')
          else match read_members f r with Some (ms, rest) => Some (VObject ms, rest) | None => None end
        | EmptyString => None
        end
      else if (byte a =? 91)%N then                (* [ *)
        match skip_ws r with
        | String c r' =>
          if (byte c =? 93)%N then Some (VArray [], r')
          else match read_elems f r with Some (vs, rest) => Some (VArray vs, rest) | None => None end
        | EmptyString => None
        end
      else
        let '(n, rest) := span_num s in
        if json_number n then Some (VNumber n, rest) else None
    end end end end
  end
with read_members (fuel : nat) (s : string) {struct fuel} : option (list (string * value) * string) :=
  match fuel with
  | O => None
  | S f =>
    match skip_ws s with
    | String q r =>
      if (byte q =? 34)%N then
        match read_chars r with
        | None => None
        | Some (k, r1) =>
          match skip_ws r1 with
          | String c r2 =>
            if (byte c =? 58)%N then               (* : *)
              match read_value f r2 with
              | None => None
              | Some (v, r3) =>
                match skip_ws r3 with
                | String d r4 =>
                  if (byte d =? 44)%N then         (* , *)
                    match read_members f r4 with
                    | Some (ms, rest) => Some ((k, v) :: ms, rest)
                    | None => None
                    end
                  else if (byte d =? 125)%N then Some ([(k, v)], r4)
                  else None
                | EmptyString => None
                end
              end
            else None
          | EmptyString => None
          end
        end
      else None
    | EmptyString => None
    end
  end
with read_elems (fuel : nat) (s : string) {struct fuel} : option (list value * string) :=
  match fuel with
  | O => None
  | S f =>
    match read_value f s with
    | None => None
    | Some (v, r3) =>
      match skip_ws r3 with
      | String d r4 =>
        if (byte d =? 44)%N then
          match read_elems f r4 with
          | Some (vs, rest) => Some (v :: vs, rest)
          | None => None
          end
        else if (byte d =? 93)%N then Some ([v], r4)
        else None
      | EmptyString => None
      end
    end
  end.

(** a JSON text: one value surrounded by whitespace and nothing else *)
Definition read_json (s : string) : option value :=
  match read_value (S (String.length s)) s with
  | Some (v, rest) => match skip_ws rest with EmptyString => Some v | _ => None end
  | None => None
  end.

(** all numbers of a tree are JSON numbers *)
Fixpoint numbers_ok (v : value) : bool :=
  match v with
  | VNumber s => json_number s
  | VObject ms => (fix all (l : list (string * value)) : bool :=
      match l with [] => true | kv :: r => numbers_ok (snd kv) && all r end) ms
  | VArray vs => (fix all (l : list value) : bool :=
      match l with [] => true | x :: r => numbers_ok x && all r end) vs
  | _ => true
  end.

(** all strings and keys of a tree satisfy [P] *)
Fixpoint strings_ok (P : string -> Prop) (v : value) : Prop :=
  match v with
  | VString s => P s
  | VObject ms => (fix all (l : list (string * value)) : Prop :=
      match l with [] => True | kv :: r => P (fst kv) /\ strings_ok P (snd kv) /\ all r end) ms
  | VArray vs => (fix all (l : list value) : Prop :=
      match l with [] => True | x :: r => strings_ok P x /\ all r end) vs
  | _ => True
  end.

(** removal of whitespace outside strings: [q] = inside a string, [e] = after a backslash *)
Fixpoint minify_from (q e : bool) (s : string) : string :=
  match s with
  | EmptyString => EmptyString
  | String a r =>
    if q then String a (if e then minify_from true false r
                        else if (byte a =? 92)%N then minify_from true true r
                        else if (byte a =? 34)%N then minify_from false false r
                        else minify_from true false r)
    else if is_ws a then minify_from false false r
    else String a (minify_from (byte a =? 34)%N false r)
  end.
Definition minify (s : string) : string := minify_from false false s.

(** ** The RFC 8259 grammar as a relation: [Json v s] = the characters [s] are a JSON value
    (without surrounding whitespace) denoting [v]. *)
Definition Ws (s : string) : Prop := sforall is_ws s = true.

Inductive Chars : string -> string -> Prop :=    (* denoted bytes, characters between the quotes *)
| Ch_nil : Chars "" ""
| Ch_plain : forall a t s, (32 <= byte a)%N -> byte a <> 34%N -> byte a <> 92%N ->
    Chars t s -> Chars (String a t) (String a s)
| Ch_short : forall a x t s, short_escape a = Some x -> Chars t s ->
    Chars (String x t) (String "\" (String a s))
| Ch_u : forall a b c d n t s, hex4 a b c d = Some n -> scalar n -> Chars t s ->
    Chars (utf8 n +++ t) (String "\" (String "u" (String a (String b (String c (String d s))))))
| Ch_uu : forall a b c d hi a' b' c' d' lo t s, hex4 a b c d = Some hi -> hex4 a' b' c' d' = Some lo ->
    (0xD800 <= hi <= 0xDBFF)%N -> (0xDC00 <= lo <= 0xDFFF)%N -> Chars t s ->
    Chars (utf8 (0x10000 + (hi - 0xD800) * 1024 + (lo - 0xDC00)) +++ t)
          (String "\" (String "u" (String a (String b (String c (String d
           (String "\" (String "u" (String a' (String b' (String c' (String d' s)))))))))))).

Definition quoted (s : string) : string := str1 (chr 34) +++ s +++ str1 (chr 34).

Inductive Json : value -> string -> Prop :=
| J_null : Json VNull "null"
| J_true : Json VTrue "true"
| J_false : Json VFalse "false"
| J_string : forall t s, Chars t s -> Json (VString t) (quoted s)
| J_number : forall s, json_number s = true -> Json (VNumber s) s
| J_object0 : forall w, Ws w -> Json (VObject []) ("{" +++ w +++ "}")
| J_object : forall ms s, ms <> [] -> Members ms s -> Json (VObject ms) ("{" +++ s +++ "}")
| J_array0 : forall w, Ws w -> Json (VArray []) ("[" +++ w +++ "]")
| J_array : forall vs s, vs <> [] -> Elems vs s -> Json (VArray vs) ("[" +++ s +++ "]")
with Members : list (string * value) -> string -> Prop :=
| M_one : forall k ks v vs w1 w2 w3 w4, Chars k ks -> Json v vs -> Ws w1 -> Ws w2 -> Ws w3 -> Ws w4 ->
    Members [(k, v)] (w1 +++ quoted ks +++ w2 +++ ":" +++ w3 +++ vs +++ w4)
| M_cons : forall k ks v vs w1 w2 w3 w4 ms s, Chars k ks -> Json v vs -> Ws w1 -> Ws w2 -> Ws w3 -> Ws w4 ->
    ms <> [] -> Members ms s ->
    Members ((k, v) :: ms) (w1 +++ quoted ks +++ w2 +++ ":" +++ w3 +++ vs +++ w4 +++ "," +++ s)
with Elems : list value -> string -> Prop :=
| E_one : forall v vs w1 w2, Json v vs -> Ws w1 -> Ws w2 -> Elems [v] (w1 +++ vs +++ w2)
| E_cons : forall v vs w1 w2 l s, Json v vs -> Ws w1 -> Ws w2 -> l <> [] -> Elems l s ->
    Elems (v :: l) (w1 +++ vs +++ w2 +++ "," +++ s).

Definition Json_text (v : value) (s : string) : Prop :=
  exists w1 t w2, Ws w1 /\ Ws w2 /\ Json v t /\ s = w1 +++ t +++ w2.
