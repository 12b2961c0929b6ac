(** Specification: a reader for the subset of YAML 1.2 consisting of block mappings, block
    sequences, double-quoted scalars, plain core-schema scalars and the empty flow
    collections. Nothing here refers to the printer. *)
From Verif Require Import Base Utf8Spec SoValue JsonSpec.
Local Open Scope string_scope.

(** YAML 1.2 production 1 c-printable *)
Definition c_printable (c : N) : bool :=
  ((c =? 0x09) || (c =? 0x0A) || (c =? 0x0D) || in_range 0x20 0x7E c || (c =? 0x85)
   || in_range 0xA0 0xD7FF c || in_range 0xE000 0xFFFD c || in_range 0x10000 0x10FFFF c)%N%bool.
(** line breaks of YAML 1.1 and 1.2 *)
Definition line_break (c : N) : bool :=
  ((c =? 0x0A) || (c =? 0x0D) || (c =? 0x85) || (c =? 0x2028) || (c =? 0x2029))%N%bool.

(** productions 42-58: the single-character escapes *)
Definition yaml_short_escape (a : ascii) : option N :=
  (let n := byte a in
   if n =? 48 then Some 0x00            (* 0 *)
   else if n =? 97 then Some 0x07       (* a *)
   else if n =? 98 then Some 0x08       (* b *)
   else if n =? 116 then Some 0x09      (* t *)
   else if n =? 9 then Some 0x09
   else if n =? 110 then Some 0x0A      (* n *)
   else if n =? 118 then Some 0x0B      (* v *)
   else if n =? 102 then Some 0x0C      (* f *)
   else if n =? 114 then Some 0x0D      (* r *)
   else if n =? 101 then Some 0x1B      (* e *)
   else if n =? 32 then Some 0x20
   else if n =? 34 then Some 0x22
   else if n =? 47 then Some 0x2F
   else if n =? 92 then Some 0x5C
   else if n =? 78 then Some 0x85       (* N *)
   else if n =? 95 then Some 0xA0       (* _ *)
   else if n =? 76 then Some 0x2028     (* L *)
   else if n =? 80 then Some 0x2029     (* P *)
   else None)%N.

Definition hexN (acc : N) (a : ascii) : option N :=
  match hexval a with Some x => Some (acc * 16 + x)%N | None => None end.
Fixpoint hexes (acc : N) (l : list ascii) : option N :=
  match l with
  | [] => Some acc
  | a :: r => match hexN acc a with Some n => hexes n r | None => None end
  end.

Definition consN (c : option N) (r : option (string * string)) : option (string * string) :=
  match c, r with Some n, Some (t, rest) => Some (utf8 n +++ t, rest) | _, _ => None end.

(** productions 107-116, single line: the content of a double-quoted scalar up to and including
    the closing quote; the denoted UTF-8 bytes and what follows *)
Fixpoint dq_chars (s : string) : option (string * string) :=
  match s with
  | EmptyString => None
  | String a r =>
    if (byte a =? 34)%N then Some (EmptyString, r)
    else if (byte a =? 92)%N then
      match r with
      | EmptyString => None
      | String u r1 =>
        if (byte u =? 120)%N then                                         (* x *)
          match r1 with
          | String a1 (String a2 q) => consN (hexes 0 [a1; a2]) (dq_chars q)
          | _ => None
          end
        else if (byte u =? 117)%N then                                    (* u *)
          match r1 with
          | String a1 (String a2 (String a3 (String a4 q))) => consN (hexes 0 [a1; a2; a3; a4]) (dq_chars q)
          | _ => None
          end
        else if (byte u =? 85)%N then                                     (* U *)
          match r1 with
          | String a1 (String a2 (String a3 (String a4 (String a5 (String a6 (String a7 (String a8 q))))))) =>
              consN (hexes 0 [a1; a2; a3; a4; a5; a6; a7; a8]) (dq_chars q)
          | _ => None
          end
        else consN (yaml_short_escape u) (dq_chars r1)
      end
    else if (byte a <? 32)%N then None
    else
      match dq_chars r with
      | Some (t, rest) => Some (String a t, rest)
      | None => None
      end
  end.

(** core schema (YAML 1.2 section 10.3.2): plain scalars that are not strings *)
Definition core_keyword (s : string) : bool :=
  existsb (String.eqb s)
    ["null"; "Null"; "NULL"; "~"; ""; "true"; "True"; "TRUE"; "false"; "False"; "FALSE"].

(** a plain scalar in value position *)
Definition plain_value (s : string) : option value :=
  if existsb (String.eqb s) ["null"; "Null"; "NULL"; "~"; ""] then Some VNull
  else if existsb (String.eqb s) ["true"; "True"; "TRUE"] then Some VTrue
  else if existsb (String.eqb s) ["false"; "False"; "FALSE"] then Some VFalse
  else if json_number s then Some (VNumber s)   (* JSON numbers are core-schema numbers *)
  else None.

(** a scalar or empty flow collection filling the rest of a line *)
Definition inline_value (s : string) : option value :=
  if String.eqb s "{}" then Some (VObject [])
  else if String.eqb s "[]" then Some (VArray [])
  else match s with
       | String a r =>
         if (byte a =? 34)%N then
           match dq_chars r with Some (t, EmptyString) => Some (VString t) | _ => None end
         else plain_value s
       | EmptyString => plain_value s
       end.

Definition letter (a : ascii) : bool := (in_range 65 90 (byte a) || in_range 97 122 (byte a))%bool.
Fixpoint span_letters (s : string) : string * string :=
  match s with
  | String a r => if letter a then let '(p, q) := span_letters r in (String a p, q) else (EmptyString, s)
  | EmptyString => (EmptyString, EmptyString)
  end.

(** a mapping key followed by ":" and then end of line or a space. A plain key made of letters
    is a string only if it is no core-schema keyword; any other node is no string key. *)
Inductive keyres := KNone | KKey (k : string) (rest : string) | KNonString.
Definition after_key (k : keyres) : keyres :=
  match k with
  | KKey k (String c r) =>
      if (byte c =? 58)%N then
        match r with
        | EmptyString => KKey k EmptyString
        | String sp r' => if (byte sp =? 32)%N then KKey k r else KNone
        end
      else KNone
  | _ => KNone
  end.
Definition read_key (s : string) : keyres :=
  match s with
  | String a r =>
    if (byte a =? 34)%N then
      match dq_chars r with Some (t, rest) => after_key (KKey t rest) | None => KNone end
    else
      let '(p, q) := span_letters s in
      match after_key (KKey p q) with
      | KKey k rest => if core_keyword k then KNonString else KKey k rest
      | other => other
      end
  | EmptyString => KNone
  end.

(** a line is its indentation and its content *)
Fixpoint indent_of (s : string) : nat * string :=
  match s with
  | String a r => if (byte a =? 32)%N then let '(n, c) := indent_of r in (S n, c) else (O, s)
  | EmptyString => (O, EmptyString)
  end.
Fixpoint split_lines (s : string) : list string :=
  match s with
  | EmptyString => [EmptyString]
  | String a r =>
    if (byte a =? 10)%N then EmptyString :: split_lines r
    else match split_lines r with
         | l :: ls => String a l :: ls
         | [] => [str1 a]
         end
  end.

Definition line := (nat * string)%type.

(** a sequence entry: the text after "-" (must be end of line or start with a space) *)
Definition seq_entry (c : string) : option string :=
  match c with
  | String d EmptyString => if (byte d =? 45)%N then Some EmptyString else None
  | String d (String sp r) => if ((byte d =? 45)%N && (byte sp =? 32)%N)%bool then Some (String sp r) else None
  | EmptyString => None
  end.

(** what follows ":" or "-" on a line: nothing (a nested block follows) or " value" *)
Definition tail_inline (t : string) : option (option value) :=
  match t with
  | EmptyString => Some None
  | String _ r => match inline_value r with Some v => Some (Some v) | None => None end
  end.

(** block nodes; [parent] is the indentation of the enclosing block plus one (0 at top level);
    nested blocks must be indented deeper than their parent. *)
Fixpoint block (fuel : nat) (parent : nat) (ls : list line) {struct fuel} : option (value * list line) :=
  match fuel with
  | O => None
  | S f =>
    match ls with
    | [] => None
    | (n, c) :: _ =>
      if Nat.ltb n parent then None
      else match seq_entry c with
           | Some _ => match blockseq f n ls with Some (vs, r) => Some (VArray vs, r) | None => None end
           | None =>
             match read_key c with
             | KKey _ _ => match mapping f n ls with Some (ms, r) => Some (VObject ms, r) | None => None end
             | KNonString => None
             | KNone => None
             end
           end
    end
  end
with blockseq (fuel : nat) (n : nat) (ls : list line) {struct fuel} : option (list value * list line) :=
  match fuel with
  | O => None
  | S f =>
    match ls with
    | [] => Some ([], [])
    | (m, c) :: r =>
      if Nat.eqb m n then
        match seq_entry c with
        | None => None
        | Some t =>
          match tail_inline t with
          | None => None
          | Some (Some v) => match blockseq f n r with Some (vs, q) => Some (v :: vs, q) | None => None end
          | Some None =>
            match block f (S n) r with
            | None => None
            | Some (v, r') => match blockseq f n r' with Some (vs, q) => Some (v :: vs, q) | None => None end
            end
          end
        end
      else if Nat.ltb m n then Some ([], ls) else None
    end
  end
with mapping (fuel : nat) (n : nat) (ls : list line) {struct fuel} : option (list (string * value) * list line) :=
  match fuel with
  | O => None
  | S f =>
    match ls with
    | [] => Some ([], [])
    | (m, c) :: r =>
      if Nat.eqb m n then
        match read_key c with
        | KKey k t =>
          match tail_inline t with
          | None => None
          | Some (Some v) => match mapping f n r with Some (ms, q) => Some ((k, v) :: ms, q) | None => None end
          | Some None =>
            match block f (S n) r with
            | None => None
            | Some (v, r') => match mapping f n r' with Some (ms, q) => Some ((k, v) :: ms, q) | None => None end
            end
          end
        | _ => None
        end
      else if Nat.ltb m n then Some ([], ls) else None
    end
  end.

(** a document: a block collection, or one scalar on a single line *)
Definition read_yaml (s : string) : option value :=
  let ls := split_lines s in
  match ls with
  | [l] =>
    match inline_value l with
    | Some v => Some v
    | None => match block (4 + 2 * String.length s) 0 (map indent_of ls) with
              | Some (v, []) => Some v
              | _ => None
              end
    end
  | _ => match block (4 + 2 * String.length s) 0 (map indent_of ls) with
         | Some (v, []) => Some v
         | _ => None
         end
  end.

(** the keys a YAML 1.2 core-schema reader resolves to null or a boolean when they are written
    without quotes, and that consist of letters only (so the printer writes them that way) *)
Definition letter_keyword (s : string) : bool :=
  existsb (String.eqb s)
    ["null"; "Null"; "NULL"; ""; "true"; "True"; "TRUE"; "false"; "False"; "FALSE"].
Definition key_ok (k : string) : Prop := wf_utf8 k /\ letter_keyword k = false.
Fixpoint yaml_ok (v : value) : Prop :=
  match v with
  | VString s => wf_utf8 s
  | VNumber s => json_number s = true
  | VObject ms => (fix all (l : list (string * value)) : Prop :=
      match l with [] => True | kv :: r => key_ok (fst kv) /\ yaml_ok (snd kv) /\ all r end) ms
  | VArray vs => (fix all (l : list value) : Prop :=
      match l with [] => True | x :: r => yaml_ok x /\ all r end) vs
  | _ => True
  end.
