(** Model of packages/drafter/src/utils/so/YamlIo.cc. An [std::ostream] is the string written
    to it. *)
From Verif Require Import Base Utf8 SoValue JsonIo.
Local Open Scope string_scope.

(** YamlIo.cc:28-34 is_alphanum_dash; [char] is signed, so bytes above 0x7F are below 'A'.
    (Despite its name it accepts exactly the strings of ASCII letters, the empty one included.) *)
Definition is_alphanum_dash_char (c : ascii) : bool :=
  let z := if (byte c <? 128)%N then Z.of_N (byte c) else (Z.of_N (byte c) - 256)%Z in
  negb ((z <? 65)%Z || (122 <? z)%Z || ((90 <? z)%Z && (z <? 97)%Z) || (z =? 45)%Z).
Definition is_alphanum_dash (s : string) : bool := sforall is_alphanum_dash_char s.

(** YamlIo.cc:36-46 is_yaml_printable *)
Definition is_yaml_printable (c : N) : bool :=
  ((c =? 0x9) || (c =? 0xA) || (c =? 0xD) || ((0x20 <=? c) && (c <=? 0x7E)) || (c =? 0x85)
   || ((0xA0 <=? c) && (c <=? 0xD7FF)) || ((0xE000 <=? c) && (c <=? 0xFFFD) && negb (c =? 0xFEFF))
   || ((0x10000 <=? c) && (c <=? 0x10FFFF)))%N%bool.

(** one hexadecimal digit as written by printf %X (upper case) *)
Definition hexdigitU (n : N) : ascii :=
  chr (if (n <? 10)%N then 48 + n else 55 + n)%N.

(** YamlIo.cc:48-64 serialize_escaped: \xHH, \uHHHH or \UHHHHHHHH (code points are < 2^32) *)
Definition serialize_escaped (c : N) : string :=
  let d k := hexdigitU ((c / 16 ^ k) mod 16)%N in
  if (c <? 0x100)%N then String "\" (String "x" (String (d 1%N) (str1 (d 0%N))))
  else if (c <? 0x10000)%N then
    String "\" (String "u" (String (d 3%N) (String (d 2%N) (String (d 1%N) (str1 (d 0%N))))))
  else
    String "\" (String "U" (String (d 7%N) (String (d 6%N) (String (d 5%N) (String (d 4%N)
      (String (d 3%N) (String (d 2%N) (String (d 1%N) (str1 (d 0%N)))))))))).

(** YamlIo.cc:66-76 escape_sequence *)
Definition escape_sequence (c : ascii) : string := String "\" (str1 c).

(** YamlIo.cc:84-155 the switch on one code point. [None] = utf8::encode asserts. *)
Definition escape_yaml_cp (c : N) : option string :=
  (if c =? 0x00 then Some (escape_sequence "0")
   else if c =? 0x07 then Some (escape_sequence "a")
   else if c =? 0x08 then Some (escape_sequence "b")
   else if c =? 0x09 then Some (escape_sequence "t")
   else if c =? 0x0A then Some (escape_sequence "n")
   else if c =? 0x0B then Some (escape_sequence "v")
   else if c =? 0x0C then Some (escape_sequence "f")
   else if c =? 0x0D then Some (escape_sequence "r")
   else if c =? 0x1B then Some (escape_sequence "e")
   else if c =? 0x22 then Some (escape_sequence dquote)
   else if c =? 0x5C then Some (escape_sequence "\")
   else if c =? 0x85 then Some (escape_sequence "N")
   else if c =? 0xA0 then Some (escape_sequence "_")
   else if c =? 0x2028 then Some (escape_sequence "L")
   else if c =? 0x2029 then Some (escape_sequence "P")
   else if is_yaml_printable c then encode c
   else Some (serialize_escaped c))%N.

Fixpoint escape_yaml_cps (cs : list N) : option string :=
  match cs with
  | [] => Some ""
  | c :: r => match escape_yaml_cp c, escape_yaml_cps r with
              | Some a, Some b => Some (a +++ b)
              | _, _ => None
              end
  end.

(** YamlIo.cc:78-158 escape_yaml_string: the utf8 iterator loop *)
Definition escape_yaml_string (s : string) : option string :=
  match codepoints s with
  | None => None
  | Some cs => escape_yaml_cps cs
  end.

(** YamlIo.cc:160-169 serialize_yaml(ostream, string) *)
Definition yaml_string (s : string) : option string :=
  match escape_yaml_string s with
  | Some t => Some (str1 dquote +++ t +++ str1 dquote)
  | None => None
  end.

(** YamlIo.cc:171-176 do_indent = spaces2 of JsonIo.v; 185-188 etc.: the blank before scalars *)
Definition yaml_sp (indent : nat) : string := match indent with O => "" | S _ => " " end.
Definition yaml_nl (indent : nat) : string := match indent with O => "" | S _ => nl end.

Definition yaml_key (k : string) : option string :=
  if is_alphanum_dash k then Some k else yaml_string k.

(** YamlIo.cc:178-299 yaml_printer. [newlines] is the C++ local counter, initially size-1. *)
Fixpoint yaml_print (indent : nat) (v : value) {struct v} : option string :=
  match v with
  | VNull => Some (yaml_sp indent +++ "null")
  | VTrue => Some (yaml_sp indent +++ "true")
  | VFalse => Some (yaml_sp indent +++ "false")
  | VString s => match yaml_string s with Some t => Some (yaml_sp indent +++ t) | None => None end
  | VNumber s => Some (yaml_sp indent +++ s)
  | VObject [] => Some (yaml_sp indent +++ "{}")
  | VObject ms =>
      match
      (fix go (newlines : Z) (l : list (string * value)) {struct l} : option string :=
         match l with
         | [] => Some ""
         | (k, x) :: r =>
           match yaml_key k, yaml_print (S indent) x,
                 go (if (0 <? newlines)%Z then newlines - 1 else newlines)%Z r with
           | Some k', Some x', Some r' =>
               Some (spaces2 indent +++ k' +++ ":" +++ x' +++
                     (if (0 <? newlines)%Z then nl else "") +++ r')
           | _, _, _ => None
           end
         end) (Z.of_nat (List.length ms) - 1)%Z ms
      with Some t => Some (yaml_nl indent +++ t) | None => None end
  | VArray [] => Some (yaml_sp indent +++ "[]")
  | VArray vs =>
      match
      (fix go (newlines : Z) (l : list value) {struct l} : option string :=
         match l with
         | [] => Some ""
         | x :: r =>
           match yaml_print (S indent) x,
                 go (if (0 <? newlines)%Z then newlines - 1 else newlines)%Z r with
           | Some x', Some r' =>
               Some (spaces2 indent +++ "-" +++ x' +++
                     (if (0 <? newlines)%Z then nl else "") +++ r')
           | _, _ => None
           end
         end) (Z.of_nat (List.length vs) - 1)%Z vs
      with Some t => Some (yaml_nl indent +++ t) | None => None end
  end.

(** YamlIo.cc:301-305 serialize_yaml(ostream, Value) *)
Definition serialize_yaml (v : value) : option string := yaml_print 0 v.
