(** Model of packages/apib-parser/src/markdown-parser/ByteBuffer.{h,cc} *)
From Verif Require Import Base.
Local Open Scope N_scope.

(** Wild: undefined behaviour (an access outside an object). Thrown: a C++ exception leaves the function.
    Endless: the fuel given did not suffice. *)
Inductive outcome (A : Type) : Type := Val (a : A) | Wild | Thrown | Endless.
Arguments Val {A} _.
Arguments Wild {A}.
Arguments Thrown {A}.
Arguments Endless {A}.
Definition andthen {A B} (o : outcome A) (f : A -> outcome B) : outcome B :=
  match o with Val a => f a | Wild => Wild | Thrown => Thrown | Endless => Endless end.

(** size_t: 64 bits *)
Definition w64 (n : N) : N := n mod 2 ^ 64.
Definition wadd (a b : N) : N := w64 (a + b).
Definition wsub (a b : N) : N := w64 (a + 2 ^ 64 - w64 b).

(** ByteBuffer.h:31-37 Range *)
Record range : Type := R { location : N; length : N }.

(** ByteBuffer.cc:14 UTF8_CHAR_LEN. char is signed: the sign bits shifted in are masked out. *)
Definition char_len (a : ascii) : N := N.land (N.shiftr 0xE5000000 (N.land (N.shiftr (byte a) 3) 0x1e)) 3 + 1.

(** s[i] for s = c_str(): the terminating NUL may be read, nothing behind it *)
Definition slen (s : string) : N := N.of_nat (String.length s).
Definition c_at (s : string) (i : N) : outcome ascii :=
  match String.get (N.to_nat i) s with
  | Some a => Val a
  | None => if i =? slen s then Val "000"%char else Wild
  end.

(** ByteBuffer.cc:17-28 strnlen_utf8, called with the pointer s.c_str() + off *)
Fixpoint strnlen_loop (fuel : nat) (s : string) (off len i j : N) : outcome N :=
  match fuel with
  | O => Endless
  | S fuel =>
    andthen (c_at s (off + i)) (fun a =>
    if (Ascii.eqb a "000" || negb (i <? len))%bool then Val j
    else strnlen_loop fuel s off len (i + char_len a) (j + 1))
  end.
Definition strnlen_utf8 (s : string) (off len : N) : outcome N :=
  if len =? 0 then Val 0 else strnlen_loop (S (String.length s)) s off len 0 0.

(** ByteBuffer.cc:31-53: the range accommodated to the source (workRange) is computed and not used *)
Definition to_characters (r : range) (s : string) : outcome range :=
  if slen s =? 0 then Val (R 0 0) else
  andthen (if 0 <? location r then strnlen_utf8 s 0 (location r) else Val 0) (fun loc =>
  andthen (if 0 <? length r then strnlen_utf8 s (location r) (length r) else Val 0) (fun len =>
  Val (R loc len))).

(** std::vector<size_t>: operator[] outside the bounds is undefined *)
Definition vec_get (v : list N) (i : N) : outcome N :=
  match nth_error v (N.to_nat i) with Some x => Val x | None => Wild end.
Fixpoint set_nth (v : list N) (i : nat) (x : N) : option (list N) :=
  match v, i with
  | [], _ => None
  | _ :: r, O => Some (x :: r)
  | y :: r, S i => option_map (cons y) (set_nth r i x)
  end.
Definition vec_set (v : list N) (i x : N) : outcome (list N) :=
  match set_nth v (N.to_nat i) x with Some w => Val w | None => Wild end.

(** ByteBuffer.cc:55-86 *)
Definition index_to_characters (r : range) (index : list N) : outcome range :=
  let size := N.of_nat (List.length index) in
  if size =? 0 then Val (R 0 0) else
  let over := size <? wadd (location r) (length r) in
  let len := if over then wsub (length r) (wsub (wadd (location r) (length r)) size) else length r in
  andthen (if 0 <? location r then vec_get index (location r) else Val 0) (fun loc =>
  andthen (if 0 <? len then
             let pos := wadd (location r) len in
             if size <=? pos then
               andthen (vec_get index (size - 1)) (fun x => Val (wsub x (wsub loc 1)))
             else
               andthen (vec_get index pos) (fun x => Val (wsub x loc))
           else Val 0) (fun n =>
  Val (R loc n))).

(** ByteBuffer.cc:88-109 BuildCharacterIndex: [fill] is the inner loop, [k] counts down *)
Fixpoint fill (index : list N) (pos : N) (k : nat) (c : N) : outcome (list N) :=
  match k with
  | O => Val index
  | S k' => andthen (vec_set index (pos - N.of_nat k) c) (fun index => fill index pos k' c)
  end.
Fixpoint index_loop (fuel : nat) (s : string) (pos cp : N) (index : list N) : outcome (list N) :=
  match fuel with
  | O => Endless
  | S fuel =>
    andthen (c_at s pos) (fun a =>
    if (Ascii.eqb a "000" || negb (pos <? slen s))%bool then Val index
    else
      let pos' := pos + char_len a in
      andthen (fill index pos' (N.to_nat (char_len a)) cp) (fun index =>
      index_loop fuel s pos' (cp + 1) index))
  end.
Definition build_index (s : string) : outcome (list N) :=
  index_loop (S (String.length s)) s 0 0 (repeat 0 (String.length s)).

(** ByteBuffer.cc:111-135 BytesRangeSetToCharactersRangeSet (both) *)
Fixpoint mapO {A B} (f : A -> outcome B) (l : list A) : outcome (list B) :=
  match l with [] => Val [] | x :: r => andthen (f x) (fun y => andthen (mapO f r) (fun ys => Val (y :: ys))) end.
Definition set_to_characters (rs : list range) (s : string) : outcome (list range) := mapO (fun r => to_characters r s) rs.
Definition index_set_to_characters (rs : list range) (index : list N) : outcome (list range) :=
  mapO (fun r => index_to_characters r index) rs.

(** ByteBuffer.cc:137-157 BytesRangeSetToConsecutiveCharactersRangeSet *)
Definition set_to_consecutive (rs : list range) (index : list N) : list range :=
  match rs with
  | [] => []
  | b :: _ => let e := last rs b in [R (location b) (wadd (location e) (length e))]
  end.

(** std::string::substr *)
Definition substr (s : string) (pos n : N) : outcome string :=
  if slen s <? pos then Thrown else Val (String.substring (N.to_nat pos) (N.to_nat n) s).
(** ByteBuffer.cc:159-183 MapBytesRangeSet *)
Fixpoint map_loop (rs : list range) (s : string) (acc : string) : outcome string :=
  match rs with
  | [] => Val acc
  | r :: rest =>
    if slen s <? wadd (location r) (length r) then
      if wsub (wadd (location r) (length r)) (slen s) =? 1 then
        andthen (substr s (location r) (wsub (slen s) (location r))) (fun t => Val (acc +++ t)%string)
      else Val ""%string
    else andthen (substr s (location r) (length r)) (fun t => map_loop rest s (acc +++ t)%string)
  end.
Definition map_ranges (rs : list range) (s : string) : outcome string :=
  match s with EmptyString => Val ""%string | _ => map_loop rs s "" end.

(** ByteBuffer.h:46-63 RangeSet::append. The first block of [val] may extend the last of [this]. *)
Definition append_set (this val : list range) : list range :=
  match val with
  | [] => this
  | v :: vr =>
    match rev this with
    | [] => (this ++ val)%list
    | b :: br =>
      if (location v =? wadd (location b) (length b)) then (rev br ++ R (location b) (wadd (length b) (length v)) :: vr)%list
      else (this ++ val)%list
    end
  end.
