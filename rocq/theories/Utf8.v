(** Model of packages/drafter/src/utils/Utf8.h *)
From Verif Require Import Base.
Local Open Scope N_scope.

(** Utf8.h:28 [replacement], Utf8.h:29 [invalid] *)
Definition replacement : N := 0xFFFD.
Definition invalid : N := 0xFFFFFFFF.

(** [first[i]] with [first] at the head of the remaining bytes; [None] models the
    undefined behaviour of reading past [last]. *)
Definition rd (i : nat) (s : string) : option N :=
  match String.get i s with Some a => Some (byte a) | None => None end.

(** Utf8.h:41-97 decode_one. The iterator pair (first,last) is the string of remaining
    bytes; the returned iterator is the string that remains. [None] = undefined behaviour
    (a read or an advance past [last]). *)
Definition decode_one (s : string) : option (N * string) :=
  match rd 0 s with
  | None => Some (invalid, s)                                   (* 43-44: first == last *)
  | Some cp =>
    if cp <? 0x80 then                                          (* 49-52 *)
      match sdrop 1 s with Some r => Some (cp, r) | None => None end
    else if cp <? 0xE0 then                                     (* 53-62 *)
      if Nat.ltb (String.length s) 2 then Some (replacement, EmptyString)
      else
        match rd 1 s, sdrop 2 s with
        | Some b1, Some r =>
          let result := N.lor (N.shiftl (N.land cp 0x1F) 6) (N.land b1 0x3F) in
          Some (if result <? 0x80 then replacement else result, r)
        | _, _ => None
        end
    else if cp <? 0xF0 then                                     (* 64-77 *)
      if Nat.ltb (String.length s) 3 then Some (replacement, EmptyString)
      else
        match rd 1 s, rd 2 s, sdrop 3 s with
        | Some b1, Some b2, Some r =>
          let result := N.lor (N.lor (N.shiftl (N.land cp 0x0F) 12)
                                     (N.shiftl (N.land b1 0x3F) 6))
                              (N.land b2 0x3F) in
          Some (if (0xD800 <=? result) && (result <=? 0xDFFF) then replacement
                else if result <? 0x800 then replacement else result, r)
        | _, _, _ => None
        end
    else                                                        (* 79-97 *)
      if Nat.ltb (String.length s) 4 then Some (replacement, EmptyString)
      else
        match rd 1 s, rd 2 s, rd 3 s, sdrop 4 s with
        | Some b1, Some b2, Some b3, Some r =>
          let result := N.lor (N.lor (N.lor (N.shiftl (N.land cp 0x07) 18)
                                            (N.shiftl (N.land b1 0x3F) 12))
                                     (N.shiftl (N.land b2 0x3F) 6))
                              (N.land b3 0x3F) in
          Some (if result <? 0x10000 then replacement
                else if 0x10FFFF <? result then replacement else result, r)
        | _, _, _, _ => None
        end
  end.

(** Utf8.h:108-175 encode: the bytes written to [out]. [None] models [assert(false)]
    (an invalid code point; with NDEBUG nothing is written). *)
Definition encode (c : N) : option string :=
  let byte1 n := chr (N.modulo n 256) in   (* conversion to std::uint8_t *)
  if c <? 0x80 then Some (str1 (byte1 c))
  else if c <? 0x800 then
    Some (String (byte1 (N.lor (N.land (N.shiftr c 6) 0x1F) 0xC0))
         (str1 (byte1 (N.lor (N.land c 0x3F) 0x80))))
  else if c <? 0x10000 then
    Some (String (byte1 (N.lor (N.land (N.shiftr c 12) 0x0F) 0xE0))
         (String (byte1 (N.lor (N.land (N.shiftr c 6) 0x3F) 0x80))
         (str1 (byte1 (N.lor (N.land c 0x3F) 0x80)))))
  else if c <? 0x110000 then
    Some (String (byte1 (N.lor (N.land (N.shiftr c 18) 0x07) 0xF0))
         (String (byte1 (N.lor (N.land (N.shiftr c 12) 0x3F) 0x80))
         (String (byte1 (N.lor (N.land (N.shiftr c 6) 0x3F) 0x80))
         (str1 (byte1 (N.lor (N.land c 0x3F) 0x80))))))
  else None.

(** Utf8.h:186-262 input_iterator together with the loops
    [for (p = input_iterator{b,e}; p != end; ++p) use( *p )] (YamlIo.cc:84-88,
    SourceMapUtils.cc:61-67). An iterator is its [cp_and_next_] pair; [end] is
    [(invalid, "")] = decode_one(e,e); [==] compares the pairs (Utf8.h:231-234).
    The fuel bounds the number of increments; [None] = undefined behaviour or
    out of fuel. The result is the sequence of code points the loop body sees. *)
Fixpoint iterate (fuel : nat) (it : N * string) : option (list N) :=
  let '(cp, next) := it in
  if (cp =? invalid) && (match next with EmptyString => true | _ => false end)
  then Some []
  else match fuel with
       | O => None
       | S f =>
         match decode_one next with
         | None => None
         | Some it' =>
           match iterate f it' with
           | None => None
           | Some l => Some (cp :: l)
           end
         end
       end.

Definition codepoints_fuel (fuel : nat) (s : string) : option (list N) :=
  match decode_one s with
  | None => None
  | Some it => iterate fuel it
  end.

(** all code points of a byte string, as the loops see them *)
Definition codepoints (s : string) : option (list N) := codepoints_fuel (String.length s) s.
