(** Model of packages/drafter/src/SourceMapUtils.cc, RefractSourceMap.cc and AnnotationToRefract
    (RefractAPI.cc:633-647). size_t is [N]; additions that can wrap are taken mod 2^64. *)
From Coq Require Import DecimalString.
From Verif Require Import Base Utf8 Element.
Local Open Scope N_scope.

Definition two64 : N := 2 ^ 64.

(** markdown-parser ByteBuffer.h:23-33 Range *)
Record range : Type := Range { location : N; len : N }.

(** SourceMapUtils.cc:60-66: the loop over the code points; [i] counts them from 1.
    Simplification: [i] is an int in the code and is not wrapped here (it would need a source of
    2^31 characters). *)
Fixpoint newline_positions (i : N) (cps : list N) : list N :=
  match cps with
  | [] => []
  | c :: r => if c =? 10 then i :: newline_positions (i + 1) r else newline_positions (i + 1) r
  end.

(** SourceMapUtils.cc:51-69 GetLinesEndIndex; None only if iterating the source is undefined *)
Definition GetLinesEndIndex (source : string) : option (list N) :=
  option_map (fun cps => 0 :: newline_positions 1 cps) (codepoints source).

(** std::upper_bound(begin, end, x) - begin on an ascending vector: the number of leading
    entries that are <= x *)
Fixpoint upper_bound (l : list N) (x : N) : nat :=
  match l with
  | [] => O
  | y :: r => if y <=? x then S (upper_bound r x) else O
  end.
(** std::lower_bound: the number of leading entries that are < x *)
Fixpoint lower_bound (l : list N) (x : N) : nat :=
  match l with
  | [] => O
  | y :: r => if y <? x then S (lower_bound r x) else O
  end.

(** SourceMapUtils.h:22-27 *)
Record position : Type := Position { fromLine : N; fromColumn : N; toLine : N; toColumn : N }.

(** *std::prev(it) for an iterator at distance [i] from begin; None = before the beginning *)
Definition deref_prev (l : list N) (i : nat) : option N :=
  match i with O => None | S j => nth_error l j end.

(** unsigned subtraction *)
Definition wsub (a b : N) : N := (a + two64 - b) mod two64.

(** SourceMapUtils.cc:11-49 GetLineFromMap; None = undefined behaviour (std::prev of begin) *)
Definition GetLineFromMap (l : list N) (r : range) : option position :=
  match l with
  | [] => Some (Position 0 0 0 0)                                            (* 15-17 *)
  | first :: _ =>
    let it := upper_bound l (location r) in                                 (* 19 *)
    let from :=
      if Nat.eqb it (List.length l) then Some (0, 0)                        (* 21 *)
      else match deref_prev l it with
           | Some p => Some (N.of_nat it, (wsub (location r) p + 1) mod two64) (* 22-23 *)
           | None => None
           end in
    match from with
    | None => None
    | Some (fl, fc) =>
      let e := (location r + len r) mod two64 in
      let it2 := lower_bound l e in                                         (* 27-28 *)
      if last l 0 <? e then                                                 (* 36-40 *)
        Some (Position fl fc (N.of_nat (List.length l)) 1)
      else if Nat.eqb it2 (List.length l) then Some (Position fl fc 0 0)    (* 44 *)
      else match deref_prev l it2 with                                      (* 45-46 *)
           | Some p => Some (Position fl fc (N.of_nat it2) (wsub e p))
           | None => None
           end
    end
  end.

(** std::to_string of an unsigned number, through dsd/Number.h:33-46 *)
Definition dec (n : N) : string := NilZero.string_of_uint (N.to_uint n).

(** refract/Element.h:180-191 from_primitive *)
Definition num_elem (n : N) : element := make_element (DNumber (dec n)).
Definition str_elem (s : string) : element := make_element (DString s).

(** RefractSourceMap.cc:8-13 CharacterRangeToRefract *)
Definition CharacterRangeToRefract (r : range) : element :=
  make_element (DArray [num_elem (location r); num_elem (len r)]).

(** RefractSourceMap.cc:17-29 SourceMapToRefract *)
Definition SourceMapToRefract (rs : list range) : element :=
  make_element (DArray [set_name (make_element (DArray (map CharacterRangeToRefract rs))) "sourceMap"]).

(** RefractSourceMap.cc:41-53: one range with its line and column attributes *)
Definition range_with_position (index : list N) (r : range) : option element :=
  match GetLineFromMap index r with
  | None => None
  | Some p =>
    let loc := set_attrs (num_elem (location r))
                 (iset (iset [] "line" (num_elem (fromLine p))) "column" (num_elem (fromColumn p))) in
    let ln := set_attrs (num_elem (len r))
                 (iset (iset [] "line" (num_elem (toLine p))) "column" (num_elem (toColumn p))) in
    Some (make_element (DArray [loc; ln]))
  end.

Fixpoint ranges_with_position (index : list N) (rs : list range) : option (list element) :=
  match rs with
  | [] => Some []
  | r :: t =>
    match range_with_position index r, ranges_with_position index t with
    | Some x, Some xs => Some (x :: xs)
    | _, _ => None
    end
  end.

(** RefractSourceMap.cc:31-56 SourceMapToRefractWithColumnLineInfo *)
Definition SourceMapToRefractWithColumnLineInfo (index : list N) (rs : list range) : option element :=
  match ranges_with_position index rs with
  | None => None
  | Some l => Some (make_element (DArray [set_name (make_element (DArray l)) "sourceMap"]))
  end.

(** snowcrash/SourceAnnotation.h:37-100 SourceAnnotation *)
Record annotation : Type := Annotation { a_message : string; a_code : N; a_location : list range }.

(** RefractAPI.cc:633-647 AnnotationToRefract. Simplification: codes are not negative. *)
Definition AnnotationToRefract (index : list N) (key : string) (a : annotation) : option element :=
  match SourceMapToRefractWithColumnLineInfo index (a_location a) with
  | None => None
  | Some sm =>
    Some (Elem "annotation"
            (iset [] "classes" (make_element (DArray [str_elem key])))
            (iset (iset [] "code" (num_elem (a_code a))) "sourceMap" sm)
            true (DString (a_message a)))
  end.
