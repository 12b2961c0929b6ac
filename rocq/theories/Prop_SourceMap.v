(** Property C35: line and column of annotations (packages/drafter/src/SourceMapUtils.cc). *)
From Verif Require Import Base Utf8 Utf8Spec Utf8Proofs Element SourceMap SourceMapSpec SourceMapProofs Prop_Utf8.
Local Open Scope N_scope.

(** C35: for any source and any range with a positive end, the reported position is defined.
    The start is the line and column of the character at [location] provided a newline follows
    at or after it; else line and column are 0. The end is the line and column of the last
    character of the range provided a newline follows at or after it; else it is the last line
    of the source with column 1. *)
Theorem C35_positions : forall source, exists text index,
  codepoints source = Some text /\ GetLinesEndIndex source = Some index /\
  forall r, 0 < location r + len r < 2 ^ 63 ->
  let last_char := location r + len r - 1 in
  exists p, GetLineFromMap index r = Some p /\
    (In 10 (from (location r) text) -> fromLine p = line_of text (location r) /\ fromColumn p = column_of text (location r)) /\
    (~ In 10 (from (location r) text) -> fromLine p = 0 /\ fromColumn p = 0) /\
    (In 10 (from last_char text) -> toLine p = line_of text last_char /\ toColumn p = column_of text last_char) /\
    (~ In 10 (from last_char text) -> toLine p = line_of text (N.of_nat (List.length text)) /\ toColumn p = 1).
Proof.
  intros source. destruct (C05_loop_total source) as (text & E & _). exists text, (0 :: newline_positions 1 text).
  split; [exact E|]. split; [unfold GetLinesEndIndex; now rewrite E|].
  intros r Hr last_char. eexists. split; [exact (get_line_spec text r Hr)|]. cbn [fromLine fromColumn toLine toColumn].
  fold last_char.
  assert (A := exists_newline (from (location r) text)). assert (B := exists_newline (from last_char text)).
  destruct (existsb (N.eqb 10) (from (location r) text)), (existsb (N.eqb 10) (from last_char text));
    repeat split; intros; try contradiction; reflexivity.
Qed.

(** C35, the intended reading: in a source whose last character is a newline, every nonempty
    range inside it is reported with the line and column of its first and last character. *)
Theorem C35_newline_terminated : forall source text index r,
  codepoints source = Some (text ++ [10]) -> GetLinesEndIndex source = Some index ->
  0 < len r -> location r + len r <= N.of_nat (List.length (text ++ [10])) -> N.of_nat (List.length (text ++ [10])) < 2 ^ 63 ->
  GetLineFromMap index r = Some (Position
    (line_of (text ++ [10]) (location r)) (column_of (text ++ [10]) (location r))
    (line_of (text ++ [10]) (location r + len r - 1)) (column_of (text ++ [10]) (location r + len r - 1))).
Proof.
  intros source text index r E I L B S. destruct (C35_positions source) as (t & ix & E' & I' & H).
  rewrite E in E'. injection E' as <-. rewrite I in I'. injection I' as <-.
  assert (N10 : forall p, p < N.of_nat (List.length (text ++ [10])) -> In 10 (from p (text ++ [10]))).
  { intros p Hp. unfold from. rewrite app_length in Hp. cbn in Hp. rewrite skipn_app. apply in_or_app. right.
    replace (N.to_nat p - List.length text)%nat with O by lia. now left. }
  destruct (H r) as (p & G & F1 & _ & F3 & _); [lia|].
  destruct (F1 (N10 (location r) ltac:(lia))) as [<- <-]. destruct (F3 (N10 (location r + len r - 1) ltac:(lia))) as [<- <-].
  rewrite G. destruct p. reflexivity.
Qed.

(** C35 fails on the last line of a source without trailing newline: a character there is said
    to start at line 0, column 0 and to end in column 1; *)
Theorem C35_last_line_refuted :
  GetLinesEndIndex "ab" = Some [0] /\
  GetLineFromMap [0] (Range 1 1) = Some (Position 0 0 1 1) /\
  line_of [97; 98] 1 = 1 /\ column_of [97; 98] 1 = 2.
Proof. repeat split. Qed.

(** and the empty range at the beginning makes the lookup read before the vector's first
    element, whatever the source. *)
Theorem C35_zero_range_refuted : forall source,
  exists index, GetLinesEndIndex source = Some index /\ GetLineFromMap index (Range 0 0) = None.
Proof.
  intros source. destruct (C05_loop_total source) as (text & E & _). exists (0 :: newline_positions 1 text).
  split; [unfold GetLinesEndIndex; now rewrite E|]. unfold GetLineFromMap. cbn [location len].
  change ((0 + 0) mod two64) with 0.
  assert (L : (last (0 :: newline_positions 1 text) 0 <? 0) = false) by (apply N.ltb_ge; lia). rewrite L.
  cbn [lower_bound]. change (0 <? 0) with false. cbn iota. cbn [List.length Nat.eqb deref_prev].
  match goal with |- context [match ?x with Some _ => _ | None => None end] => destruct x as [[a b]|]; reflexivity end.
Qed.

(** C35, what is emitted: an annotation carries its message, class and code, and one
    [location, length] pair per range, whose line and column attributes are those positions. *)
Theorem C35_annotation : forall source key a, exists index,
  GetLinesEndIndex source = Some index /\
  (Forall (fun r => 0 < location r + len r < 2 ^ 63) (a_location a) ->
   exists ps, Forall2 (fun r p => GetLineFromMap index r = Some p) (a_location a) ps /\
   let number n := make_element (DNumber (dec n)) in
   let placed n line column := Elem "number" [] [("line", number line); ("column", number column)]%string true (DNumber (dec n)) in
   AnnotationToRefract index key a = Some
     (Elem "annotation" [("classes", make_element (DArray [make_element (DString key)]))]%string
       [("code", number (a_code a));
        ("sourceMap", make_element (DArray [Elem "sourceMap" [] [] true (DArray
           (map (fun rp => make_element (DArray
              [placed (location (fst rp)) (fromLine (snd rp)) (fromColumn (snd rp));
               placed (len (fst rp)) (toLine (snd rp)) (toColumn (snd rp))]))
              (combine (a_location a) ps)))]))]%string
       true (DString (a_message a)))).
Proof.
  intros source key a. destruct (C35_positions source) as (text & index & _ & I & H). exists index. split; [exact I|].
  intros F. assert (G : exists ps, Forall2 (fun r p => GetLineFromMap index r = Some p) (a_location a) ps).
  { induction F as [|r rs Hr F (ps & IH)]; [exists []; constructor|].
    destruct (H r Hr) as (p & Hp & _). exists (p :: ps). now constructor. }
  destruct G as (ps & G). exists ps. split; [exact G|]. cbn zeta. unfold AnnotationToRefract, SourceMapToRefractWithColumnLineInfo.
  assert (R : ranges_with_position index (a_location a) = Some (map (fun rp => make_element (DArray
              [Elem "number" [] [("line", num_elem (fromLine (snd rp))); ("column", num_elem (fromColumn (snd rp)))]%string true (DNumber (dec (location (fst rp))));
               Elem "number" [] [("line", num_elem (toLine (snd rp))); ("column", num_elem (toColumn (snd rp)))]%string true (DNumber (dec (len (fst rp))))]))
              (combine (a_location a) ps))).
  { clear F. induction G as [|r p rs ps Hp G IH]; [reflexivity|]. cbn [ranges_with_position combine map].
    rewrite IH. unfold range_with_position. rewrite Hp. reflexivity. }
  rewrite R. reflexivity.
Qed.

Example C35_nonvacuous :
  let text := [35; 10; 104; 105; 10] in
  GetLinesEndIndex (utf8s text) = Some [0; 2; 5] /\
  GetLineFromMap [0; 2; 5] (Range 3 2) = Some (Position 2 2 2 3) /\
  GetLineFromMap [0; 2; 5] (Range 0 2) = Some (Position 1 1 1 2).
Proof. repeat split; vm_compute; reflexivity. Qed.

Print Assumptions C35_positions.
Print Assumptions C35_newline_terminated.
Print Assumptions C35_last_line_refuted.
Print Assumptions C35_zero_range_refuted.
Print Assumptions C35_annotation.
