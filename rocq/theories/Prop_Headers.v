(** Property C53: header lines *)
From Verif Require Import Base ByteBuffer ByteSpec ByteProofs StringUtility StringSpec StringProofs Source Headers HeadersSpec HeadersProofs.
Local Open Scope string_scope.

(** ** C53: what a header line gives *)
Lemma parts_colon : forall i name k v, is_name name -> ~ has NUL (spaces_ i +++ name +++ spaces_ k +++ ":" +++ v) ->
  header_parts (spaces_ i +++ name +++ spaces_ k +++ ":" +++ v) =
  Some (name, spaces_ k +++ ":" +++ take_while (fun a => Ascii.eqb a " ") v, drop_while (fun a => Ascii.eqb a " ") v).
Proof.
  intros i name k v H N. apply (parts_named i name k (String ":" v) H N).
  - intros c r E. destruct k; cbn in E; injection E as <- _; [right; now right|now left].
  - intros c r E. now injection E as <- _.
Qed.
Lemma parts_plain : forall i name k v, is_name name -> ~ has NUL (spaces_ i +++ name +++ spaces_ k +++ v) ->
  (forall c r, v = String c r -> c <> " "%char /\ c <> ":"%char) ->
  (k = 0 -> forall c r, v = String c r -> ends_name c) ->
  header_parts (spaces_ i +++ name +++ spaces_ k +++ v) = Some (name, spaces_ k, v).
Proof.
  intros i name k v H N Hv Hk. rewrite parts_named; auto.
  - destruct v as [|c v]; [reflexivity|]. destruct (Hv c v eq_refl) as [_ Hc].
    destruct c as [[] [] [] [] [] [] [] []]; try reflexivity. now destruct Hc.
  - intros c r E. destruct k as [|k]; [now apply (Hk eq_refl c r)|]. cbn in E. injection E as <- _. now left.
  - intros c r E. now destruct (Hv c r E).
Qed.

Definition duplicate_warning (hs : list header) (loc : list range) (name : string) (w : list annotation) : Prop :=
  (named hs name /\ ~ repeatable name /\ w = [An loc 13 ("duplicate definition of '" +++ name +++ "' header")]) \/
  (~ (named hs name /\ ~ repeatable name) /\ w = []).
Definition value_warning (loc : list range) (name value : string) (w : list annotation) : Prop :=
  (value = "" /\ w = [An loc 13 ("HTTP header '" +++ name +++ "' has no value")]) \/ (value <> "" /\ w = []).

Lemma duplicate_ok : forall hs loc name v,
  duplicate_warning hs loc name (validate (negb (has_header hs (name, v)) || allowed_multiple (name, v))%bool ("duplicate definition of '" +++ name +++ "' header") loc).
Proof.
  intros hs loc name v. unfold duplicate_warning, validate. assert (A := existsb_named hs name v). assert (B := allowed_spec name v).
  destruct (has_header hs (name, v)), (allowed_multiple (name, v)); cbn; [right|left|right|right]; intuition congruence.
Qed.
Lemma value_ok : forall loc name v, value_warning loc name v (validate (negb (String.eqb v "")) ("HTTP header '" +++ name +++ "' has no value") loc).
Proof. intros loc name v. unfold value_warning, validate. destruct (String.eqb_spec v ""); cbn; [left|right]; auto. Qed.

(** name : value *)
Theorem C53_colon : forall i name k v a value b hs loc, is_name name -> all name_char name -> trimmed a v value b ->
  ~ has NUL (spaces_ i +++ name +++ spaces_ k +++ ":" +++ v) ->
  exists d n, parse_header_line (spaces_ i +++ name +++ spaces_ k +++ ":" +++ v) hs loc = (Some (name, value), app d n) /\
    duplicate_warning hs loc name d /\ value_warning loc name value n.
Proof.
  intros i name k v a value b hs loc H C T N. unfold parse_header_line. rewrite (parts_colon _ _ _ _ H N).
  rewrite (trim_skip v a value b T). apply find_invalid_none in C. rewrite C.
  destruct (String.eqb_spec name "") as [E|_]; [now destruct H|].
  replace (in_text ":" _) with true.
  2:{ symmetry. apply in_text_spec. apply has_app. right. now left. }
  cbn [validate app]. eexists _, _. split; [reflexivity|]. split; [apply duplicate_ok|apply value_ok].
Qed.
Print Assumptions C53_colon.
(** name value *)
Theorem C53_no_colon : forall i name k v a value b hs loc, is_name name -> all name_char name -> trimmed a v value b ->
  (forall c r, v = String c r -> c <> " "%char /\ c <> ":"%char) -> (k = 0 -> forall c r, v = String c r -> ends_name c) ->
  ~ has NUL (spaces_ i +++ name +++ spaces_ k +++ v) ->
  exists d n, parse_header_line (spaces_ i +++ name +++ spaces_ k +++ v) hs loc =
      (Some (name, value), An loc 13 ("missing colon after header name '" +++ name +++ "'") :: app d n) /\
    duplicate_warning hs loc name d /\ value_warning loc name value n.
Proof.
  intros i name k v a value b hs loc H C T Hv Hk N. unfold parse_header_line. rewrite (parts_plain _ _ _ _ H N Hv Hk).
  rewrite (trimmed_unique a v value b T). apply find_invalid_none in C. rewrite C.
  destruct (String.eqb_spec name "") as [E|_]; [now destruct H|].
  replace (in_text ":" (spaces_ k)) with false.
  2:{ symmetry. apply not_true_iff_false. rewrite in_text_spec. clear. induction k as [|k IH]; [intros []|].
      intros [?|?]; [discriminate|now apply IH]. }
  cbn [validate app]. eexists _, _. split; [reflexivity|]. split; [apply duplicate_ok|apply value_ok].
Qed.
Print Assumptions C53_no_colon.
(** a name with a char that is not allowed: the first of them is reported *)
Theorem C53_invalid_name : forall i x c y rest hs loc, is_name (x +++ String c y) -> all name_char x -> ~ name_char c ->
  (forall e r, rest = String e r -> ends_name e) -> ~ has NUL (spaces_ i +++ (x +++ String c y) +++ rest) ->
  exists message, parse_header_line (spaces_ i +++ (x +++ String c y) +++ rest) hs loc = (None, [An loc 13 message]) /\
    exists code, message = "HTTP header name '" +++ (x +++ String c y) +++ "' contains illegal character '" +++ String c ("' (0x" +++ code +++ ") skipping the header").
Proof.
  intros i x c y rest hs loc H X C R N.
  assert (P : exists sep value, header_parts (spaces_ i +++ (x +++ String c y) +++ rest) = Some (x +++ String c y, sep, value)).
  { assert (E := take_drop (fun a => Ascii.eqb a " ") rest).
    destruct (all_spaces _ (take_true (fun a => Ascii.eqb a " ") rest)) as [k Ek]. rewrite Ek in E.
    assert (D := drop_false (fun a => Ascii.eqb a " ") rest). set (v := drop_while (fun a => Ascii.eqb a " ") rest) in *. clearbody v.
    rewrite E in *. rewrite parts_named; auto.
    - destruct v as [|e v]; [eauto|]. destruct e as [[] [] [] [] [] [] [] []]; eauto.
    - intros e r Hr. specialize (D e r Hr). cbn beta in D. now destruct (Ascii.eqb_spec e " "). }
  destruct P as (sep & value & P). unfold parse_header_line. rewrite P.
  assert (F : find_invalid (x +++ String c y) = Some c).
  { clear -X C. induction x as [|z x IH]; cbn [find_invalid append].
    - destruct (not_token_char c) eqn:E; [reflexivity|]. apply token_spec in E. contradiction.
    - apply all_cons in X as [Hz X]. destruct (not_token_char z) eqn:E; [|now apply IH]. apply token_spec in Hz. congruence. }
  rewrite F. eexists. split; [reflexivity|]. eexists. reflexivity.
Qed.
Print Assumptions C53_invalid_name.
(** no name *)
Theorem C53_no_name : forall i rest hs loc, (forall c r, rest = String c r -> c = "009"%char \/ c = ":"%char) -> ~ has NUL (spaces_ i +++ rest) ->
  exists message, parse_header_line (spaces_ i +++ rest) hs loc = (None, [An loc 3 message]).
Proof. intros i rest hs loc H N. unfold parse_header_line. rewrite (parts_none i rest H N). eexists. reflexivity. Qed.
Print Assumptions C53_no_name.

(** the header a line gives, for all lines without NUL *)
Theorem C53_gives : forall line hs loc o, ~ has NUL line -> (gives line o <-> fst (parse_header_line line hs loc) = o).
Proof.
  assert (G : forall line hs loc o, ~ has NUL line -> gives line o -> fst (parse_header_line line hs loc) = o).
  { intros line hs loc o N [i rest -> H | i name rest -> H C R | i name k v a value b -> H C T | i name k v a value b -> H C Hv Hk T].
    - destruct (C53_no_name i rest hs loc H N) as [m ->]. reflexivity.
    - destruct (find_invalid name) as [c|] eqn:F; [|apply find_invalid_none in F; contradiction].
      apply find_invalid_some in F as (x & y & -> & X & Hc).
      destruct (C53_invalid_name i x c y rest hs loc H X Hc R N) as (m & -> & _). reflexivity.
    - destruct (C53_colon i name k v a value b hs loc H C T N) as (d & n & -> & _). reflexivity.
    - destruct (C53_no_colon i name k v a value b hs loc H C T Hv Hk N) as (d & n & -> & _). reflexivity. }
  intros line hs loc o N. split; [now apply G|]. intros <-.
  destruct (line_cases line N) as [(i & rest & E & H) | (i & name & k & v & E & H & He & Hs)].
  - assert (X : gives line None) by exact (gives_nothing line i rest E H). now rewrite (G line hs loc None N X).
  - destruct (find_invalid name) as [c|] eqn:F.
    + assert (X : gives line None).
      { apply (gives_invalid line i name (spaces_ k +++ v)); auto. intros A. apply find_invalid_none in A. congruence. }
      now rewrite (G line hs loc None N X).
    + apply find_invalid_none in F. destruct v as [|c v].
      * assert (X : gives line (Some (name, ""))).
        { apply (gives_plain line i name k "" "" "" ""); auto; try discriminate.
          unfold trimmed. split; [reflexivity|]. split; [constructor|]. split; [constructor|]. split; [discriminate|]. intros r z Hz. now destruct r. }
        now rewrite (G line hs loc _ N X).
      * destruct (Ascii.eqb_spec c ":") as [->|Nc].
        -- destruct (trim_spec v) as (a & b & T).
           assert (X : gives line (Some (name, trim v))) by exact (gives_colon line i name k v a (trim v) b E H F T).
           now rewrite (G line hs loc _ N X).
        -- destruct (trim_spec (String c v)) as (a & b & T).
           assert (X : gives line (Some (name, trim (String c v)))).
           { apply (gives_plain line i name k (String c v) a (trim (String c v)) b E H F); [|intros -> d r Hd; now apply (He d r)|exact T].
             intros d r Hd. split; [now apply (Hs d r)|]. injection Hd as <- _. exact Nc. }
           now rewrite (G line hs loc _ N X).
Qed.
Print Assumptions C53_gives.

(** ** the whole section: the lines that count give their headers, in order *)
Theorem C53_section : forall source index ranges lines hs ws,
  ~ has NUL source -> (slen source < 2 ^ 63)%N -> List.length index = String.length source -> Forall2 (shows source) ranges lines ->
  exists given ws', headers_from_content ranges source index hs ws = Val (app hs (concat given), app ws ws') /\
    Forall2 (fun line (g : list header) => exists o, gives line o /\ g = match o with Some h => [h] | None => [] end) (counting lines) given.
Proof.
  intros source index ranges lines hs ws N L I F.
  assert (NL : forall r line, shows source r line -> ~ has NUL line).
  { intros r line (_ & x & a & b & y & E & _) H. apply N. rewrite E, !has_app. tauto. }
  assert (K : forall ranges lines fenced hs ws, Forall2 (shows source) ranges lines ->
    exists given ws', headers_loop ranges false fenced source index hs ws = Val (app hs (concat given), app ws ws') /\
      Forall2 (fun line (g : list header) => exists o, gives line o /\ g = match o with Some h => [h] | None => [] end)
        (if fenced then filter (fun x => negb (fence x)) lines else lines) given).
  { clear ranges lines hs ws F. intros ranges lines fenced hs ws F. revert hs ws.
    induction F as [|r line ranges lines S F IH]; intros hs ws.
    - exists [], []. cbn. rewrite !app_nil_r. split; [reflexivity|]. destruct fenced; constructor.
    - cbn [headers_loop]. destruct (fetch_shows source r line L S) as (m & -> & Lm & Pm). cbn [andthen].
      change (is_code_fence line) with (fence line).
      destruct (fenced && fence line)%bool eqn:B.
      + apply andb_prop in B as [-> B]. cbn [filter]. rewrite B. cbn [negb]. apply IH.
      + destruct (index_ok m index) as [c Hc]; [unfold slen in Lm; now rewrite I|exact Pm|now rewrite I|].
        unfold index_set_to_characters. cbn [mapO]. rewrite Hc. cbn [andthen].
        destruct (parse_header_line line hs [c]) as [o w] eqn:P.
        destruct (IH (app hs match o with Some h => [h] | None => [] end) (app ws w)) as (given & ws' & E & G).
        exists (match o with Some h => [h] | None => [] end :: given), (app w ws'). rewrite E. cbn [concat].
        rewrite !app_assoc. split; [reflexivity|].
        assert (GL : gives line o).
        { apply (C53_gives line hs [c] o (NL _ _ S)). now rewrite P. }
        destruct fenced; cbn [filter].
        * cbn in B. rewrite B. cbn [negb]. constructor; [now exists o|exact G].
        * constructor; [now exists o|exact G]. }
  unfold headers_from_content. destruct F as [|r line ranges lines S F].
  - exists [], []. cbn. rewrite !app_nil_r. now split.
  - cbn [headers_loop counting]. destruct (fetch_shows source r line L S) as (m & E & _ & _).
    destruct (K (r :: ranges) (line :: lines) (fence line) hs ws ltac:(now constructor)) as (given & ws' & R & G).
    cbn [headers_loop] in R. rewrite E in *. cbn [andthen] in *. change (is_code_fence line) with (fence line) in *.
    exists given, ws'. split; [exact R|]. destruct (fence line); exact G.
Qed.
Print Assumptions C53_section.

(** "!" is allowed in a name by RFC 7230, but not here *)
Theorem C53_token_refuted : rfc_token_char "!" /\ gives "X!: 1" None.
Proof.
  split; [now left|]. apply (gives_invalid _ 0 "X!" ": 1"); [reflexivity| | |].
  - split; [discriminate|]. unfold all, ends_name. cbn. repeat constructor; intuition discriminate.
  - intros H. apply find_invalid_none in H. discriminate.
  - intros c r H. injection H as <- _. right. now right.
Qed.
Print Assumptions C53_token_refuted.
(** a range of whitespace only is not skipped: all that follows it in the source is taken for a header line *)
Theorem C53_blank_refuted : forall before w after, (slen (before +++ w +++ after) < 2 ^ 63)%N -> all white w -> w <> "" ->
  exists r, fetch_line (before +++ w +++ after) (R (slen before) (slen w)) = Val (Some (r, after)).
Proof. intros before w after L W H. eexists. now apply fetch_blank. Qed.
Print Assumptions C53_blank_refuted.
(** an empty range is skipped *)
Theorem C53_empty : forall source p, (slen source < 2 ^ 63)%N -> fetch_line source (R p 0) = Val None.
Proof.
  intros source p L. unfold fetch_line. cbn [location length]. destruct (slen source <? wadd p 0)%N; [reflexivity|].
  replace (substring (N.to_nat p) (N.to_nat 0) source) with ""; [reflexivity|].
  generalize (N.to_nat p). clear. induction source as [|x s IH]; intros [|n]; cbn; try reflexivity. apply IH.
Qed.
Print Assumptions C53_empty.

Definition section_source := "+ Headers

        X-My: a : b 
        set-cookie:1
        Set-Cookie: 2
        x-my 3
        (y): 4
".
Example C53_witness :
  headers_from_content [R 11 21; R 32 21; R 53 22; R 75 15; R 90 15] section_source (map N.of_nat (seq 0 (String.length section_source))) [] [] =
  Val ([("X-My", "a : b"); ("set-cookie", "1"); ("Set-Cookie", "2"); ("x-my", "3")],
       [An [R 83 6] 13 "missing colon after header name 'x-my'"; An [R 83 6] 13 "duplicate definition of 'x-my' header";
        An [R 98 6] 13 "HTTP header name '(y)' contains illegal character '(' (0x28) skipping the header"]).
Proof. reflexivity. Qed.
