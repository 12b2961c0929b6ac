(** Properties C40-C43 and C52: sources refused, and the string utilities of the parser *)
From Verif Require Import Base Utf8Spec ByteBuffer ByteSpec ByteProofs Prop_Bytes StringUtility StringSpec StringProofs Source.
Local Open Scope string_scope.

(** ** C41: trimming, splitting, comparing *)
Theorem C41_trim : forall a s t b, trimmed a s t b -> trim s = t.
Proof. exact trimmed_unique. Qed.
Print Assumptions C41_trim.
Theorem C41_trim_total : forall s, exists a b, trimmed a s (trim s) b.
Proof. exact trim_spec. Qed.
Print Assumptions C41_trim_total.
(** the offset and length computed for a text are those of its trimmed part *)
Theorem C41_trim_info : forall a s t b, trimmed a s t b -> t <> "" ->
  trim_info s = (Z.of_nat (String.length a), Z.of_nat (String.length t)).
Proof.
  intros a s t b (E & Wa & Wb & H1 & H2) Ht. unfold trim_info. destruct t as [|x t]; [congruence|].
  assert (Hat : forall r c, a +++ String x t = r +++ String c "" -> ~ white c).
  { intros r c Hc. destruct (last_char x t) as (r' & c' & Et). rewrite Et, <- append_assoc in Hc.
    apply snoc_inj in Hc as [_ <-]. now apply (H2 r'). }
  assert (A : spaces s = String.length a) by (rewrite E; apply spaces_app; [exact Wa|]; cbn; intros c r Hc; injection Hc as <- _; exact (H1 x t eq_refl)).
  assert (B : last_base s = String.length (a +++ String x t)) by (rewrite E, <- append_assoc; now apply last_base_app).
  rewrite A, B, length_append. f_equal. lia.
Qed.
Print Assumptions C41_trim_info.
(** but of a text of whitespace only, the length is negative *)
Theorem C41_trim_info_refuted : forall s, all white s -> trim s = "" /\
  trim_info s = (Z.of_nat (String.length s), (- Z.of_nat (String.length s))%Z).
Proof.
  intros s W. destruct (all_white_spaces s W) as [A B]. split.
  - apply (trimmed_unique s s "" ""). unfold trimmed. rewrite append_nil_r. split; [reflexivity|].
    split; [exact W|]. split; [constructor|]. split; [discriminate|]. intros r c Hc; now destruct r.
  - unfold trim_info. rewrite A, B. reflexivity.
Qed.
Print Assumptions C41_trim_info_refuted.
(** pieces joined by the delimiter, with or without one behind the last, are found again *)
Theorem C41_split : forall d ps tail, Forall (fun p => ~ has d p) ps -> ~ has d tail -> tail <> "" ->
  split (terminated d ps) d = ps /\ split (terminated d ps +++ tail) d = app ps [tail].
Proof.
  intros d ps tail F T Ht. split.
  - assert (N : ~ has d "") by intros []. assert (X := split_terminated d ps "" F N). cbn in X.
    rewrite append_nil_r, app_nil_r in X. exact X.
  - rewrite (split_terminated d ps tail F T). destruct tail; [congruence|reflexivity].
Qed.
Print Assumptions C41_split.
(** nothing but a delimiter at the end is lost *)
Theorem C41_split_total : forall d s, Forall (fun p => ~ has d p) (split s d) /\
  (s = terminated d (split s d) \/ s +++ String d "" = terminated d (split s d)).
Proof.
  intros d s. destruct (pieces_of d s) as (ps & tail & F & T & ->). rewrite (split_terminated d ps tail F T).
  destruct (String.eqb_spec tail "") as [->|N].
  - rewrite app_nil_r, append_nil_r. split; [exact F|now left].
  - split; [apply Forall_app; split; [exact F|now constructor]|right].
    unfold terminated. rewrite map_app, sconcat_app. cbn. now rewrite append_nil_r, append_assoc.
Qed.
Print Assumptions C41_split_total.
Theorem C41_split_first : forall d a b, ~ has d a -> split_on_first (a +++ String d b) d = [a; b] /\ split_on_first a d = [a].
Proof. intros d a b H. split; [now apply split_first_some|now apply split_first_none]. Qed.
Print Assumptions C41_split_first.
Theorem C41_first_line : forall a b r, ~ has LF a -> first_line (a +++ String LF b) r = (a, b) /\ first_line a r = (a, r).
Proof.
  intros a b r H. unfold first_line. rewrite (split_first_some _ _ _ H), (split_first_none _ _ H). now split.
Qed.
Print Assumptions C41_first_line.
Theorem C41_compare : forall a b, iequal a b = true <-> same_but_case a b.
Proof. exact iequal_spec. Qed.
Print Assumptions C41_compare.
(** a text is made to end with two line feeds, adding as few as possible *)
Theorem C41_two_new_lines : forall s, s <> "" -> s <> String LF "" -> exists k t,
  two_new_lines s = Val (s +++ run_of k LF) /\ s +++ run_of k LF = t +++ run_of 2 LF /\
  (forall j u, s +++ run_of j LF = u +++ run_of 2 LF -> k <= j).
Proof.
  intros s H0 H1. destruct s as [|x s]; [congruence|]. destruct (last_char x s) as (r & c & E). rewrite E in *.
  unfold two_new_lines. rewrite (at_minus r c "" 1 eq_refl). cbn [andthen].
  destruct (Ascii.eqb_spec c LF) as [->|N].
  - destruct r as [|y r]; [cbn in H1; congruence|]. destruct (last_char y r) as (q & d & E'). rewrite E' in *.
    rewrite append_assoc. change (String d "" +++ String LF "") with (String d (String LF "")).
    rewrite (at_minus q d (String LF "") 2 eq_refl). cbn [andthen]. destruct (Ascii.eqb_spec d LF) as [->|N].
    + exists 0, q. cbn [run_of]. rewrite append_nil_r. split; [reflexivity|]. split; [reflexivity|]. intros. lia.
    + exists 1, (q +++ String d ""). cbn [run_of]. split; [reflexivity|]. split; [now rewrite !append_assoc|].
      intros [|j] u Hj; [|lia]. cbn [run_of] in Hj. rewrite append_nil_r in Hj.
      replace (q +++ String d (String LF "")) with ((q +++ String d "") +++ String LF "") in Hj by now rewrite append_assoc.
      replace (u +++ String LF (String LF "")) with ((u +++ String LF "") +++ String LF "") in Hj by now rewrite append_assoc.
      apply snoc_inj in Hj as [Hj _]. apply snoc_inj in Hj as [_ Hj]. congruence.
  - rewrite append_assoc. change (String c "" +++ String LF "") with (String c (String LF "")).
    rewrite (at_minus r c (String LF "") 2 eq_refl). cbn [andthen]. destruct (Ascii.eqb_spec c LF) as [->|_]; [congruence|].
    exists 2, (r +++ String c ""). cbn [run_of]. split; [now rewrite !append_assoc|]. split; [reflexivity|].
    intros [|[|j]] u Hj; [| |lia]; exfalso; cbn [run_of] in Hj.
    + rewrite append_nil_r in Hj.
      replace (u +++ String LF (String LF "")) with ((u +++ String LF "") +++ String LF "") in Hj by now rewrite append_assoc.
      apply snoc_inj in Hj as [_ Hj]. congruence.
    + replace (u +++ String LF (String LF "")) with ((u +++ String LF "") +++ String LF "") in Hj by now rewrite append_assoc.
      apply snoc_inj in Hj as [Hj _]. apply snoc_inj in Hj as [_ Hj]. congruence.
Qed.
Print Assumptions C41_two_new_lines.
(** texts without two chars to look at are read outside their bounds *)
Theorem C41_two_new_lines_refuted : two_new_lines "" = Wild /\ two_new_lines (String LF "") = Wild.
Proof. now split. Qed.
Print Assumptions C41_two_new_lines_refuted.
Example C41_witness_trimmed : trimmed "  " "  a b " "a b" " ".
Proof.
  unfold trimmed, all, white. cbn. repeat split; try (repeat constructor; cbn; tauto).
  - intros c r H. injection H as <- _. cbn. intuition discriminate.
  - intros r c H. destruct r as [|x [|y [|z r]]]; cbn in H; try discriminate; injection H as <- <- H; [|now destruct r].
    subst c. cbn. intuition discriminate.
Qed.
Example C41_witness_split : split "a//b/" "/" = ["a"; ""; "b"] /\ split "a//b" "/" = ["a"; ""; "b"].
Proof. now split. Qed.
Example C41_witness_compare : iequal "Content-TYPE" "content-type" = true /\ iequal "[" "{" = false.
Proof. now split. Qed.

(** ** C42: literals between runs of an escape character *)
(** the whole behaviour: a run of [n] chars at position [begin], not longer *)
Theorem C42_closed : forall c n before body rest, c <> NUL -> 0 < n ->
  (forall r, body +++ run_of n c +++ rest <> String c r) -> leftmost body (run_of n c) rest ->
  let subject := before +++ run_of n c +++ body +++ run_of n c +++ rest in
  retrieve_escaped subject (String.length before) false = Val (run_of n c +++ body +++ run_of n c, rest) /\
  retrieve_escaped subject (String.length before) true = Val (body, run_of n c +++ rest).
Proof. intros c n before body rest Hc Hn H L. cbv zeta. now rewrite !retrieve_closed. Qed.
Print Assumptions C42_closed.
Theorem C42_open : forall c n before after strip, c <> NUL -> 0 < n -> (forall r, after <> String c r) ->
  ~ occurs (run_of n c) after ->
  retrieve_escaped (before +++ run_of n c +++ after) (String.length before) strip = Val ("", before +++ run_of n c +++ after).
Proof. exact retrieve_open. Qed.
Print Assumptions C42_open.
(** these are all the cases there are, inside a text that holds no NUL *)
Theorem C42_cases : forall subject begin, begin < String.length subject -> ~ has NUL subject ->
  exists before c n after, subject = before +++ run_of n c +++ after /\ String.length before = begin /\ c <> NUL /\ 0 < n /\
    (forall r, after <> String c r) /\
    (~ occurs (run_of n c) after \/ exists body rest, after = body +++ run_of n c +++ rest /\ leftmost body (run_of n c) rest).
Proof.
  intros s begin L N. assert (E := split_at s begin ltac:(lia)). set (a := substring 0 begin s) in *.
  assert (La : String.length a = begin) by (apply sub_len; lia).
  destruct (run_at (from s begin)) as (c & n & after & E2 & Hn & H).
  { intros Z. rewrite Z, append_nil_r in E. rewrite E in L. lia. }
  rewrite E2 in E. exists a, c, n, after. split; [exact E|]. split; [exact La|]. split.
  { intros ->. apply N. rewrite E. apply has_app. right. apply has_app. left. destruct n; [lia|now left]. }
  split; [exact Hn|]. split; [exact H|].
  destruct (index 0 (run_of n c) after) as [m|] eqn:I.
  - apply index_some in I as (x & y & Ex & Lx & _ & M); [|now apply run_nonempty].
    right. exists x, y. split; [exact Ex|]. intros a' b' Ea. rewrite Lx. apply (M a' b'); [congruence|lia].
  - left. intros (x & y & Ex). assert (X := index_none _ _ _ (run_nonempty n c Hn) I x y Ex). lia.
Qed.
Print Assumptions C42_cases.
(** what is wrapped comes out again *)
Theorem C42_wrapped : forall c n body, c <> NUL -> 0 < n -> body <> "" ->
  ~ occurs (run_of n c) body -> (forall r, body <> String c r) -> (forall r, body <> r +++ String c "") ->
  forall before rest, 
  let subject := before +++ run_of n c +++ body +++ run_of n c +++ rest in
  retrieve_escaped subject (String.length before) false = Val (run_of n c +++ body +++ run_of n c, rest) /\
  retrieve_escaped subject (String.length before) true = Val (body, run_of n c +++ rest).
Proof.
  intros c n body Hc Hn H0 O B E before rest. apply C42_closed; auto.
  - intros r Er. destruct body as [|x body]; [congruence|]. cbn in Er. injection Er as -> _. now apply (B body).
  - now apply leftmost_run.
Qed.
Print Assumptions C42_wrapped.
(** a literal of backticks is stripped and trimmed *)
Theorem C42_strip : forall n body, 0 < n -> body <> "" ->
  ~ occurs (run_of n "`") body -> (forall r, body <> String "`" r) -> (forall r, body <> r +++ String "`" "") ->
  exists left, strip_backticks (run_of n "`" +++ body +++ run_of n "`") = Val (trim body, left).
Proof.
  intros n body Hn H0 O B E.
  assert (R := proj2 (C42_wrapped "`" n body ltac:(discriminate) Hn H0 O B E "" "")). cbn [String.length] in R.
  rewrite !append_nil_r, append_nil_l in R. unfold strip_backticks.
  assert (A : at_ (run_of n "`" +++ body +++ run_of n "`") 0 = Val "`"%char) by (destruct n; [lia|reflexivity]).
  rewrite A. cbn [andthen]. rewrite Ascii.eqb_refl. cbn [negb].
  assert (Z : exists q, run_of n "`" +++ body +++ run_of n "`" = q +++ String "`" "").
  { destruct n as [|n]; [lia|]. exists (run_of (S n) "`" +++ body +++ run_of n "`"). rewrite !append_assoc. do 2 f_equal.
    replace (S n) with (n + 1) by lia. rewrite run_add. reflexivity. }
  destruct Z as [q Z]. destruct (Nat.eqb_spec (String.length (run_of n "`" +++ body +++ run_of n "`")) 0) as [K|_].
  { rewrite length_append, run_length in K. lia. }
  assert (A2 : at_ (run_of n "`" +++ body +++ run_of n "`") (String.length (run_of n "`" +++ body +++ run_of n "`") - 1) = Val "`"%char)
    by (rewrite Z; apply at_char; rewrite length_append; cbn; lia).
  rewrite A2. cbn [andthen]. rewrite Ascii.eqb_refl. cbn [negb].
  rewrite R. cbn [andthen fst snd]. destruct (String.eqb_spec body "") as [?|_]; [congruence|]. eexists. reflexivity.
Qed.
Print Assumptions C42_strip.
(** a text that does not both begin and end with a backtick is left alone *)
Theorem C42_strip_other : forall s, (forall r, s <> String "`" r) \/ (forall r, s <> r +++ String "`" "") -> strip_backticks s = Val (s, s).
Proof.
  intros s H. unfold strip_backticks. destruct s as [|x s]; [reflexivity|].
  assert (A : at_ (String x s) 0 = Val x) by reflexivity. rewrite A. cbn [andthen].
  destruct (Ascii.eqb_spec x "`") as [->|_]; [|reflexivity]. cbn [negb].
  destruct H as [H|H]; [now destruct (H s)|]. destruct (last_char "`" s) as (q & z & E). rewrite E in *.
  destruct (Nat.eqb_spec (String.length (q +++ String z "")) 0) as [K|_]; [rewrite length_append in K; cbn in K; lia|].
  rewrite at_char by (rewrite length_append; cbn; lia). cbn [andthen]. destruct (Ascii.eqb_spec z "`") as [->|_]; [now destruct (H q)|reflexivity].
Qed.
Print Assumptions C42_strip_other.
(** text between two literals is lost; the closing run is left in the subject; the end of a text is read past *)
Theorem C42_strip_refuted : strip_backticks "`a` and `b`" = Val ("a", "` and `b`").
Proof. reflexivity. Qed.
Print Assumptions C42_strip_refuted.
Theorem C42_end_refuted : forall s strip, retrieve_escaped s (String.length s) strip = Wild.
Proof.
  intros s strip. unfold retrieve_escaped. rewrite at_end by reflexivity. cbn [andthen levels_loop].
  rewrite at_end by reflexivity. cbn [andthen]. rewrite Ascii.eqb_refl. cbn [levels_loop].
  assert (X : at_ s (1 + String.length s) = Wild).
  { unfold at_. rewrite get_none by lia. destruct (Nat.eqb_spec (1 + String.length s) (String.length s)); [lia|reflexivity]. }
  now rewrite X.
Qed.
Print Assumptions C42_end_refuted.
Example C42_witness : retrieve_escaped "a```b```cd" 1 false = Val ("```b```", "cd") /\ strip_backticks "``a`b ``" = Val ("a`b", "``").
Proof. now split. Qed.

(** ** C43: replacing *)
Theorem C43_replaced : forall s f r, f <> "" -> exists n t, replaced f r n s t /\
  (forall fuel, String.length s < fuel -> replace_string fuel s f r = Val t) /\
  String.length t + n * String.length f = String.length s + n * String.length r.
Proof.
  intros s f r Hf. destruct (replace_loop_spec f r Hf (S (String.length s)) "" s ltac:(lia)) as (n & u & R & L).
  exists n, u. split; [exact R|]. split; [|exact (replaced_length _ _ _ _ _ R)].
  intros fuel H. unfold replace_string. apply (replace_more_fuel _ _ _ fuel) in L; [exact L|lia].
Qed.
Print Assumptions C43_replaced.
(** the result is the only one *)
Theorem C43_unique : forall s f r n t n' t', f <> "" -> replaced f r n s t -> replaced f r n' s t' -> n = n' /\ t = t'.
Proof. intros s f r n t n' t' Hf R R'. exact (replaced_functional f r n s t R Hf n' t' R'). Qed.
Print Assumptions C43_unique.
(** nothing is left to replace if the replacement shares no char with the text looked for *)
Theorem C43_none_left : forall s f r fuel t, f <> "" -> r <> "" -> (forall c, has c f -> ~ has c r) ->
  replace_string fuel s f r = Val t -> ~ occurs f t.
Proof.
  intros s f r fuel t Hf Hr D H. destruct (C43_replaced s f r Hf) as (n & u & R & L & _).
  assert (E : t = u).
  { specialize (L (S (String.length s) + fuel) ltac:(lia)). unfold replace_string in *.
    apply (replace_more_fuel _ _ _ (S (String.length s) + fuel)) in H; [congruence|lia]. }
  subst u. exact (none_left f r n s t Hf Hr D R).
Qed.
Print Assumptions C43_none_left.
(** in general something may be left, and there is no end when the text looked for is empty *)
Theorem C43_none_left_refuted : exists s f r t, f <> "" /\ ~ occurs f r /\ replace_string 10 s f r = Val t /\ occurs f t.
Proof.
  exists "aabb", "ab", "", "ab". split; [discriminate|]. split.
  - intros (a & b & H). apply (f_equal String.length) in H. rewrite !length_append in H. cbn in H. lia.
  - split; [reflexivity|]. now exists "", "".
Qed.
Print Assumptions C43_none_left_refuted.
Theorem C43_endless : forall fuel s r, replace_string fuel s "" r = Endless.
Proof. intros fuel s r. apply replace_empty. lia. Qed.
Print Assumptions C43_endless.
Example C43_witness : replace_string 20 "a--b---c" "--" "-" = Val "a-b--c" /\ ~ occurs "+" "a-b--c".
Proof. split; [reflexivity|]. intros (a & b & H). repeat (destruct a as [|? a]; cbn in H; [discriminate|injection H as _ H]); destruct a; discriminate. Qed.

(** ** C40: tabs and carriage returns *)
Ltac opaque_lia :=
  repeat match goal with
  | |- context [(?x mod ?y)%N] => let z := fresh in set (z := (x mod y)%N) in *; clearbody z
  | H : context [(?x mod ?y)%N] |- _ => let z := fresh in set (z := (x mod y)%N) in *; clearbody z
  end;
  repeat match goal with
  | |- context [(?x / ?y)%N] => let z := fresh in set (z := (x / y)%N) in *; clearbody z
  | H : context [(?x / ?y)%N] |- _ => let z := fresh in set (z := (x / y)%N) in *; clearbody z
  end; lia.
Lemma no_byte : forall d cs, (byte d < 128)%N -> Forall scalar cs -> ~ In (byte d) cs -> ~ has d (utf8s cs).
Proof.
  intros d cs Hd F. induction F as [|c cs Hc F IH]; intros N; [intros []|].
  unfold utf8s in *. cbn [map sconcat]. rewrite has_app. intros [H|H]; [|apply IH; [|exact H]; intros ?; apply N; now right].
  apply N. left. unfold utf8, utf8_bytes in H.
  assert (S : (c <= 0x10FFFF)%N) by (unfold scalar, scalarb in Hc; apply orb_prop in Hc as [Hc|Hc]; [apply N.ltb_lt in Hc; lia|apply andb_prop in Hc as [_ Hc]; apply N.leb_le in Hc; lia]).
  assert (X : forall n, (128 <= n < 256)%N -> chr n <> d) by (intros n Hn <-; rewrite byte_chr in Hd; lia).
  destruct (N.leb_spec c 0x7F); [|destruct (N.leb_spec c 0x7FF); [|destruct (N.leb_spec c 0xFFFF)]]; cbn [of_bytes] in H; unfold has in H; cbn [list_ascii_of_string In] in H.
  - destruct H as [H|[]]. rewrite <- H. symmetry. apply byte_chr. lia.
  - exfalso. assert (A1 : (c / 64 < 32)%N) by (apply N.div_lt_upper_bound; lia). assert (A2 := N.mod_lt c 64 ltac:(lia)).
    destruct H as [H|[H|[]]]; [apply (X (192 + c / 64)%N)|apply (X (128 + c mod 64)%N)]; try exact H; clear H X; opaque_lia.
  - exfalso. assert (A1 : (c / 4096 < 16)%N) by (apply N.div_lt_upper_bound; lia). assert (A2 := N.mod_lt c 64 ltac:(lia)).
    assert (A3 := N.mod_lt (c / 64) 64 ltac:(lia)).
    destruct H as [H|[H|[H|[]]]]; [apply (X (224 + c / 4096)%N)|apply (X (128 + (c / 64) mod 64)%N)|apply (X (128 + c mod 64)%N)]; try exact H; clear H X; opaque_lia.
  - exfalso. assert (A1 : (c / 262144 < 8)%N) by (apply N.div_lt_upper_bound; lia). assert (A2 := N.mod_lt c 64 ltac:(lia)).
    assert (A3 := N.mod_lt (c / 64) 64 ltac:(lia)). assert (A4 := N.mod_lt (c / 4096) 64 ltac:(lia)).
    destruct H as [H|[H|[H|[H|[]]]]]; [apply (X (240 + c / 262144)%N)|apply (X (128 + (c / 4096) mod 64)%N)|apply (X (128 + (c / 64) mod 64)%N)|apply (X (128 + c mod 64)%N)]; try exact H; clear H X; opaque_lia.
Qed.
Lemma text_scalar : forall cs, text cs -> Forall scalar cs.
Proof. intros cs H. eapply Forall_impl; [|exact H]. cbn. tauto. Qed.
Lemma refused_at : forall before after d, text (app before (byte d :: after)) -> (byte d < 128)%N -> ~ In (byte d) before ->
  index 0 (String d "") (utf8s (app before (byte d :: after))) = Some (String.length (utf8s before)) /\
  set_to_characters [R (N.of_nat (String.length (utf8s before))) 1] (utf8s (app before (byte d :: after))) =
  Val [R (N.of_nat (List.length before)) 1].
Proof.
  intros before after d T Hd N. assert (U : utf8 (byte d) = String d "").
  { unfold utf8, utf8_bytes. destruct (N.leb_spec (byte d) 0x7F); [|lia]. cbn. now rewrite chr_byte. }
  split.
  - rewrite utf8s_app. unfold utf8s at 2. cbn [map sconcat]. rewrite U. cbn [append]. apply find_char.
    apply no_byte; auto. apply text_scalar. unfold text in T. rewrite Forall_app in T. tauto.
  - unfold set_to_characters. cbn [mapO].
    assert (C := C33_characters before [byte d] after T). change (slen (utf8s before)) with (N.of_nat (String.length (utf8s before))) in C.
    replace (slen (utf8s [byte d])) with 1%N in C by (unfold utf8s; cbn [map sconcat]; now rewrite U).
    change (app before (app [byte d] after)) with (app before (byte d :: after)) in C. rewrite C. reflexivity.
Qed.
(** a tab: its character position is reported, whatever else the source holds, and the node and the warnings stay as
    they were *)
Theorem C40_tab : forall node proper before after (out : parsed node), text (app before (9 :: after)%N) -> ~ In 9%N before ->
  parse proper (utf8s (app before (9 :: after)%N)) out =
  Val (with_error out (An [R (N.of_nat (List.length before)) 1] 2 tab_message), 2%N).
Proof.
  intros node proper before after out T N. destruct (refused_at before after "009" T ltac:(reflexivity) N) as [A B].
  change (byte "009") with 9%N in *. unfold parse, check_source. rewrite A, B. reflexivity.
Qed.
Print Assumptions C40_tab.
(** a carriage return, in a source without tabs *)
Theorem C40_return : forall node proper before after (out : parsed node), text (app before (13 :: after)%N) -> ~ In 13%N before ->
  ~ In 9%N before -> ~ In 9%N after ->
  parse proper (utf8s (app before (13 :: after)%N)) out =
  Val (with_error out (An [R (N.of_nat (List.length before)) 1] 2 cr_message), 2%N).
Proof.
  intros node proper before after out T N N1 N2. destruct (refused_at before after "013" T ltac:(reflexivity) N) as [A B].
  change (byte "013") with 13%N in *. unfold parse, check_source. rewrite A, B.
  rewrite (find_no_char "009"); [reflexivity|]. apply no_byte; [reflexivity|now apply text_scalar|].
  rewrite in_app_iff. cbn. intros [?|[?|?]]; [tauto|discriminate|tauto].
Qed.
Print Assumptions C40_return.
(** any other source is parsed, unless it is empty *)
Theorem C40_passed : forall node proper source (out : parsed node), ~ has "009" source -> ~ has "013" source -> source <> "" ->
  forall after, proper source out = Val (after, Finished) -> parse proper source out = Val (after, a_code (error_of after)).
Proof.
  intros node proper source out H1 H2 H3 after H. unfold parse, check_source.
  rewrite (find_no_char _ _ H1), (find_no_char _ _ H2). cbn [andthen].
  destruct (String.eqb_spec source "") as [?|_]; [congruence|]. rewrite H. reflexivity.
Qed.
Print Assumptions C40_passed.
(** a source with a tab or carriage return, well formed or not, is never parsed *)
Theorem C40_nothing_parsed : forall node proper proper' source (out : parsed node), has "009" source \/ has "013" source ->
  parse proper source out = parse proper' source out /\
  (forall r, parse proper source out = Val r -> node_of (fst r) = node_of out /\ warnings_of (fst r) = warnings_of out /\ snd r = 2%N).
Proof.
  intros node proper proper' source out H.
  assert (C : check_source source <> Val None /\ forall e, check_source source = Val (Some e) -> a_code e = 2%N).
  { unfold check_source. destruct (index 0 (String "009" "") source) as [p|] eqn:E1.
    - destruct (set_to_characters _ _); cbn; split; try discriminate. intros e He. now injection He as <-.
    - destruct (index 0 (String "013" "") source) as [p|] eqn:E2.
      + destruct (set_to_characters _ _); cbn; split; try discriminate. intros e He. now injection He as <-.
      + exfalso. destruct H as [H|H]; apply has_split in H as (a & b & -> & Ha).
        * now rewrite find_char in E1 by exact Ha.
        * now rewrite find_char in E2 by exact Ha. }
  unfold parse. destruct (check_source source) as [[e|]| | |]; destruct C as [C1 C2]; try congruence; cbn; split; try reflexivity; try discriminate.
  intros r Hr. injection Hr as <-. cbn. repeat split. now apply C2.
Qed.
Print Assumptions C40_nothing_parsed.
(** malformed UTF-8 in front of the tab: memory behind the source is read. A NUL: the characters behind it do not count. *)
Theorem C40_malformed_refuted : forall node proper (out : parsed node),
  parse proper (String (chr 0xF0) (String "009" "")) out = Wild /\
  parse proper (String "a" (String NUL (String "b" (String "009" "")))) out = Val (with_error out (An [R 1 1] 2 tab_message), 2%N).
Proof. intros node proper out. now split. Qed.
Print Assumptions C40_malformed_refuted.
Example C40_witness : text [0x61; 0x10FFFF; 9; 0xE9]%N /\ parse (fun _ o => Val (o, Finished)) (utf8s [0x61; 0x10FFFF; 9; 0xE9]%N) (Pd tt (An [] 0 "") []) =
  Val (Pd tt (An [R 2 1] 2 tab_message) [], 2%N).
Proof. split; [unfold text; repeat constructor; discriminate|reflexivity]. Qed.

(** ** C52: exceptions of the parser become errors *)
Theorem C52_exceptions : forall node proper source (out after : parsed node) e, ~ has "009" source -> ~ has "013" source -> source <> "" ->
  proper source out = Val (after, e) -> e <> Finished ->
  exists err, parse proper source out = Val (with_error after err, a_code err) /\
    match e with
    | Threw_error thrown => err = thrown
    | Threw_std what => a_code err = 1%N /\ a_message err = "parser exception: '" +++ what +++ "'"
    | _ => a_code err = 1%N
    end.
Proof.
  intros node proper source out after e H1 H2 H3 H He. unfold parse, check_source.
  rewrite (find_no_char _ _ H1), (find_no_char _ _ H2). cbn [andthen].
  destruct (String.eqb_spec source "") as [?|_]; [congruence|]. rewrite H. cbn [andthen].
  destruct e as [|t|w|]; [congruence| | |]; eexists; (split; [reflexivity|]); cbn; auto.
Qed.
Print Assumptions C52_exceptions.
(** the code returned is that of the error reported; no exception gets out (those of the parsing proper are in [ended],
    so that it does not end with [Thrown] besides) *)
Theorem C52_code : forall node proper source (out : parsed node), proper source out <> Thrown ->
  parse proper source out <> Thrown /\ forall r, parse proper source out = Val r -> snd r = a_code (error_of (fst r)).
Proof.
  intros node proper source out P.
  assert (T : forall rg s, to_characters rg s <> Thrown).
  { assert (L : forall fuel s off len i j, strnlen_loop fuel s off len i j <> Thrown).
    { induction fuel as [|fuel IH]; intros s off len i j; cbn [strnlen_loop]; [discriminate|].
      unfold c_at. destruct (String.get _ s) as [a|]; cbn [andthen].
      - destruct (_ || _)%bool; [discriminate|apply IH].
      - destruct (_ =? _)%N; cbn [andthen]; [|discriminate]. cbn. discriminate. }
    assert (L' : forall s off len, strnlen_utf8 s off len <> Thrown).
    { intros s off len. unfold strnlen_utf8. destruct (len =? 0)%N; [discriminate|apply L]. }
    intros rg s. unfold to_characters. destruct (slen s =? 0)%N; [discriminate|].
    assert (A : (if (0 <? location rg)%N then strnlen_utf8 s 0 (location rg) else Val 0%N) <> Thrown) by (destruct (_ <? _)%N; [apply L'|discriminate]).
    assert (B : (if (0 <? length rg)%N then strnlen_utf8 s (location rg) (length rg) else Val 0%N) <> Thrown) by (destruct (0 <? length rg)%N; [apply L'|discriminate]).
    destruct (if (0 <? location rg)%N then _ else _); cbn [andthen]; try congruence.
    destruct (if (0 <? length rg)%N then _ else _); cbn [andthen]; congruence. }
  assert (C : check_source source <> Thrown).
  { unfold check_source, set_to_characters. destruct (index 0 (String "009" "") source) as [p|].
    - cbn [mapO]. specialize (T (R (N.of_nat p) 1) source). destruct (to_characters _ _); cbn; congruence.
    - destruct (index 0 (String "013" "") source) as [p|]; [|discriminate].
      cbn [mapO]. specialize (T (R (N.of_nat p) 1) source). destruct (to_characters _ _); cbn; congruence. }
  unfold parse. destruct (check_source source) as [[e|]| | |]; cbn [andthen]; try congruence; try (split; [discriminate|]; intros r H; discriminate).
  - split; [discriminate|]. intros r H. now injection H as <-.
  - destruct (String.eqb source ""); [split; [discriminate|]; intros r H; now injection H as <-|].
    destruct (proper source out) as [[o e]| | |]; cbn [andthen]; try congruence; try (split; [discriminate|]; intros r H; discriminate).
    destruct e; (split; [discriminate|]; intros r H; now injection H as <-).
Qed.
Print Assumptions C52_code.
Example C52_witness : parse (fun _ o => Val (o, Threw_std "bad_alloc")) "# API" (Pd tt (An [] 0 "") []) =
  Val (Pd tt (An [] 1 "parser exception: 'bad_alloc'") [], 1%N).
Proof. reflexivity. Qed.
