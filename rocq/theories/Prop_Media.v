(** Properties C36 and C37: media types *)
From Verif Require Import Base Peg MediaType MediaSpec MediaProofs.

(** ** C36 *)
(** texts that are media types are read as what they say *)
Theorem C36_reads : forall m s, media_text m s -> parse_media s = Some m.
Proof. exact parse_ok. Qed.
Print Assumptions C36_reads.
(** printing and reading again gives the same media type *)
Theorem C36_round_trip : forall m, printable m -> parse_media (print_media m) = Some m.
Proof. intros m P. apply parse_ok, print_ok, P. Qed.
Print Assumptions C36_round_trip.
(** any text yields a media type: nothing, a type alone, or proper names with parameters whose keys are names *)
Theorem C36_total : forall s, exists m, parse_media s = Some m /\
  (m = MT "" "" "" [] \/ (is_name (m_type m) /\ m = MT (m_type m) "" "" []) \/ (proper_names m /\ Forall (fun p => is_name (fst p)) (m_params m))).
Proof.
  intros s. destruct (parse_inv s) as (m & E & P). exists m. split; [exact E|]. destruct P as [->|[(t & T & ->)|(t & sub & suf & u & ps & T & Su & K & ->)]].
  - now left.
  - right. left. split; [exact T|reflexivity].
  - right. right. split; [split; [exact T|exists u; exact Su]|exact K].
Qed.
Print Assumptions C36_total.
(** so what was read once is stable, whatever the text: with at most one parameter, of a printable value *)
Theorem C36_stable : forall s m, parse_media s = Some m -> m_subtype m <> ""%string ->
  (m_params m = [] \/ exists k v, m_params m = [(k, v)] /\ printable_value v) -> parse_media (print_media m) = Some m.
Proof.
  intros s m E N P. apply C36_round_trip. destruct (C36_total s) as (m' & E' & H). rewrite E in E'. injection E' as <-.
  destruct H as [->|[[_ H]|[H K]]]; [contradiction N; reflexivity|rewrite H in N; contradiction N; reflexivity|].
  split; [exact H|]. destruct P as [P|(k & v & P & V)]; [now left|]. right. exists k, v. split; [exact P|]. split; [|exact V]. rewrite P in K. inversion K; assumption.
Qed.
Print Assumptions C36_stable.
(** without subtype nothing is printed *)
Theorem C36_incomplete : forall m, m_type m = ""%string \/ m_subtype m = ""%string -> print_media m = ""%string.
Proof. intros [t u x ps] [H|H]; cbn in H; subst; [reflexivity|]. unfold print_media. cbn. destruct t; reflexivity. Qed.
Print Assumptions C36_incomplete.

(** outside: the printer separates parameters by semicolons, which the reader does not know; escapes are printed again and not
    removed when read; values that are no names and need no quotes; empty values *)
Definition again (m : media) : option media := parse_media (print_media m).
Theorem C36_round_trip_refuted :
  again (MT "text" "html" "" [("charset", "utf-8"); ("level", "1")]%string) = Some (MT "text" "html" "" [("charset", "utf-8")]%string) /\
  again (MT "text" "html" "" [("k", "a ""b")]%string) = Some (MT "text" "html" "" [("k", "a \""b")]%string) /\
  again (MT "text" "html" "" [("k", "a+b")]%string) = Some (MT "text" "html" "" [("k", "a")]%string) /\
  again (MT "text" "html" "" [("k", "")]%string) = Some (MT "text" "html" "" []).
Proof. repeat split. Qed.
(** a text that is no media type behind its subtype keeps the part before *)
Theorem C36_prefix_kept : parse_media "text/html, */*" = Some (MT "text" "html" "" []).
Proof. reflexivity. Qed.

Ltac a_name := apply is_name_good; eexists _, _; split; [reflexivity|]; split; [reflexivity|]; split; [repeat constructor|cbn; lia].
Example C36_instance : media_text (MT "application" "vnd.a+b" "json" [("k", "v w"); ("l", "x")]%string) " application/vnd.a+b+json ; k=""v w""  l=x".
Proof.
  assert (Su : sub_text "vnd.a+b" "json" "vnd.a+b+json").
  { exact (sub_suffixed ["vnd.a"; "b"]%string "json" ltac:(discriminate) ltac:(repeat constructor; a_name) ltac:(a_name)). }
  assert (BL : blanks " ") by (constructor; [now left|constructor]).
  refine (text_params " " "application" _ _ _ " " " " _ "k=""v w""  l=x" "" "" BL _ Su BL BL _ ltac:(constructor) end_of_text); [a_name|].
  refine (params_more _ "k=""v w""" "  " [("l", "x")%string] "l=x" _ _ _ _); [|constructor; [now left|exact BL]|discriminate|].
  - refine (param_quoted "k" "v w" _ _); [a_name|]. repeat (apply q_char; [discriminate|discriminate|]). constructor.
  - constructor. refine (param_plain "l" "x" _ _); a_name.
Qed.
Example C36_printable_instance : printable (MT "application" "vnd.a+b" "json" [("k", "v w")]%string).
Proof.
  split.
  - split; [a_name|]. exists "vnd.a+b+json"%string. exact (sub_suffixed ["vnd.a"; "b"]%string "json" ltac:(discriminate) ltac:(repeat constructor; a_name) ltac:(a_name)).
  - right. exists "k"%string, "v w"%string. split; [reflexivity|]. split; [a_name|]. right. split.
    + apply Exists_cons_tl, Exists_cons_hd. reflexivity.
    + repeat (constructor; [repeat split; discriminate|]). constructor.
Qed.

(** ** C37 *)
Theorem C37_json : forall t, is_json t = true <-> same_ignoring_case (m_type t) "application" /\
  same_ignoring_case (if string_dec (m_suffix t) "" then m_subtype t else m_suffix t) "json".
Proof.
  intros t. unfold is_json. rewrite andb_true_iff, !iequal_spec. unfold syntax_type. destruct (string_dec (m_suffix t) "") as [E|E]; [rewrite E; tauto|].
  destruct (m_suffix t); [congruence|tauto].
Qed.
Print Assumptions C37_json.
Theorem C37_schema : forall t, is_json_schema t = true <->
  same_ignoring_case (m_type t) "application" /\ same_ignoring_case (m_subtype t) "schema" /\ same_ignoring_case (m_suffix t) "json".
Proof. intros t. unfold is_json_schema. rewrite !andb_true_iff, !iequal_spec. tauto. Qed.
Print Assumptions C37_schema.
Theorem C37_schema_is_json : forall t, is_json_schema t = true -> is_json t = true.
Proof.
  intros t H. apply C37_schema in H as (A & B & C). apply C37_json. split; [exact A|]. destruct (string_dec (m_suffix t) "") as [E|E]; [|exact C].
  rewrite E in C. inversion C.
Qed.
Print Assumptions C37_schema_is_json.
(** recognition depends on the names alone: parameters do not matter *)
Theorem C37_parameters : forall t ps, is_json (MT (m_type t) (m_subtype t) (m_suffix t) ps) = is_json t.
Proof. intros [t u x qs] ps. reflexivity. Qed.
Example C37_instance : option_map is_json (parse_media "Application/vnd.x+JSON; charset=utf-8") = Some true /\
  option_map is_json (parse_media "application/json+xml") = Some false /\ option_map is_json (parse_media "text/json") = Some false.
Proof. repeat split. Qed.
