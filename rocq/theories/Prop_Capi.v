(** Properties C16-C19 and C44: the C interface (packages/drafter/src/drafter.cc). The parser and
    the conversion are arbitrary ([parse], [convert]), subject to [well_behaved]. *)
From Verif Require Import Base Utf8 SoValue JsonIo JsonSpec YamlIo YamlSpec Element ElementSpec ElementProofs SerializeSo SerializeSpec SerializeProofs
  SourceMap Capi CapiSpec CapiProofs LedgerProofs Prop_Json Prop_Yaml Prop_Serialize.

(** what a pointer of the client points at *)
Definition at_ptr (h : heap) (p : option nat) : option obj :=
  match p with Some q => load h q | None => None end.

(** C16: a NULL source is refused by every entry point; nothing is written or allocated *)
Theorem C16_null_source : forall Blueprint (parse : bool -> string -> report * Blueprint) convert h out popts sopts,
  drafter_parse_blueprint _ parse convert h None out popts = Some ((-2)%Z, None, h) /\
  drafter_parse_blueprint_to _ parse convert h None out popts sopts = Some ((-2)%Z, None, h) /\
  drafter_check_blueprint _ parse convert h None out popts = Some ((-2)%Z, None, h) /\
  drafter_serialize h None sopts = Some (None, h).
Proof. intros. repeat split. Qed.

(** C16: for every source, heap, options and analysis: all entry points are defined and return
    the code of the same error (0 if none); with a NULL out pointer nothing is written; with one,
    parse writes a live result, parse_to writes exactly the text that drafter_serialize gives on
    that result (NULL iff the format is neither JSON nor YAML). *)
Theorem C16_codes_and_outputs : forall Blueprint (parse : bool -> string -> report * Blueprint) convert h src popts sopts opts so,
  well_behaved parse convert -> heap_ok h ->
  load_parse_options h popts = Some opts -> load_serialize_options h sopts = Some so ->
  exists api err ws, analysed parse convert opts src api err ws /\
  exists r h1 h2 h3 h4 h5 h6 h7 t1 t2 w,
    drafter_parse_blueprint _ parse convert h (Some src) true popts = Some (code_of err, Some (Some r), h1) /\
    drafter_parse_blueprint _ parse convert h (Some src) false popts = Some (code_of err, None, h2) /\
    drafter_parse_blueprint_to _ parse convert h (Some src) true popts sopts = Some (code_of err, Some t1, h3) /\
    drafter_parse_blueprint_to _ parse convert h (Some src) false popts sopts = Some (code_of err, None, h4) /\
    drafter_check_blueprint _ parse convert h (Some src) true popts = Some (code_of err, Some w, h5) /\
    drafter_check_blueprint _ parse convert h (Some src) false popts = Some (code_of err, None, h6) /\
    drafter_serialize h1 (Some r) sopts = Some (t2, h7) /\
    at_ptr h3 t1 = at_ptr h7 t2 /\
    (t1 = None <-> t2 = None) /\
    (t1 = None <-> get_format so <> JSON /\ get_format so <> YAML).
Proof.
  intros B parse convert h src popts sopts opts so W H L LS. destruct (W opts src) as (api & err & ws & An & Pl & Ha).
  exists api, err, ws. split; [exact An|].
  assert (Hn : forall e, api = Some e -> no_null e) by (intros e He; now apply Ha).
  assert (Hc : forall e, api = Some e -> ehas e = true /\ ename e <> "annotation"%string) by (intros e He; destruct (Ha e He) as (_ & ? & ?); auto).
  destruct (parse_spec _ parse convert h src popts opts api err ws H L An Pl) as (es & wes & S1 & S2 & T & E1 & E2).
  destruct (parse_to_spec _ parse convert h src true popts sopts opts so api err ws H L LS An Pl Hn) as (es' & wes' & S1' & S2' & T' & E1' & E3).
  destruct (parse_to_spec _ parse convert h src false popts sopts opts so api err ws H L LS An Pl Hn) as (_ & _ & _ & _ & _ & _ & E4).
  destruct (check_spec _ parse convert h src true popts opts api err ws H L An Pl Hc) as (es3 & wes3 & _ & _ & _ & _ & E5).
  destruct (check_spec _ parse convert h src false popts opts api err ws H L An Pl Hc) as (_ & _ & _ & _ & _ & _ & E6).
  assert (Same : result_of api es' wes' = result_of api es wes).
  { rewrite E1 in E1'. injection E1' as E. unfold result_of. now rewrite E. }
  rewrite Same in E3. set (e := result_of api es wes) in *.
  assert (Ne : no_null e) by (apply result_no_null; [exact Hn|exact T]).
  assert (H1 : heap_ok (snd (alloc h (OResult e)))) by (apply heap_ok_alloc; [exact H|intros ? [= <-]; exact Ne]).
  destruct (serialize_spec (snd (alloc h (OResult e))) (next h) sopts so e H1 (sopts_alloc _ _ _ _ H LS) (or_introl eq_refl)) as [E7 F7].
  assert (C5 : exists w h5, drafter_check_blueprint _ parse convert h (Some src) true popts = Some (code_of err, Some w, h5)).
  { rewrite E5. destruct (es3 ++ wes3); eauto. }
  destruct C5 as (w & h5 & C5).
  destruct (text_of e so) as [t|] eqn:Et.
  - do 11 eexists. rewrite E1, E2, E3, E4, C5, E6, E7. do 7 (split; [reflexivity|]).
    split; [cbn [at_ptr]; rewrite load_alloc; unfold load; cbn [cells find fst]; now rewrite Nat.eqb_refl|].
    split; [intuition discriminate|]. split; [discriminate|]. intros X. apply F7 in X. discriminate.
  - do 11 eexists. rewrite E1, E2, E3, E4, C5, E6, E7. do 7 (split; [reflexivity|]).
    split; [reflexivity|]. split; [tauto|]. split; [intros _; now apply F7|reflexivity].
Qed.

Lemma c_str_id : forall s, sforall (fun a => (32 <=? byte a)%N || (byte a =? 10)%N) s = true -> Element.c_str s = s.
Proof.
  induction s as [|a s IH]; intros H; [reflexivity|]. cbn in H |- *. apply andb_prop in H as [A B].
  destruct (N.eqb_spec (byte a) 0) as [E|]; [rewrite E in A; discriminate|]. now rewrite IH.
Qed.

Lemma tidy_numbers : forall e sm v, tidy e -> render_so e sm = Some v -> numbers_ok v = true.
Proof.
  intros e sm v (N & U & Hn) E.
  apply (traverse (fun v => numbers_ok v = true) (fun _ => True) (fun _ => True) (fun s => json_number s = true)) with (e := e) (sm := sm); auto.
  - exact numbers_ok_arr.
  - intros l _ H. apply numbers_ok_obj. intros k w Hw. now apply (H k).
  - intros x Hx. destruct (U x Hx). repeat split; auto; apply Forall_forall; auto.
Qed.

(** C16, the text is whole: for a tidy API category, the text handed to the client (a C string,
    so cut at a NUL if there were one) is the complete serialization of the parse result: it
    reads back as its value. *)
Theorem C16_text_is_whole : forall Blueprint (parse : bool -> string -> report * Blueprint) convert h src popts sopts opts so api err ws,
  heap_ok h -> load_parse_options h popts = Some opts -> load_serialize_options h sopts = Some so ->
  analysed parse convert opts src api err ws -> Forall placed (opt_list err ++ ws) ->
  (forall e, api = Some e -> tidy e) -> (get_format so = JSON \/ get_format so = YAML) ->
  exists r h1 p h2 e text v,
    drafter_parse_blueprint _ parse convert h (Some src) true popts = Some (code_of err, Some (Some r), h1) /\
    load h1 r = Some (OResult e) /\
    drafter_parse_blueprint_to _ parse convert h (Some src) true popts sopts = Some (code_of err, Some (Some p), h2) /\
    load h2 p = Some (OText text) /\
    render_so e (are_sourcemaps_included so) = Some v /\
    (get_format so = JSON -> text = serialize_json v /\ read_json text = Some v) /\
    (get_format so = YAML -> serialize_yaml v = Some text).
Proof.
  intros B parse convert h src popts sopts opts so api err ws H L LS An Pl Ha Fm.
  assert (Hn : forall e, api = Some e -> no_null e) by (intros e He; now apply Ha).
  destruct (parse_to_spec _ parse convert h src true popts sopts opts so api err ws H L LS An Pl Hn) as (es & wes & S1 & S2 & T & E1 & E3).
  set (e := result_of api es wes) in *.
  assert (Te : tidy e) by (now apply result_tidy).
  destruct (C15_text_reads_back e (are_sourcemaps_included so) (proj1 Te) (proj1 (proj2 Te)) (proj2 (proj2 Te))) as (v & Ev & Rj & _).
  assert (Nv := tidy_numbers e _ v Te Ev). unfold text_of in E3. unfold render_so in *. rewrite Ev in E3. cbn [option_map obind] in E3.
  destruct (C03_json_no_control v Nv) as [Cj _]. apply c_str_id in Cj.
  destruct (C03_yaml_no_control v Nv) as (ty & Ey & Cy). apply c_str_id in Cy. rewrite Ey in E3.
  destruct (Z.eqb_spec (get_format so) JSON) as [J|J].
  - do 7 eexists. split; [exact E1|]. split; [apply load_alloc|]. split; [exact E3|].
    split; [unfold load; cbn [cells find fst]; rewrite Nat.eqb_refl; reflexivity|]. split; [exact Ev|].
    rewrite Cj. split; [intros _; split; [reflexivity|exact Rj]|]. intros Y. rewrite J in Y. discriminate.
  - destruct Fm as [Fm|Fm]; [contradiction|]. rewrite Fm in E3. cbn [Z.eqb YAML] in E3.
    do 7 eexists. split; [exact E1|]. split; [apply load_alloc|]. split; [exact E3|].
    split; [unfold load; cbn [cells find fst]; rewrite Nat.eqb_refl; reflexivity|]. split; [exact Ev|].
    rewrite Cy. split; [contradiction|]. intros _. exact Ey.
Qed.

(** C17: one call, proper in a sane heap, is defined and leaves a sane heap in which exactly the
    handed out objects are new, exactly the freed ones are gone and no other object changed
    except the options a setter was given. *)
Theorem C17_call : forall Blueprint (parse : bool -> string -> report * Blueprint) convert h c,
  well_behaved parse convert -> heap_ok h -> proper h c ->
  exists outs h', perform parse convert h c = Some (outs, h') /\ heap_ok h' /\ NoDup outs /\
    (forall p, In p outs -> ~ live h p) /\
    (forall p, live h' p <-> (live h p /\ ~ In p (freed_by c)) \/ In p outs) /\
    (forall p o, In (p, o) (cells h) -> ~ In p (freed_by c) -> ~ In p (changed_by c) -> In (p, o) (cells h')).
Proof.
  intros B parse convert h c W H P. destruct (perform_ledger parse convert W h c H P) as (outs & h' & E & A & Bb & C & D & F & _).
  exists outs, h'. repeat (split; [assumption|]). assumption.
Qed.

(** C17, histories: after any history of proper calls, the live objects are exactly those handed
    to the client and not freed by it; no pointer is handed out or freed twice; the next proper
    call is defined (no stuck state). When everything was freed nothing is left. *)
Theorem C17_history : forall Blueprint (parse : bool -> string -> report * Blueprint) convert h given freed,
  well_behaved parse convert -> history parse convert h given freed ->
  NoDup given /\ NoDup freed /\ incl freed given /\
  (forall p, live h p <-> In p given /\ ~ In p freed) /\
  (incl given freed -> cells h = []) /\
  (forall c, proper h c -> exists outs h', perform parse convert h c = Some (outs, h') /\
     history parse convert h' (given ++ outs) (freed ++ freed_by c)).
Proof.
  intros B parse convert h given freed W Hh. destruct (history_inv parse convert W h given freed Hh) as (O & A & N & _ & I & L).
  repeat (split; [assumption|]). split.
  - intros J. destruct (cells h) as [|[p o] l] eqn:E; [reflexivity|]. exfalso.
    assert (Lp : live h p) by (unfold live; rewrite E; now left). apply L in Lp as [Lp Ln]. apply Ln. now apply J.
  - intros c P. destruct (perform_ledger parse convert W h c O P) as (outs & h' & E & _). exists outs, h'. split; [exact E|].
    now apply h_call with h.
Qed.

(** C17: improper frees are undefined, not silently absorbed: freeing a dead pointer *)
Theorem C17_double_free_undefined : forall h p, ~ live h p ->
  drafter_free_result h (Some p) = None /\ drafter_free_parse_options h (Some p) = None /\
  drafter_free_serialize_options h (Some p) = None.
Proof.
  intros h p N. assert (E : load h p = None).
  { unfold load. destruct (find _ (cells h)) as [[q o]|] eqn:F; [|reflexivity]. exfalso. apply N. apply find_some in F as [F1 F2].
    cbn in F2. apply Nat.eqb_eq in F2. subst. unfold live. now apply (in_map fst) in F1. }
  cbn. now rewrite E.
Qed.

(** C18: the parse result is the API category (at most one), then the error (at most one), then
    the warnings in order; the code is that of the error; an error and an API category never
    come together, and the code is nonzero iff there is an error. *)
Theorem C18_parse_result : forall Blueprint (parse : bool -> string -> report * Blueprint) convert h src popts opts api err ws,
  heap_ok h -> load_parse_options h popts = Some opts ->
  analysed parse convert opts src api err ws -> Forall placed (opt_list err ++ ws) ->
  exists r h1 es wes,
    drafter_parse_blueprint _ parse convert h (Some src) true popts = Some (code_of err, Some (Some r), h1) /\
    load h1 r = Some (OResult (Elem "parseResult" [] [] true (DArray (opt_list api ++ es ++ wes)))) /\
    Forall2 (shows "error") (opt_list err) es /\ Forall2 (shows "warning") ws wes /\
    (code_of err <> 0%Z <-> err <> None) /\ (err = None <-> api <> None).
Proof.
  intros B parse convert h src popts opts api err ws H L An Pl.
  destruct (parse_spec _ parse convert h src popts opts api err ws H L An Pl) as (es & wes & S1 & S2 & T & E1 & E2).
  exists (next h), (snd (alloc h (OResult (result_of api es wes)))), es, wes. split; [exact E1|].
  split; [apply load_alloc|]. split; [exact S1|]. split; [exact S2|].
  unfold analysed in An. cbv zeta in An. inversion An; subst; cbn; intuition (try congruence); try lia.
Qed.

(** C19: check hands out the parse result without its API category, NULL iff no annotation *)
Theorem C19_check : forall Blueprint (parse : bool -> string -> report * Blueprint) convert h src popts opts,
  well_behaved parse convert -> heap_ok h -> load_parse_options h popts = Some opts ->
  exists code r h1 l w h2,
    drafter_parse_blueprint _ parse convert h (Some src) true popts = Some (code, Some (Some r), h1) /\
    load h1 r = Some (OResult (Elem "parseResult" [] [] true (DArray l))) /\
    drafter_check_blueprint _ parse convert h (Some src) true popts = Some (code, Some w, h2) /\
    let notes := filter (fun e => String.eqb (ename e) "annotation") l in
    (notes = [] -> w = None) /\
    (notes <> [] -> at_ptr h2 w = Some (OResult (Elem "parseResult" [] [] true (DArray notes)))).
Proof.
  intros B parse convert h src popts opts W H L. destruct (W opts src) as (api & err & ws & An & Pl & Ha).
  assert (Hc : forall e, api = Some e -> ehas e = true /\ ename e <> "annotation"%string) by (intros e He; destruct (Ha e He) as (_ & ? & ?); auto).
  destruct (check_spec _ parse convert h src true popts opts api err ws H L An Pl Hc) as (es & wes & S1 & S2 & _ & E1 & E5).
  assert (F : filter (fun e => String.eqb (ename e) "annotation") (opt_list api ++ es ++ wes) = es ++ wes).
  { assert (C := children_of_result api es wes _ ws Hc S1 S2). unfold filter_children, result_of, eget in C. cbn [ehas edata iterable] in C.
    destruct (forallb ehas _); [|discriminate]. now injection C. }
  exists (code_of err), (next h), (snd (alloc h (OResult (result_of api es wes)))), (opt_list api ++ es ++ wes)%list.
  rewrite F, E5. destruct (es ++ wes) as [|x l] eqn:El.
  - do 2 eexists. split; [exact E1|]. split; [unfold result_of; rewrite El; apply load_alloc|]. split; [reflexivity|]. split; [reflexivity|congruence].
  - do 2 eexists. split; [exact E1|]. split; [unfold result_of; rewrite El; apply load_alloc|]. split; [reflexivity|]. split; [discriminate|].
    intros _. cbn [at_ptr]. unfold load. cbn [cells find fst]. rewrite Nat.eqb_refl. unfold result_of. cbn [opt_list app]. now rewrite El.
Qed.

(** C44: the warnings raised during conversion are recorded once each: no repetition, nothing
    lost, in the order of their first occurrence. *)
Theorem C44_warnings_once : forall raised,
  let kept := fold_left warn raised [] in
  NoDup kept /\ (forall w, In w kept <-> In w raised) /\
  (forall a b l1 l2 l3, kept = l1 ++ a :: l2 ++ b :: l3 -> exists r1 r2, raised = r1 ++ a :: r2 /\ ~ In b r1 /\ In b r2).
Proof.
  intros raised kept. unfold kept. rewrite warn_firsts. split; [apply firsts_nodup|]. split; [intros w; apply firsts_in|].
  apply firsts_order.
Qed.

(** C45: options objects. Fresh options hold the defaults; each setter changes its own field of
    its own object and nothing else. *)
Inductive parse_field := FNameRequired | FSkipBodies | FSkipSchemas.
Definition field (f : parse_field) (o : parse_options) : bool :=
  match f with FNameRequired => name_required o | FSkipBodies => skip_bodies o | FSkipSchemas => skip_schemas o end.
Definition setter (f : parse_field) : heap -> option nat -> option heap :=
  match f with
  | FNameRequired => drafter_set_name_required
  | FSkipBodies => drafter_set_skip_gen_bodies
  | FSkipSchemas => drafter_set_skip_gen_body_schemas
  end.

Lemma load_store : forall h p o q, load h p <> None -> load (store h p o) q = if Nat.eqb q p then Some o else load h q.
Proof.
  intros [l n] p o q Lp. unfold load, store in *. cbn [cells] in *. induction l as [|[k x] l IH]; cbn in *; [now elim Lp|].
  destruct (Nat.eqb_spec k p) as [->|Nk]; cbn.
  - rewrite (Nat.eqb_sym p q). destruct (Nat.eqb_spec q p) as [->|Nq]; [reflexivity|].
    clear - Nq. induction l as [|[k x'] l IH]; cbn; [reflexivity|]. destruct (Nat.eqb_spec k p) as [->|Nk]; cbn.
    + destruct (Nat.eqb_spec p q); [congruence|exact IH].
    + destruct (Nat.eqb k q); [reflexivity|exact IH].
  - destruct (Nat.eqb_spec k q) as [->|Nq]; cbn; [|now apply IH].
    destruct (Nat.eqb_spec q p); [congruence|reflexivity].
Qed.

Theorem C45_options : forall h,
  (forall p h', drafter_init_parse_options h = (p, h') ->
     exists o, load h' p = Some (OParseOptions o) /\ forall f, field f o = false) /\
  (forall p h', drafter_init_serialize_options h = (p, h') ->
     load h' p = Some (OSerializeOptions (SerializeOptions false 0%Z))) /\
  (forall p o f, load h p = Some (OParseOptions o) -> exists h' o',
     setter f h (Some p) = Some h' /\ load h' p = Some (OParseOptions o') /\ field f o' = true /\
     (forall g, g <> f -> field g o' = field g o) /\ (forall q, q <> p -> load h' q = load h q)) /\
  (forall p o, load h p = Some (OSerializeOptions o) -> exists h' o',
     drafter_set_sourcemaps_included h (Some p) = Some h' /\ load h' p = Some (OSerializeOptions o') /\
     sourcemaps o' = true /\ format o' = format o /\ (forall q, q <> p -> load h' q = load h q)) /\
  (forall p o v, load h p = Some (OSerializeOptions o) -> exists h' o',
     drafter_set_format v h (Some p) = Some h' /\ load h' p = Some (OSerializeOptions o') /\
     sourcemaps o' = sourcemaps o /\ format o' = v /\ (forall q, q <> p -> load h' q = load h q)).
Proof.
  intros h.
  assert (St : forall p x o, load h p = Some x -> load (store h p o) p = Some o /\ forall q, q <> p -> load (store h p o) q = load h q).
  { intros p x o L. assert (N : load h p <> None) by congruence. split; [rewrite load_store by exact N; now rewrite Nat.eqb_refl|].
    intros q Nq. rewrite load_store by exact N. apply Nat.eqb_neq in Nq. now rewrite Nq. }
  repeat apply conj.
  - intros p h' [= <- <-]. exists (ParseOptions false false false). split; [apply (load_alloc h)|now intros []].
  - intros p h' [= <- <-]. apply (load_alloc h).
  - intros p o f L. destruct f; cbn [setter]; unfold drafter_set_name_required, drafter_set_skip_gen_bodies, drafter_set_skip_gen_body_schemas, set_parse_options;
      rewrite L; do 2 eexists; (split; [reflexivity|]); (split; [now apply (St p _ _ L)|]);
      (split; [reflexivity|]); (split; [intros []; cbn; congruence|now apply (St p _ _ L)]).
  - intros p o L. unfold drafter_set_sourcemaps_included, set_serialize_options. rewrite L. do 2 eexists. split; [reflexivity|].
    split; [now apply (St p _ _ L)|]. split; [reflexivity|]. split; [reflexivity|]. now apply (St p _ _ L).
  - intros p o v L. unfold drafter_set_format, set_serialize_options. rewrite L. do 2 eexists. split; [reflexivity|].
    split; [now apply (St p _ _ L)|]. split; [reflexivity|]. split; [reflexivity|]. now apply (St p _ _ L).
Qed.

(** C45: NULL serialize options are the same as fresh ones *)
Theorem C45_null_options_are_defaults : forall h r p h1 e, heap_ok h -> In (r, OResult e) (cells h) ->
  drafter_init_serialize_options h = (p, h1) ->
  exists t1 h2 t2 h3, drafter_serialize h1 (Some r) None = Some (Some t1, h2) /\ drafter_serialize h1 (Some r) (Some p) = Some (Some t2, h3) /\
    load h2 t1 = load h3 t2.
Proof.
  intros h r p h1 e H Hr E. assert (O : heap_ok h1).
  { apply (f_equal snd) in E. cbn [snd] in E. subst h1. apply (heap_ok_alloc h (OSerializeOptions (SerializeOptions false YAML)) H). discriminate. }
  assert (Hr1 : In (r, OResult e) (cells h1)). { injection E as <- <-. now right. }
  assert (Lp : load_serialize_options h1 (Some p) = Some (Some (SerializeOptions false YAML))).
  { injection E as <- <-. cbn [load_serialize_options]. assert (X := load_alloc h (OSerializeOptions (SerializeOptions false YAML))). unfold alloc in X. cbn [snd] in X. now rewrite X. }
  destruct (serialize_spec h1 r None None e O eq_refl Hr1) as [E1 F1]. destruct (serialize_spec h1 r (Some p) _ e O Lp Hr1) as [E2 _].
  change (text_of e (Some (SerializeOptions false YAML))) with (text_of e None) in E2.
  destruct (text_of e None) as [t|]; [|destruct (proj1 F1 eq_refl) as [_ X]; now elim X].
  do 4 eexists. split; [exact E1|]. split; [exact E2|]. reflexivity.
Qed.

(** ** The hypotheses are met: a concrete parser and conversion *)
Definition demo_parse (required : bool) (src : string) : report * bool :=
  if String.eqb src "bad" then (Report (Annotation "expected API name" 2 [Range 0 3]) [Annotation "w" 5 [Range 1 1]], true)
  else (Report (Annotation "OK" 0 []) [Annotation "w" 5 [Range 0 2]], String.eqb src "mson").
Definition demo_convert (b : bool) (_ : option parse_options) : conversion * list annotation :=
  if b then (ThrowsStd "what", [Annotation "a" 6 []; Annotation "a" 6 []])
  else (Converted (Elem "category" [] [] true (DArray [])), [Annotation "a" 6 []; Annotation "b" 6 []; Annotation "a" 6 []]).

Lemma demo_well_behaved : well_behaved demo_parse demo_convert.
Proof.
  intros opts src. unfold analysed, demo_parse. cbv zeta. destruct (String.eqb src "bad").
  - do 3 eexists. split; [apply out_parse_error; discriminate|]. cbn. split; [repeat constructor|discriminate].
  - cbn [fst snd]. destruct (String.eqb src "mson").
    + do 3 eexists. split; [eapply out_exception; [reflexivity|reflexivity]|]. cbn. split; [repeat constructor|discriminate].
    + do 3 eexists. split; [eapply out_ok; [reflexivity|reflexivity]|]. cbn. split; [repeat constructor|].
      intros e [= <-]. split; [|split; [reflexivity|discriminate]]. apply no_null_intro; [intros _; exact I|intros c []].
Qed.

Example C16_nonvacuous : forall required, exists p h t,
  drafter_parse_blueprint_to _ demo_parse demo_convert (Heap [(0, OSerializeOptions (SerializeOptions true JSON))] 1) (Some required) true None (Some 0)
    = Some (p, Some (Some t), h) /\ heap_ok (Heap [(0, OSerializeOptions (SerializeOptions true JSON))] 1).
Proof.
  intros src. assert (H : heap_ok (Heap [(0, OSerializeOptions (SerializeOptions true JSON))] 1)).
  { repeat split; cbn; [repeat constructor; intros []|repeat constructor|]. intros p e [[=]|[]]. }
  destruct (C16_codes_and_outputs _ demo_parse demo_convert _ src None (Some 0) None (Some (SerializeOptions true JSON))
    demo_well_behaved H eq_refl eq_refl) as (api & err & ws & _ & r & h1 & h2 & h3 & h4 & h5 & h6 & h7 & t1 & t2 & w & _ & _ & E & _ & _ & _ & _ & _ & _ & N).
  destruct t1 as [t|]; [eauto|]. destruct (proj1 N eq_refl) as [X _]. now elim X.
Qed.

Example C18_nonvacuous :
  match drafter_parse_blueprint _ demo_parse demo_convert (Heap [] 0) (Some "bad") true None with
  | Some (code, Some (Some r), h) => (code = 2)%Z /\ exists e1 e2, load h r = Some (OResult (Elem "parseResult" [] [] true (DArray [e1; e2])))
  | _ => False
  end.
Proof. vm_compute. split; [reflexivity|]. eauto. Qed.

(** a history: options made and set, a parse kept, a check kept, a parse_to, everything freed *)
Example C17_nonvacuous : exists h given freed, history demo_parse demo_convert h given freed /\
  List.length given = 4 /\ incl given freed.
Proof.
  assert (St : forall h g f c outs h', history demo_parse demo_convert h g f -> proper h c ->
     perform demo_parse demo_convert h c = Some (outs, h') -> history demo_parse demo_convert h' (g ++ outs) (f ++ freed_by c))
    by (intros; eapply h_call; eauto).
  do 3 eexists. split.
  - eapply (St _ _ _ (CFreeResult (Some 3))).
    + eapply (St _ _ _ (CFreeResult (Some 1))).
      * eapply (St _ _ _ (CFreeText (Some 5))).
        -- eapply (St _ _ _ (CFreeParse (Some 0))).
           ++ eapply (St _ _ _ (CParseTo (Some "bad") true (Some 0) None)).
              ** eapply (St _ _ _ (CCheck (Some "mson") true (Some 0))).
                 --- eapply (St _ _ _ (CParse (Some "x") true (Some 0))).
                     +++ eapply (St _ _ _ (CSetNameRequired 0)).
                         *** eapply (St _ _ _ CInitParse); [constructor|exact I|vm_compute; reflexivity].
                         *** intros q [= <-]. eexists. left. reflexivity.
                         *** vm_compute; reflexivity.
                     +++ intros q [= <-]. eexists. left. reflexivity.
                     +++ vm_compute; reflexivity.
                 --- intros q [= <-]. eexists. right. left. reflexivity.
                 --- vm_compute; reflexivity.
              ** split; [|discriminate]. intros q [= <-]. eexists. right. right. left. reflexivity.
              ** vm_compute; reflexivity.
           ++ intros q [= <-]. eexists. do 3 right. left. reflexivity.
           ++ vm_compute; reflexivity.
        -- intros q [= <-]. eexists. left. reflexivity.
        -- vm_compute; reflexivity.
      * intros q [= <-]. eexists. right. left. reflexivity.
      * vm_compute; reflexivity.
    + intros q [= <-]. eexists. left. reflexivity.
    + vm_compute; reflexivity.
  - split; [reflexivity|]. intros p Hp. cbn in *. intuition.
Qed.

(** outside the hypotheses: an exception of another type escapes the C interface; a thrown Error
    with code 0 leaves a result with neither API nor error *)
Theorem C18_other_exception_refuted : exists (parse : bool -> string -> report * unit) convert,
  drafter_parse_blueprint _ parse convert (Heap [] 0) (Some "") true None = None.
Proof.
  exists (fun _ _ => (Report (Annotation "" 0 []) [], tt)), (fun _ _ => (ThrowsOther, [])). reflexivity.
Qed.
Theorem C18_code_zero_error_refuted : exists (parse : bool -> string -> report * unit) convert h,
  drafter_parse_blueprint _ parse convert (Heap [] 0) (Some "") true None = Some (0%Z, Some (Some 0), h) /\
  load h 0 = Some (OResult (Elem "parseResult" [] [] true (DArray []))).
Proof.
  exists (fun _ _ => (Report (Annotation "" 0 []) [], tt)), (fun _ _ => (ThrowsError (Annotation "" 0 []), [])). eexists.
  split; reflexivity.
Qed.

Example C44_nonvacuous : fold_left warn [Annotation "a" 1 []; Annotation "b" 1 []; Annotation "a" 1 []; Annotation "a" 2 []] []
  = [Annotation "a" 1 []; Annotation "b" 1 []; Annotation "a" 2 []].
Proof. reflexivity. Qed.

Print Assumptions C16_null_source.
Print Assumptions C16_codes_and_outputs.
Print Assumptions C16_text_is_whole.
Print Assumptions C17_call.
Print Assumptions C17_history.
Print Assumptions C17_double_free_undefined.
Print Assumptions C18_parse_result.
Print Assumptions C19_check.
Print Assumptions C44_warnings_once.
Print Assumptions C45_options.
Print Assumptions C45_null_options_are_defaults.
