From Verif Require Import Base Utf8 SoValue JsonIo JsonSpec YamlIo YamlIoProofs DecProofs SerializeSpec Element ElementSpec ElementProofs SerializeSo SerializeProofs
  SourceMap SourceMapSpec SourceMapProofs Prop_SourceMap Capi CapiSpec.

(** * warnings *)
Lemma range_eqb_spec : forall a b, reflect (a = b) (range_eqb a b).
Proof.
  intros [a1 a2] [b1 b2]. unfold range_eqb. cbn. destruct (N.eqb_spec a1 b1), (N.eqb_spec a2 b2); constructor; congruence.
Qed.

Lemma locations_eqb_spec : forall l r, reflect (l = r) (locations_eqb l r).
Proof.
  induction l as [|x l IH]; intros [|y r]; cbn; try (constructor; congruence).
  destruct (range_eqb_spec x y); cbn; [|constructor; congruence].
  destruct (IH r); constructor; congruence.
Qed.

Lemma same_warning_spec : forall a b, reflect (a = b) (same_warning a b).
Proof.
  intros [m c l] [m' c' l']. unfold same_warning. cbn [a_location a_code a_message].
  destruct (locations_eqb_spec l l'); cbn; [|constructor; congruence].
  destruct (N.eqb_spec c c'); cbn; [|constructor; congruence].
  destruct (String.eqb_spec m m'); constructor; congruence.
Qed.

Definition other (w x : annotation) : bool := if annotation_eq_dec x w then false else true.

Lemma firsts_in : forall l x, In x (firsts l) <-> In x l.
Proof.
  induction l as [|w r IH]; intros x; [reflexivity|]. cbn [firsts In].
  rewrite filter_In, IH. destruct (annotation_eq_dec x w) as [->|N]; [tauto|]. intuition congruence.
Qed.

Lemma filter_app_other : forall w l x, filter (other w) (l ++ [x]) = filter (other w) l ++ (if annotation_eq_dec x w then [] else [x]).
Proof. intros w l x. rewrite filter_app. cbn. unfold other at 2. destruct (annotation_eq_dec x w); reflexivity. Qed.

Lemma firsts_snoc : forall l x, firsts (l ++ [x]) = if in_dec annotation_eq_dec x l then firsts l else firsts l ++ [x].
Proof.
  induction l as [|w r IH]; intros x; [reflexivity|]. cbn [firsts app]. rewrite IH. fold (other w).
  destruct (in_dec annotation_eq_dec x r) as [I|I], (in_dec annotation_eq_dec x (w :: r)) as [J|J]; try (exfalso; cbn in J; tauto).
  - reflexivity.
  - destruct J as [->|J]; [|contradiction]. rewrite filter_app_other. destruct (annotation_eq_dec x x); [|congruence].
    now rewrite app_nil_r.
  - rewrite filter_app_other. destruct (annotation_eq_dec x w) as [->|]; [exfalso; apply J; now left|reflexivity].
Qed.

Lemma warn_firsts : forall ws, fold_left warn ws [] = firsts ws.
Proof.
  induction ws as [|w ws IH] using rev_ind; [reflexivity|]. rewrite fold_left_app. cbn [fold_left]. rewrite IH, firsts_snoc.
  unfold warn. destruct (existsb _ (firsts ws)) eqn:E.
  - apply existsb_exists in E as (x & Hx & Ex). destruct (same_warning_spec x w) as [->|]; [|discriminate].
    apply (firsts_in ws w) in Hx. destruct (in_dec annotation_eq_dec w ws); [reflexivity|contradiction].
  - destruct (in_dec annotation_eq_dec w ws) as [I|]; [|reflexivity]. exfalso.
    apply firsts_in in I. assert (T : existsb (fun item => same_warning item w) (firsts ws) = true).
    { apply existsb_exists. exists w. split; [exact I|]. now destruct (same_warning_spec w w). }
    congruence.
Qed.

(** * annotations *)
Lemma firsts_nodup : forall l, NoDup (firsts l).
Proof.
  induction l as [|w r IH]; cbn; constructor.
  - intros H. apply filter_In in H as [_ H]. destruct (annotation_eq_dec w w); congruence.
  - now apply NoDup_filter.
Qed.

Lemma filter_split : forall A (f : A -> bool) l l1 b l2, filter f l = l1 ++ b :: l2 ->
  exists k1 k2, l = k1 ++ b :: k2 /\ filter f k1 = l1 /\ filter f k2 = l2.
Proof.
  intros A f l. induction l as [|x l IH]; cbn; intros l1 b l2 E; [destruct l1; discriminate|].
  destruct (f x) eqn:F.
  - destruct l1 as [|y l1]; cbn in E; injection E as -> E.
    + exists [], l. subst. auto.
    + destruct (IH _ _ _ E) as (k1 & k2 & -> & A1 & A2). exists (y :: k1), k2. cbn. rewrite F, A1. auto.
  - destruct (IH _ _ _ E) as (k1 & k2 & -> & A1 & A2). exists (x :: k1), k2. cbn. rewrite F. auto.
Qed.

Lemma firsts_order : forall l a b l1 l2 l3, firsts l = l1 ++ a :: l2 ++ b :: l3 ->
  exists r1 r2, l = r1 ++ a :: r2 /\ ~ In b r1 /\ In b r2.
Proof.
  induction l as [|w r IH]; cbn; intros a b l1 l2 l3 E; [destruct l1; discriminate|].
  assert (Hb : In b (filter (other w) (firsts r)) -> In b r /\ b <> w).
  { intros H. apply filter_In in H as [H1 H2]. apply (firsts_in r b) in H1. split; [exact H1|]. intros ->. unfold other in H2.
    destruct (annotation_eq_dec w w); congruence. }
  destruct l1 as [|x l1]; cbn in E; injection E as -> E.
  - exists [], r. split; [reflexivity|]. split; [intros []|]. apply Hb. fold (other a) in E. rewrite E. apply in_or_app. right. now left.
  - fold (other x) in E, Hb. destruct (filter_split _ _ _ _ _ _ E) as (k1 & k2 & E1 & E2 & E3).
    destruct (filter_split _ _ _ _ _ _ E3) as (k3 & k4 & E4 & _). subst k2.
    destruct (IH a b k1 k3 k4 E1) as (r1 & r2 & -> & N & I). exists (x :: r1), r2. split; [reflexivity|]. split; [|exact I].
    assert (Hx : b <> x). { apply Hb. rewrite E. apply in_or_app. right. right. apply in_or_app. right. now left. }
    intros [G|G]; [congruence|contradiction].
Qed.

Lemma tidy_intro : forall n m a h d, NoDup (map fst m) -> NoDup (map fst a) ->
  match d with DNumber s => json_number s = true | DString _ | DArray _ => True | _ => False end ->
  (forall x, In x (map snd m ++ map snd a ++ dsd_children d) -> tidy x) -> tidy (Elem n m a h d).
Proof.
  intros n m a h d Dm Da Hd C. set (e := Elem n m a h d). assert (C' : forall c, In c (children e) -> tidy c) by exact C.
  assert (S : forall (P : element -> Prop), P e -> (forall c, In c (children e) -> forall x, sub x c -> P x) -> forall x, sub x e -> P x).
  { intros P Pe Pc x Hx. inversion Hx as [|? c ? Hc Hs]; subst; [exact Pe|now apply (Pc c)]. }
  split; [|split].
  - refine (S ElementSpec.head_ok _ _); [intros _; cbn; destruct d; tauto|]. intros c Hc. destruct (C' c Hc) as (Nc & _). exact Nc.
  - refine (S (fun x => NoDup (map fst (emeta x)) /\ NoDup (map fst (eattrs x))) _ _); [now split|].
    intros c Hc. destruct (C' c Hc) as (_ & Uc & _). exact Uc.
  - refine (S (fun x => Forall (fun s => json_number s = true) (own_numbers x)) _ _).
    + unfold own_numbers. cbn. destruct h; [|constructor]. destruct d; constructor; auto.
    + intros c Hc. destruct (C' c Hc) as (_ & _ & Jc). exact Jc.
Qed.

Local Ltac tidy0 := apply tidy_intro; [exact (NoDup_nil _)|exact (NoDup_nil _)| |].

Lemma annotation_ok : forall src index key a, GetLinesEndIndex src = Some index -> placed a ->
  exists e, AnnotationToRefract index key a = Some e /\ shows key a e /\ tidy e.
Proof.
  intros src index key a G P. destruct (C35_annotation src key a) as (ix & G' & H). rewrite G in G'. injection G' as <-.
  destruct (H P) as (ps & _ & E). eexists. split; [exact E|]. split; [repeat split|].
  assert (Num : forall n, tidy (make_element (DNumber (dec n)))).
  { intros n. tidy0; [apply dec_json_number|intros x []]. }
  assert (Str : forall s, tidy (make_element (DString s))) by (intros; tidy0; [exact I|intros x []]).
  assert (Pl : forall n l c, tidy (Elem "number" [] [("line", make_element (DNumber (dec l))); ("column", make_element (DNumber (dec c)))]%string true (DNumber (dec n)))).
  { intros. apply tidy_intro; [exact (NoDup_nil _)| |apply dec_json_number|].
    - cbn. repeat constructor; cbn; intuition discriminate.
    - intros x [<-|[<-|[]]]; apply Num. }
  apply tidy_intro; [| |exact I|]; cbn [map snd fst app dsd_children].
  - repeat constructor; intros [].
  - repeat constructor; cbn; intuition discriminate.
  - intros x [<-|[<-|[<-|[]]]]; [|apply Num|].
    + tidy0; [exact I|]. intros x [<-|[]]. apply Str.
    + tidy0; [exact I|]. intros x [<-|[]]. tidy0; [exact I|].
      intros x Hx. cbn in Hx. apply in_map_iff in Hx as ([r p] & <- & _). tidy0; [exact I|].
      intros x [<-|[<-|[]]]; apply Pl.
Qed.

Lemma annotations_ok : forall src index key l, GetLinesEndIndex src = Some index -> Forall placed l ->
  exists es, annotations_to_refract index key l = Some es /\ Forall2 (shows key) l es /\ Forall tidy es.
Proof.
  intros src index key l G F. unfold annotations_to_refract. induction F as [|a l P F (es & E & S & N)].
  - exists []. repeat constructor.
  - destruct (annotation_ok src index key a G P) as (e & Ea & Sa & Na). exists (e :: es). cbn. rewrite Ea, E.
    split; [reflexivity|]. split; constructor; auto.
Qed.

Section Api.
  Variable Blueprint : Type.
  Variable parse : bool -> string -> report * Blueprint.
  Variable convert : Blueprint -> option parse_options -> conversion * list annotation.

  Definition result_of (api : option element) (es ws : list element) : element :=
    Elem "parseResult" [] [] true (DArray (opt_list api ++ es ++ ws)).

  Lemma wrap_ok : forall src index rep bp opts api err ws,
    GetLinesEndIndex src = Some index -> outcome rep (convert bp opts) api err ws -> Forall placed (opt_list err ++ ws) ->
    exists rep' es wes, WrapRefract _ convert index rep bp opts = Some (rep', result_of api es wes) /\
      Z.of_N (a_code (r_error rep')) = code_of err /\
      Forall2 (shows "error") (opt_list err) es /\ Forall2 (shows "warning") ws wes /\ Forall tidy (es ++ wes).
  Proof.
    intros src index rep bp opts api err ws G O P. apply Forall_app in P as [Pe Pw].
    destruct (annotations_ok src index "error" _ G Pe) as (es & Ee & Se & Ne).
    destruct (annotations_ok src index "warning" _ G Pw) as (wes & Ew & Sw & Nw).
    unfold WrapRefract, is_ok.
    destruct O as [C|e ws C V|what ws C V|a ws C V D]; cbn [opt_list] in *.
    - destruct (N.eqb_spec (a_code (r_error rep)) 0); [contradiction|].
      replace (r_warnings rep ++ fold_left warn [] []) with (r_warnings rep) by (cbn; now rewrite app_nil_r).
      destruct (N.eqb_spec (a_code (r_error rep)) 0); [contradiction|].
      rewrite Ee, Ew. exists (Report (r_error rep) (r_warnings rep)), es, wes. repeat split; auto. now apply Forall_app.
    - destruct (N.eqb_spec (a_code (r_error rep)) 0); [|contradiction]. rewrite V, warn_firsts.
      destruct (N.eqb_spec (a_code (r_error rep)) 0); [|contradiction].
      cbn [annotations_to_refract mapM]. rewrite Ew. inversion Se; subst. exists (Report (r_error rep) (r_warnings rep ++ firsts ws)), [], wes.
      repeat split; auto. cbn. now rewrite C.
    - destruct (N.eqb_spec (a_code (r_error rep)) 0); [|contradiction]. rewrite V, warn_firsts.
      cbn [a_code]. change (MSONError =? 0)%N with false. cbn iota. change MSONError with 4%N. rewrite Ee, Ew.
      exists (Report (Annotation what 4 []) (r_warnings rep ++ firsts ws)), es, wes. repeat split; auto. now apply Forall_app.
    - destruct (N.eqb_spec (a_code (r_error rep)) 0); [|contradiction]. rewrite V, warn_firsts.
      destruct (N.eqb_spec (a_code a) 0); [contradiction|]. destruct (N.eqb_spec (a_code a) 0); [contradiction|].
      rewrite Ee, Ew. exists (Report a (r_warnings rep ++ firsts ws)), es, wes. repeat split; auto. now apply Forall_app.
  Qed.

  (** * heap *)
  Lemma load_in : forall h p o, NoDup (map fst (cells h)) -> (load h p = Some o <-> In (p, o) (cells h)).
  Proof.
    intros [l n] p o. cbn [cells]. unfold load. cbn [cells]. induction l as [|[q x] l IH]; cbn; intros ND.
    - split; [discriminate|tauto].
    - inversion ND as [|? ? Hn ND']; subst. destruct (Nat.eqb_spec q p) as [->|Nq].
      + split; [intros [= ->]; now left|]. intros [[= ->]|H]; [reflexivity|].
        exfalso. apply Hn. now apply (in_map fst) in H.
      + rewrite (IH ND'). split; [now right|]. intros [[= -> _]|H]; [congruence|exact H].
  Qed.

  Lemma load_alloc : forall h o, load (snd (alloc h o)) (next h) = Some o.
  Proof. intros h o. unfold load, alloc. cbn. now rewrite Nat.eqb_refl. Qed.

  Lemma fresh_not_live : forall h, heap_ok h -> ~ live h (next h).
  Proof.
    intros h (_ & F & _) L. unfold live in L. apply in_map_iff in L as (c & E & Hc).
    rewrite Forall_forall in F. specialize (F c Hc). lia.
  Qed.

  Lemma filter_not_live : forall h p, ~ live h p -> filter (fun c => negb (Nat.eqb (fst c) p)) (cells h) = cells h.
  Proof.
    intros [l n] p L. unfold live in L. cbn [cells] in *. induction l as [|c l IH]; [reflexivity|]. cbn in *.
    destruct (Nat.eqb_spec (fst c) p); [exfalso; apply L; now left|]. cbn. now rewrite IH by tauto.
  Qed.

  Lemma release_alloc : forall h o, heap_ok h -> release (snd (alloc h o)) (next h) = Some (Heap (cells h) (S (next h))).
  Proof.
    intros h o H. unfold release. rewrite load_alloc. cbn. rewrite Nat.eqb_refl. cbn. do 2 f_equal.
    apply filter_not_live. now apply fresh_not_live.
  Qed.

  Lemma heap_ok_bump : forall h, heap_ok h -> heap_ok (Heap (cells h) (S (next h))).
  Proof.
    intros h (A & B & C). repeat split; auto. cbn. rewrite Forall_forall in *. intros c Hc. specialize (B c Hc). lia.
  Qed.

  Lemma heap_ok_alloc : forall h o, heap_ok h -> (forall e, o = OResult e -> no_null e) -> heap_ok (snd (alloc h o)).
  Proof.
    intros h o H N. assert (Fr := fresh_not_live h H). destruct H as (A & B & C). cbn. repeat split; cbn.
    - constructor; auto.
    - constructor; [cbn; lia|]. rewrite Forall_forall in *. intros c Hc. specialize (B c Hc). lia.
    - intros p e [[= <- ->]|Hc]; [now apply N|now apply (C p)].
  Qed.

  Lemma release_ok : forall h p o, heap_ok h -> In (p, o) (cells h) ->
    exists h', release h p = Some h' /\ heap_ok h' /\ next h' = next h /\
      (forall q x, In (q, x) (cells h') <-> In (q, x) (cells h) /\ q <> p).
  Proof.
    intros h p o H Hp. assert (H' := H). destruct H' as (A & B & C). unfold release.
    assert (L : load h p = Some o) by (now apply load_in). rewrite L. eexists. split; [reflexivity|].
    assert (I : forall q x, In (q, x) (filter (fun c => negb (Nat.eqb (fst c) p)) (cells h)) <-> In (q, x) (cells h) /\ q <> p).
    { intros q x. rewrite filter_In. cbn. destruct (Nat.eqb_spec q p); cbn; intuition congruence. }
    split; [split; [|split]|split; [reflexivity|exact I]]; cbn [cells next].
    - clear - A. induction (cells h) as [|c l IH]; [constructor|]. cbn in *. inversion A as [|? ? Hn A']; subst.
      destruct (negb (Nat.eqb (fst c) p)); [|now apply IH]. cbn. constructor; [|now apply IH].
      intros G. apply Hn. apply in_map_iff in G as (x & <- & Hx). apply filter_In in Hx as [Hx _]. now apply in_map.
    - rewrite Forall_forall in *. intros c Hc. apply filter_In in Hc as [Hc _]. now apply B.
    - intros q e Hq. apply I in Hq as [Hq _]. now apply (C q).
  Qed.

  Lemma live_in : forall h p, live h p <-> exists o, In (p, o) (cells h).
  Proof.
    intros h p. unfold live. rewrite in_map_iff. split.
    - intros ([q o] & <- & H). now exists o.
    - intros (o & H). now exists (p, o).
  Qed.

  (** * the entry points under well behaved oracles *)
  Hypothesis W : well_behaved parse convert.

  Lemma popts_ok : forall h p, heap_ok h -> is_parse_options h p -> exists o, load_parse_options h p = Some o.
  Proof.
    intros h [q|] H P; cbn; [|now exists None]. destruct (P q eq_refl) as (o & Ho). exists (Some o).
    destruct H as (A & _). apply (load_in _ _ _ A) in Ho. now rewrite Ho.
  Qed.
  Lemma sopts_ok : forall h p, heap_ok h -> is_serialize_options h p -> exists o, load_serialize_options h p = Some o.
  Proof.
    intros h [q|] H P; cbn; [|now exists None]. destruct (P q eq_refl) as (o & Ho). exists (Some o).
    destruct H as (A & _). apply (load_in _ _ _ A) in Ho. now rewrite Ho.
  Qed.

  Lemma index_total : forall src, exists index, GetLinesEndIndex src = Some index.
  Proof. intros src. destruct (C35_positions src) as (t & ix & _ & E & _). eauto. Qed.

  Lemma parse_spec : forall h src popts opts api err ws,
    heap_ok h -> load_parse_options h popts = Some opts -> analysed parse convert opts src api err ws ->
    Forall placed (opt_list err ++ ws) ->
    exists es wes, Forall2 (shows "error") (opt_list err) es /\ Forall2 (shows "warning") ws wes /\ Forall tidy (es ++ wes) /\
      drafter_parse_blueprint _ parse convert h (Some src) true popts =
        Some (code_of err, Some (Some (next h)), snd (alloc h (OResult (result_of api es wes)))) /\
      drafter_parse_blueprint _ parse convert h (Some src) false popts = Some (code_of err, None, Heap (cells h) (S (next h))).
  Proof.
    intros h src popts opts api err ws H L An P. unfold analysed in An. fold (is_name_required opts) in An.
    destruct (index_total src) as (index & G).
    destruct (parse (is_name_required opts) src) as [rep bp] eqn:EP. cbn [fst snd] in An.
    destruct (wrap_ok src index rep bp opts api err ws G An P) as (rep' & es & wes & E & C & S1 & S2 & N).
    exists es, wes. repeat split; auto; unfold drafter_parse_blueprint; rewrite L, G, EP, E, C; [reflexivity|].
    assert (R := release_alloc h (OResult (result_of api es wes)) H). cbn [alloc snd] in *. now rewrite R.
  Qed.

  Lemma result_tidy : forall api es wes, (forall e, api = Some e -> tidy e) -> Forall tidy (es ++ wes) ->
    tidy (result_of api es wes).
  Proof.
    intros api es wes A B. tidy0; [exact I|]. intros x Hx. cbn in Hx. apply in_app_or in Hx as [Hx|Hx].
    - destruct api as [e|]; [|destruct Hx]. destruct Hx as [<-|[]]. now apply A.
    - rewrite Forall_forall in B. now apply B.
  Qed.

  Lemma result_no_null : forall api es wes, (forall e, api = Some e -> no_null e) -> Forall tidy (es ++ wes) ->
    no_null (result_of api es wes).
  Proof.
    intros api es wes A B. apply no_null_intro; [intros _; exact I|]. intros x Hx. unfold children in Hx. cbn in Hx.
    apply in_app_or in Hx as [Hx|Hx].
    - destruct api as [e|]; [|destruct Hx]. destruct Hx as [<-|[]]. now apply A.
    - rewrite Forall_forall in B. now apply B.
  Qed.

  Lemma free_alloc2 : forall h o1 o2 e, heap_ok h -> o1 = OResult e ->
    drafter_free_result (snd (alloc (snd (alloc h o1)) o2)) (Some (next h)) =
    Some (Heap ((S (next h), o2) :: cells h) (S (S (next h)))).
  Proof.
    intros h o1 o2 e H ->. assert (Ne : Nat.eqb (S (next h)) (next h) = false) by (apply Nat.eqb_neq; lia).
    unfold drafter_free_result, release, load, alloc. cbn [snd cells next find fst]. rewrite Ne, Nat.eqb_refl.
    cbn [filter fst]. rewrite Ne, Nat.eqb_refl. cbn [negb]. do 3 f_equal.
    apply filter_not_live. now apply fresh_not_live.
  Qed.

  Lemma free_alloc1 : forall h e, heap_ok h ->
    drafter_free_result (snd (alloc h (OResult e))) (Some (next h)) = Some (Heap (cells h) (S (next h))).
  Proof.
    intros h e H. unfold drafter_free_result. rewrite load_alloc. now apply release_alloc.
  Qed.

  (** serialization of a live result *)
  Definition text_of (e : element) (opts : option serialize_options) : option string :=
    if (get_format opts =? JSON)%Z then option_map serialize_json (render_so e (are_sourcemaps_included opts))
    else if (get_format opts =? YAML)%Z then obind (render_so e (are_sourcemaps_included opts)) serialize_yaml
    else None.

  Lemma yaml_total : forall v, exists t, serialize_yaml v = Some t.
  Proof. intros v. eexists. apply yaml_print_lines. Qed.

  Lemma serialize_spec : forall h r sopts opts e, heap_ok h -> load_serialize_options h sopts = Some opts ->
    In (r, OResult e) (cells h) ->
    drafter_serialize h (Some r) sopts =
      match text_of e opts with
      | Some t => Some (Some (next h), snd (alloc h (OText (Element.c_str t))))
      | None => Some (None, h)
      end /\
    (text_of e opts = None <-> get_format opts <> JSON /\ get_format opts <> YAML).
  Proof.
    intros h r sopts opts e H L I. assert (H' := H). destruct H' as (A & _ & C). apply C in I as N.
    apply (load_in _ _ _ A) in I. unfold drafter_serialize, text_of. rewrite I, L.
    destruct (serialize_rendered e N (are_sourcemaps_included opts)) as (v & E & _). unfold render_so. rewrite E. cbn [obind option_map].
    destruct (yaml_total v) as (t & T). rewrite T.
    destruct (Z.eqb_spec (get_format opts) JSON) as [J|J]; [split; [reflexivity|split; [discriminate|intuition]]|].
    destruct (Z.eqb_spec (get_format opts) YAML) as [Y|Y]; [split; [reflexivity|split; [discriminate|intuition]]|].
    split; [reflexivity|tauto].
  Qed.

  Lemma sopts_alloc : forall h o s opts, heap_ok h -> load_serialize_options h s = Some opts ->
    load_serialize_options (snd (alloc h o)) s = Some opts.
  Proof.
    intros h o [q|] opts H L; [|exact L]. cbn in *. unfold load in *. cbn. destruct (Nat.eqb_spec (next h) q) as [E|]; [|exact L].
    exfalso. destruct (find _ (cells h)) as [[p x]|] eqn:F; [|discriminate]. apply find_some in F as [F1 F2].
    cbn in F2. apply Nat.eqb_eq in F2. subst. apply (fresh_not_live h H). apply live_in. eauto.
  Qed.

  Lemma parse_to_spec : forall h src out popts sopts opts so api err ws,
    heap_ok h -> load_parse_options h popts = Some opts -> load_serialize_options h sopts = Some so ->
    analysed parse convert opts src api err ws -> Forall placed (opt_list err ++ ws) -> (forall e, api = Some e -> no_null e) ->
    exists es wes, Forall2 (shows "error") (opt_list err) es /\ Forall2 (shows "warning") ws wes /\ Forall tidy (es ++ wes) /\
      drafter_parse_blueprint _ parse convert h (Some src) true popts =
        Some (code_of err, Some (Some (next h)), snd (alloc h (OResult (result_of api es wes)))) /\
      drafter_parse_blueprint_to _ parse convert h (Some src) out popts sopts =
        Some (if out then
          match text_of (result_of api es wes) so with
          | Some t => (code_of err, Some (Some (S (next h))), Heap ((S (next h), OText (Element.c_str t)) :: cells h) (S (S (next h))))
          | None => (code_of err, Some None, Heap (cells h) (S (next h)))
          end else (code_of err, None, Heap (cells h) (S (next h)))).
  Proof.
    intros h src out popts sopts opts so api err ws H L LS An P Na.
    destruct (parse_spec h src popts opts api err ws H L An P) as (es & wes & S1 & S2 & N & E1 & _).
    exists es, wes. repeat split; auto. unfold drafter_parse_blueprint_to. rewrite E1.
    remember (result_of api es wes) as e eqn:Ee.
    assert (Ne : no_null e) by (subst; now apply result_no_null).
    assert (H1 : heap_ok (snd (alloc h (OResult e)))) by (apply heap_ok_alloc; [exact H|intros ? [= <-]; exact Ne]).
    destruct out.
    - destruct (serialize_spec (snd (alloc h (OResult e))) (next h) sopts so e H1 (sopts_alloc _ _ _ _ H LS) (or_introl eq_refl)) as [E2 _].
      rewrite E2. destruct (text_of e so) as [t|].
      + rewrite (free_alloc2 h _ (OText (Element.c_str t)) e H eq_refl). reflexivity.
      + rewrite (free_alloc1 h e H). reflexivity.
    - rewrite (free_alloc1 h e H). reflexivity.
  Qed.

  Lemma forall2_has : forall key l es, Forall2 (shows key) l es -> Forall (fun e => ename e = "annotation"%string /\ ehas e = true) es.
  Proof. intros key l es F. induction F as [|a e l es (A & B & _) F IH]; constructor; auto. Qed.

  Lemma filter_all : forall A (f : A -> bool) l, Forall (fun x => f x = true) l -> filter f l = l.
  Proof. intros A f l F. induction F as [|x l Hx F IH]; [reflexivity|]. cbn. now rewrite Hx, IH. Qed.

  Lemma children_of_result : forall api es wes err ws,
    (forall e, api = Some e -> ehas e = true /\ ename e <> "annotation"%string) ->
    Forall2 (shows "error") err es -> Forall2 (shows "warning") ws wes ->
    filter_children "annotation" (result_of api es wes) = Some (es ++ wes).
  Proof.
    intros api es wes err ws Ha S1 S2. unfold filter_children, result_of, eget. cbn [ehas edata iterable].
    apply forall2_has in S1, S2. assert (S : Forall (fun e => ename e = "annotation"%string /\ ehas e = true) (es ++ wes)) by (now apply Forall_app).
    assert (F : forallb ehas (opt_list api ++ es ++ wes) = true).
    { apply forallb_forall. intros x Hx. apply in_app_or in Hx as [Hx|Hx].
      - destruct api as [e|]; [|destruct Hx]. destruct Hx as [<-|[]]. now apply Ha.
      - rewrite Forall_forall in S. now apply S. }
    rewrite F. f_equal. rewrite filter_app. rewrite (filter_all _ _ (es ++ wes)).
    - destruct api as [e|]; [|reflexivity]. cbn. destruct (String.eqb_spec (ename e) "annotation"); [|reflexivity].
      exfalso. now apply (Ha e).
    - apply (Forall_impl _ (P := fun e => ename e = "annotation"%string /\ ehas e = true)); [|exact S].
      intros x [E _]. now apply String.eqb_eq.
  Qed.

  Lemma map_clone_all : forall l, map (clone cAll) l = l.
  Proof.
    induction l as [|x l IH]; [reflexivity|]. cbn [map]. rewrite IH. f_equal. destruct x as [n m a h d].
    now rewrite clone_unfold.
  Qed.

  Lemma check_spec : forall h src out popts opts api err ws,
    heap_ok h -> load_parse_options h popts = Some opts -> analysed parse convert opts src api err ws ->
    Forall placed (opt_list err ++ ws) ->
    (forall e, api = Some e -> ehas e = true /\ ename e <> "annotation"%string) ->
    exists es wes, Forall2 (shows "error") (opt_list err) es /\ Forall2 (shows "warning") ws wes /\ Forall tidy (es ++ wes) /\
      drafter_parse_blueprint _ parse convert h (Some src) true popts =
        Some (code_of err, Some (Some (next h)), snd (alloc h (OResult (result_of api es wes)))) /\
      drafter_check_blueprint _ parse convert h (Some src) out popts =
        Some (if out then
          match es ++ wes with
          | [] => (code_of err, Some None, Heap (cells h) (S (next h)))
          | l => (code_of err, Some (Some (S (next h))),
                   Heap ((S (next h), OResult (result_of None es wes)) :: cells h) (S (S (next h))))
          end else (code_of err, None, Heap (cells h) (S (next h)))).
  Proof.
    intros h src out popts opts api err ws H L An P Ha.
    destruct (parse_spec h src popts opts api err ws H L An P) as (es & wes & S1 & S2 & N & E1 & E2).
    exists es, wes. repeat split; auto. unfold drafter_check_blueprint. destruct out; [|now rewrite E2].
    rewrite E1, load_alloc, (children_of_result api es wes (opt_list err) ws Ha S1 S2).
    rewrite map_clone_all.
    destruct (es ++ wes) as [|x r] eqn:El.
    - rewrite (free_alloc1 h _ H). reflexivity.
    - assert (Fr := free_alloc2 h (OResult (result_of api es wes)) (OResult (result_of None es wes)) _ H eq_refl).
      assert (R : set_name (make_element (DArray (x :: r))) "parseResult" = result_of None es wes).
      { unfold result_of. cbn [opt_list app]. now rewrite El. }
      rewrite R. set (h1 := snd (alloc h (OResult (result_of api es wes)))) in *.
      change (alloc h1 (OResult (result_of None es wes))) with (S (next h), snd (alloc h1 (OResult (result_of None es wes)))).
      cbv beta iota zeta. rewrite Fr. reflexivity.
  Qed.
End Api.
