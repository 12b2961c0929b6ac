(** C81: parameters of URI templates are read from their Markdown nodes as the grammar of ParamsSpec says *)
From Verif Require Import Base StringUtility StringSpec StringProofs ByteBuffer ByteSpec Markdown MarkdownSpec Regex Keywords KeywordsSpec Signature SignatureSpec TypeTables SourceMap Mson TypeDefs TypeDefsSpec TypeDefsProofs
  MembersTree MembersSpec MembersRead MembersLeaves MembersParts MembersWhole MembersEnds Prop_Members Params ParamsSpec ParamsLine ParamsTraits ParamsRead ParamsWhole ParamsEnds.
From Verif Require SectionsSpec Payloads PayloadsSpec Blueprint UriTemplate UriSpec.
Import PayloadsSpec(the_text, place, opens, row, lines).
Import Blueprint(text, blank, parameter_use, UndefinedUse, OptionalUse, RequiredUse, parameter, Param, pa_name, pa_description, pa_type, pa_use, pa_default, pa_example, pa_values).
Local Open Scope string_scope.

(** ** which lines and which items are parameters *)
(** every line has at most one form, and the parser tells which *)
Theorem C81_line : forall line,
  (line_says line OldForm <-> parameter_syntax line = Val OldParameter) /\ (line_says line NewForm <-> parameter_syntax line = Val NewParameter) /\
  ((forall f, ~ line_says line f) <-> parameter_syntax line = Val NotParameter) /\ (exists k, parameter_syntax line = Val k).
Proof.
  intros line. destruct (line_tells line) as (o & T & ->). destruct o as [[]|]; cbn in T |- *; [destruct T as [T U]..|].
  - repeat split; try discriminate; eauto; intros H; [now apply U in H|now elim (H OldForm)].
  - repeat split; try discriminate; eauto; intros H; [now apply U in H|now elim (H NewForm)].
  - repeat split; try discriminate; eauto; intros H; now elim (T _ H).
Qed.
Print Assumptions C81_line.
Theorem C81_items : forall t,
  (formed t OldForm <-> parameter_type t = Val ParameterSection) /\ (formed t NewForm <-> parameter_type t = Val MSONParameterSection) /\
  ((forall f, ~ formed t f) <-> parameter_type t = Val UndefinedSection) /\ (forall f f', formed t f -> formed t f' -> f = f').
Proof.
  intros t. split; [exact (formed_iff t OldForm)|]. split; [exact (formed_iff t NewForm)|]. split.
  - destruct (item_tells t) as (o & T & ->). destruct o as [f|]; cbn in T; [destruct T as [T U]|]; split; try easy; [intros H; now elim (H f)|now destruct f].
  - intros f f' A B. apply formed_iff in A, B. rewrite A in B. injection B as B. now destruct f, f'.
Qed.
Print Assumptions C81_items.

(** ** attributes: no attribute is empty (C74) *)
Theorem C81_traits : forall f l example use type example' failed, Forall (fun a => a <> "") l ->
  (parse_traits (match f with OldForm => true | NewForm => false end) l example = (use, type, example', failed) <->
   traits_say f example l use type example' (if failed then [Says 3 (too_many_traits f)] else [])).
Proof. intros f l example use type example' failed F. exact (traits_iff f l example use type example' failed F). Qed.
Print Assumptions C81_traits.

(** ** the readers and the grammar *)
Theorem C81_old : forall source item s p s', (slen source < 2 ^ 64)%N -> within_source source item ->
  (parse_old source item s = Val (p, s') <-> exists e, old_says source item p e /\ s' = perform e s).
Proof.
  intros source item s p s' Small W. refine (old_read _ source Small item _ s p s' eq_refl). intros t r O. apply Forall_forall. intros u I. apply (deep_fits source (depth item)).
  exact (deep_below source Small (depth item) item t r u (conj (le_S _ _ (le_n _)) W) O I).
Qed.
Print Assumptions C81_old.
Theorem C81_new : forall source context fuel item s p s', (slen source < 2 ^ 64)%N -> within_source source item -> depth item <= S fuel ->
  (parse_new source context fuel item s = Val (p, s') <-> exists e, new_says (bases (s_tables s)) source context item p e /\ s' = perform e s).
Proof.
  intros source context fuel item s p s' Small W D. refine (new_read _ source context Small fuel item _ s p s' eq_refl). intros t r u O I. exact (deep_below source Small fuel item t r u (conj D W) O I).
Qed.
Print Assumptions C81_new.
Theorem C81_parameters : forall source context fuel item s l s', (slen source < 2 ^ 64)%N -> within_source source item -> depth item <= S (S fuel) ->
  (parse_parameters source context fuel item s = Val (l, s') <-> exists e, parameters_say (bases (s_tables s)) source context item l e /\ s' = perform e s).
Proof. intros source context fuel item s l s' Small W D. exact (parameters_read _ source context Small fuel item (conj D W) s l s' eq_refl). Qed.
Print Assumptions C81_parameters.
(** reading ends for every tree, however deep *)
Theorem C81_ends : forall source context item s, exists fuel, forall n, fuel <= n -> parse_parameters source context n item s <> Endless.
Proof. intros source context item s. exists (depth item). intros n D. apply parameters_end. lia. Qed.
Print Assumptions C81_ends.
(** what is read does not depend on the report, on the fuel or on the dependencies *)
Theorem C81_unique : forall known source context item l l' e e', (slen source < 2 ^ 64)%N -> within_source source item ->
  parameters_say known source context item l e -> parameters_say known source context item l' e' -> l = l'.
Proof.
  intros known source context item l l' e e' Small W H H'. set (s := St (T known [] []) []). assert (D : depth item <= S (S (depth item))) by lia.
  assert (A := proj2 (C81_parameters source context (depth item) item s l _ Small W D) (ex_intro _ e (conj H eq_refl))).
  assert (B := proj2 (C81_parameters source context (depth item) item s l' _ Small W D) (ex_intro _ e' (conj H' eq_refl))). rewrite A in B. now injection B.
Qed.
Print Assumptions C81_unique.
(** the report only grows, and of the tables only the dependencies may change *)
Theorem C81_report : forall source context fuel item s l s', (slen source < 2 ^ 64)%N -> within_source source item -> depth item <= S (S fuel) -> parse_parameters source context fuel item s = Val (l, s') ->
  exists w, s_notes s' = (s_notes s ++ w)%list /\ bases (s_tables s') = bases (s_tables s) /\ supers (s_tables s') = supers (s_tables s).
Proof.
  intros source context fuel item s l s' Small W D H. apply C81_parameters in H as (e & _ & ->); [|assumption..]. destruct (perform_grows e s) as (w & A & B & C & _). now exists w.
Qed.
Print Assumptions C81_report.

(** ** every item of one form defines its parameter; of one name the last stays *)
Section Laws.
Context (known : list (string * base_type)) (source context : string).
Lemma nodes_lasting : forall r l l' e, nodes_say (parameter_node known source context) r l l' e -> forall a, l = lasting a -> exists ps, defined known source context r ps /\ l' = lasting (a ++ ps).
Proof.
  intros r l l' e H. induction H as [l|t r l l1 l2 e1 e2 H1 H2 IH|t r l l1 e1 H1]; intros a E.
  - exists []. rewrite app_nil_r. split; [constructor|exact E].
  - inversion H1 as [p e3 l3 e4 F O Ad|p e3 l3 e4 F O Ad|F]; subst.
    + destruct (IH _ (adds_lasting _ _ _ _ _ _ Ad eq_refl)) as (ps & D & ->). exists (p :: ps). rewrite <- app_assoc. split; [|reflexivity]. eapply defined_old; eassumption.
    + destruct (IH _ (adds_lasting _ _ _ _ _ _ Ad eq_refl)) as (ps & D & ->). exists (p :: ps). rewrite <- app_assoc. split; [|reflexivity]. eapply defined_new; eassumption.
    + destruct (IH a eq_refl) as (ps & D & ->). exists ps. split; [|reflexivity]. now apply defined_none.
  - inversion H1.
Qed.
Theorem C81_last : forall item l e, parameters_say known source context item l e ->
  exists t r ps, opens item t r /\ defined known source context r ps /\ l = lasting ps.
Proof. intros item l e H. destruct H as [t r first rest l e O _ N]. destruct (nodes_lasting _ _ _ _ N [] eq_refl) as (ps & D & E). exists t, r, ps. auto. Qed.
(** no two parameters have one name; a name is lost only to a later definition *)
Theorem C81_names : forall item l e, parameters_say known source context item l e ->
  NoDup (map (fun p => fst (pa_name p)) l) /\
  exists t r ps, opens item t r /\ defined known source context r ps /\ (forall x, In x (map (fun p => fst (pa_name p)) l) <-> In x (map (fun p => fst (pa_name p)) ps)) /\
    forall a p b, ps = (a ++ p :: b)%list -> ~ In (fst (pa_name p)) (map (fun q => fst (pa_name q)) b) -> In p l.
Proof.
  intros item l e H. apply C81_last in H as (t & r & ps & O & D & ->). split; [apply lasting_unique|]. exists t, r, ps. split; [exact O|]. split; [exact D|]. split; [intros x; apply lasting_names|].
  intros a p b -> N. clear - N. induction a as [|q a IH]; cbn [app lasting]; match goal with |- context [in_dec string_dec ?x ?y] => destruct (in_dec string_dec x y) as [I|I] end; [now elim N|now left|exact IH|right; exact IH].
Qed.
(** a parameter that is not optional and has a default value is always remarked; so is a default or an example that is not among the values *)
Lemma checked_in : forall item p e m, checked item p e -> (exists e1, clash_says p e1 /\ In m e1) \/ (exists e1, choice_says p e1 /\ In m e1) -> In (lies item, m) e.
Proof.
  intros item p e m C H. destruct C as [e1 e2 A B]. apply (in_map (pair (lies item))), in_or_app. destruct H as [(e3 & H & I)|(e3 & H & I)].
  - left. apply clash_iff in A, H. now rewrite A, <- H.
  - right. apply choice_iff in B, H. now rewrite B, <- H.
Qed.
Lemma says_checked : forall item p e, old_says source item p e \/ new_says known source context item p e -> exists e1 e2 e3, checked item p e3 /\ e = (e1 ++ e2 ++ e3)%list.
Proof. intros item p e [H|H]; destruct H; eexists _, _, _; (split; [eassumption|reflexivity]). Qed.
Theorem C81_default : forall item p e, old_says source item p e \/ new_says known source context item p e -> fst (pa_default p) <> "" ->
  (pa_use p <> OptionalUse -> exists m, In (lies item, Says 8 m) e) /\
  (pa_values p <> [] -> ~ In (fst (pa_default p)) (map fst (pa_values p)) -> exists m, In (lies item, Says 8 m) e).
Proof.
  intros item p e H G. apply says_checked in H as (e1 & e2 & e3 & C & ->). split.
  - intros U. eexists. apply in_or_app; right. apply in_or_app; right. apply (checked_in item p e3); [exact C|]. left. eexists. split; [now apply clash|]. now left.
  - intros V N. destruct (missing_iff "example" (pa_example p) p (missing_value "example" (fst (pa_example p)) p)) as [_ M]. specialize (M eq_refl).
    set (b := "the default value '" +++ fst (pa_default p) +++ "' of parameter '" +++ fst (pa_name p) +++ "' is not in its list of expected values").
    assert (B : missing "default" (pa_default p) p b) by (apply missing_is; [exact G|exact N]).
    eexists. apply in_or_app; right. apply in_or_app; right. apply (checked_in item p e3); [exact C|]. right. eexists. split; [exact (choice_among p _ b V M B)|].
    destruct (String.eqb_spec (missing_value "example" (fst (pa_example p)) p +++ b) "") as [Q|Q]; [|left; reflexivity]. exfalso. destruct (missing_value "example" (fst (pa_example p)) p); discriminate.
Qed.
End Laws.
Print Assumptions C81_last.
Print Assumptions C81_names.
Print Assumptions C81_default.

(** ** parameters and the URI template: a remark for each parameter that is no variable of it, in order *)
Definition as_remark (x : effect) : remark := match x with Says c m => Warns c m | Depends _ _ _ => Warns 0 "" end.
Theorem C81_eligible : forall uri name l rs, eligibility uri name l = Some rs <-> exists e, eligible uri name l e /\ rs = map as_remark e.
Proof.
  intros uri name l rs. split.
  - intros H.
    assert (T : exists e, eligible uri name l e).
    { destruct (template_some uri) as (vs & _ & V). clear H rs. induction l as [|p l (e & E)]; [exists []; constructor|]. destruct (in_dec string_dec (fst (pa_name p)) vs) as [I|I].
      - exists e. apply eligible_found; [now apply V|exact E].
      - eexists. apply eligible_missing; [intros Q; now apply I, V|exact E]. }
    destruct T as [e E]. exists e. split; [exact E|]. apply eligible_iff in E as (rs' & E & -> & _). rewrite E in H. now injection H.
  - intros (e & E & ->). apply eligible_iff in E as (rs' & E & -> & _). exact E.
Qed.
Print Assumptions C81_eligible.
Theorem C81_eligible_total : forall uri name l, exists rs, eligibility uri name l = Some rs.
Proof. intros uri name l. destruct (template_some uri) as (vs & V & _). unfold eligibility. rewrite V. cbn. eauto. Qed.
Print Assumptions C81_eligible_total.

(** ** examples *)
Definition many_source : string := "+ Parameters" +++ line_feed +++ "    + id: 1 (number, required) - The id" +++ line_feed +++ "    + size = `10` (optional, number, `30`) ... Page size" +++ line_feed +++ "        + Values" +++ line_feed +++ "            + `10`" +++ line_feed +++ "            + `20`" +++ line_feed +++ "            + none" +++ line_feed +++ "    + kind: a (enum[string], optional)" +++ line_feed +++ line_feed +++ "        Some words" +++ line_feed +++ line_feed +++ "        + Default: b" +++ line_feed +++ "        + Members" +++ line_feed +++ "            + a" +++ line_feed +++ "            + b" +++ line_feed +++ "    + id (string)" +++ line_feed.
Definition many_item : tree :=
  node ItemNode "" 0 333 [node ParagraphNode "Parameters" 2 11 []; node ItemNode "" 17 36 [node ParagraphNode "id: 1 (number, required) - The id" 19 34 []]; node ItemNode "" 57 127 [node ParagraphNode "size = `10` (optional, number, `30`) ... Page size" 59 51 []; node ItemNode "" 118 66 [node ParagraphNode "Values" 120 7 []; node ItemNode "" 139 7 [node ParagraphNode "`10`" 141 5 []]; node ItemNode "" 158 7 [node ParagraphNode "`20`" 160 5 []]; node ItemNode "" 177 7 [node ParagraphNode "none" 179 5 []]]]; node ItemNode "" 188 127 [node ParagraphNode "kind: a (enum[string], optional)" 190 33 []; node ParagraphNode "Some words" 232 11 []; node ItemNode "" 252 13 [node ParagraphNode "Default: b" 254 11 []]; node ItemNode "" 273 42 [node ParagraphNode "Members" 275 8 []; node ItemNode "" 295 4 [node ParagraphNode "a" 297 2 []]; node ItemNode "" 311 4 [node ParagraphNode "b" 313 2 []]]]; node ItemNode "" 319 14 [node ParagraphNode "id (string)" 321 12 []]].
Definition typed_source : string := "+ Parameters" +++ line_feed +++ "    + id (required, optional)" +++ line_feed.
Definition typed_item : tree :=
  node ItemNode "" 0 43 [node ParagraphNode "Parameters" 2 11 []; node ItemNode "" 17 26 [node ParagraphNode "id (required, optional)" 19 24 []]].
Definition tick_source : string := "+ Parameters" +++ line_feed +++ "    + `" +++ line_feed.
Definition tick_item : tree :=
  node ItemNode "" 0 21 [node ParagraphNode "Parameters" 2 11 []; node ItemNode "" 17 4 [node ParagraphNode "`" 19 2 []]].
Definition open_source : string := "+ Parameters" +++ line_feed +++ "    + id ([a]" +++ line_feed.
Definition open_item : tree :=
  node ItemNode "" 0 27 [node ParagraphNode "Parameters" 2 11 []; node ItemNode "" 17 10 [node ParagraphNode "id ([a]" 19 8 []]].
Definition twice_source : string := "+ Parameters" +++ line_feed +++ "    + id (a)(a)" +++ line_feed.
Definition twice_item : tree :=
  node ItemNode "" 0 29 [node ParagraphNode "Parameters" 2 11 []; node ItemNode "" 17 12 [node ParagraphNode "id (a)(a)" 19 10 []]].
Definition empty_source : string := "+ Parameters" +++ line_feed +++ "    + id: 1 ()" +++ line_feed.
Definition empty_item : tree :=
  node ItemNode "" 0 28 [node ParagraphNode "Parameters" 2 11 []; node ItemNode "" 17 11 [node ParagraphNode "id: 1 ()" 19 9 []]].
Definition props_source : string := "+ Parameters" +++ line_feed +++ "    + id: 1" +++ line_feed +++ "        + Properties" +++ line_feed +++ "            + a" +++ line_feed +++ "        + Default: 2" +++ line_feed.
Definition props_item : tree :=
  node ItemNode "" 0 83 [node ParagraphNode "Parameters" 2 11 []; node ItemNode "" 17 66 [node ParagraphNode "id: 1" 19 6 []; node ItemNode "" 33 29 [node ParagraphNode "Properties" 35 11 []; node ItemNode "" 58 4 [node ParagraphNode "a" 60 2 []]]; node ItemNode "" 70 13 [node ParagraphNode "Default: 2" 72 11 []]]].
Definition look_source : string := "+ Parameters" +++ line_feed +++ "    + what a nice day" +++ line_feed +++ "        + Default: 2" +++ line_feed.
Definition look_item : tree :=
  node ItemNode "" 0 56 [node ParagraphNode "Parameters" 2 11 []; node ItemNode "" 17 39 [node ParagraphNode "what a nice day" 19 16 []; node ItemNode "" 43 13 [node ParagraphNode "Default: 2" 45 11 []]]].
Ltac small := split; [inside|]; split; [cbn; lia|reflexivity].
Example C81_hypotheses : within_source many_source many_item /\ depth many_item <= 9 /\ (slen many_source < 2 ^ 64)%N.
Proof. small. Qed.
Definition plain_parameter (x : string) (a n : N) (ty : string) (u : parameter_use) : parameter :=
  Param (x, at_place a n) ("", []) (ty, if String.eqb ty "" then [] else at_place a n) u ("", []) ("", []) [].
Definition many_parameters : list parameter :=
  [Param ("size", at_place 59 51) ("Page size", at_place 59 51) ("number", at_place 59 51) OptionalUse ("10", at_place 59 51) ("30", at_place 59 51) [("10", at_place 139 7); ("20", at_place 158 7)];
   Param ("kind", at_place 190 33) ("Some words", at_place 232 11) ("string", at_place 190 33) OptionalUse ("b", at_place 254 11) ("a", at_place 190 33) [("a", at_place 297 2); ("b", at_place 313 2)];
   plain_parameter "id" 321 12 "string" UndefinedUse].
Definition many_notes : list (places * remark) :=
  [(at_place 177 7, Warns 5 "ignoring the 'none' element, expected '`none`'");
   (at_place 57 127, Warns 8 "the example value '30' of parameter 'size' is not in its list of expected values");
   (at_place 319 14, Warns 4 "overshadowing previous parameter 'id' definition")].
Example C81_many : parse_parameters many_source "" 9 many_item (St (T [] [] []) []) = Val (many_parameters, St (T [] [] []) many_notes).
Proof. vm_compute. reflexivity. Qed.
(** so these items are what the grammar says *)
Example C81_many_says : exists e, parameters_say [] many_source "" many_item many_parameters e.
Proof.
  destruct C81_hypotheses as (W & D & Small). assert (D' : depth many_item <= S (S 9)) by lia.
  destruct (proj1 (C81_parameters many_source "" 9 many_item (St (T [] [] []) []) _ _ Small W D') C81_many) as (e & H & _). now exists e.
Qed.
Example C81_template : eligibility "/things/{id}{?kind}" "" many_parameters = Some [Warns 8 "parameter 'size' is not found within the URI template '/things/{id}{?kind}'"].
Proof. vm_compute. reflexivity. Qed.
Example C81_traits_case : parse_traits true ["optional"; "number"; "`30`"] "" = (OptionalUse, "number", "30", false).
Proof. vm_compute. reflexivity. Qed.

(** ** what does not hold *)
Definition empty_state : st := St (T [] [] []) [].
(** of two words of use the second is taken for a type; no remark *)
Theorem C81_use_refuted : parse_parameters typed_source "" 9 typed_item empty_state = Val ([plain_parameter "id" 19 24 "optional" RequiredUse], empty_state).
Proof. vm_compute. reflexivity. Qed.
Print Assumptions C81_use_refuted.
(** a lone backtick is a parameter *)
Theorem C81_tick_refuted : parse_parameters tick_source "" 9 tick_item empty_state = Val ([plain_parameter "`" 19 2 "" UndefinedUse], empty_state).
Proof. vm_compute. reflexivity. Qed.
Print Assumptions C81_tick_refuted.
(** attributes that are never closed make a parameter; a text behind closed ones makes none *)
Theorem C81_open_refuted : parse_parameters open_source "" 9 open_item empty_state = Val ([plain_parameter "id" 19 8 "[a]" UndefinedUse], empty_state) /\
  parse_parameters twice_source "" 9 twice_item empty_state = Val ([], St (T [] [] []) [(at_place 17 12, Warns 5 "ignoring unrecognized block");
    (at_place 0 29, Warns 3 "no parameters specified, expected a nested list of parameters, one parameter per list item")]).
Proof. split; vm_compute; reflexivity. Qed.
Print Assumptions C81_open_refuted.
(** no attributes between the parentheses: undefined behaviour (C74) *)
Theorem C81_empty_refuted : parse_parameters empty_source "" 9 empty_item empty_state = ByteBuffer.Wild.
Proof. vm_compute. reflexivity. Qed.
Print Assumptions C81_empty_refuted.
(** "Properties" below a parameter end it: the default is lost; no remark *)
Theorem C81_properties_refuted : parse_parameters props_source "" 9 props_item empty_state =
  Val ([Param ("id", at_place 19 6) ("", []) ("", []) UndefinedUse ("", []) ("1", at_place 19 6) []], empty_state).
Proof. vm_compute. reflexivity. Qed.
Print Assumptions C81_properties_refuted.
(** any text is a parameter above a default *)
Theorem C81_name_refuted : parse_parameters look_source "" 9 look_item empty_state =
  Val ([Param ("what a nice day", at_place 19 16) ("", []) ("", []) UndefinedUse ("2", at_place 45 11) ("", []) []],
       St (T [] [] []) [(at_place 17 39, Warns 8 "specifying parameter 'what a nice day' as required supersedes its default value, declare the parameter as 'optional' to specify its default value")]).
Proof. vm_compute. reflexivity. Qed.
Print Assumptions C81_name_refuted.
