(** Lemmas for C64-C70 *)
From Coq Require Import Permutation.
From Verif Require Import Base SoValue JsonIo SourceMap Capi Element Extend Registry RegistryProofs Expand JsonValue JsonSchema GenSpec FuelMono Peg MediaType TypeTables Mson MsonSpec
  MsonProofs MsonShape Blueprint Register RegisterProofs Api ApiSpec.
Local Open Scope string_scope.
Local Open Scope list_scope.

(** ** Texts *)
Lemma primitive_is : forall t, primitive t = text_at t.
Proof. intros [s [|r p]]; reflexivity. Qed.
Lemma literal_is : forall t, literal t = value_at t.
Proof. intros [s p]. unfold literal, value_at, blank, literal_to, literal_string. cbn [fst snd]. destruct (String.eqb_spec s "") as [->|N]; destruct p; reflexivity. Qed.
Lemma value_text : forall t, blank t = false -> value_at t = text_at t.
Proof. intros t H. unfold value_at, text_at. now rewrite H. Qed.
Lemma blank_nil : forall t, blank t = true <-> fst t = "".
Proof. intros t. apply String.eqb_eq. Qed.
Lemma blank_not : forall t, blank t = false <-> fst t <> "".
Proof. intros t. apply String.eqb_neq. Qed.
Lemma copy_is : forall t, copy_to_refract t = copies t.
Proof. intros t. unfold copy_to_refract, copies. destruct (blank t); [reflexivity|]. rewrite primitive_is. reflexivity. Qed.
Lemma header_is : forall h, header_to_refract h = pair_element [] h.
Proof. intros [[k v] [|r p]]; reflexivity. Qed.
Lemma metadata_is : forall h, metadata_to_refract h = pair_element [("classes", texts ["user"])] h.
Proof. intros [[k v] [|r p]]; reflexivity. Qed.
Lemma asset_is : forall c k t p, k <> "" -> asset c k t p = asset_element c k t p.
Proof.
  intros c k t p N. unfold asset, asset_element. apply String.eqb_neq in N. rewrite N. cbn [negb with_meta_if].
  destruct p; destruct t; reflexivity.
Qed.
(** ** Parameters *)
Lemma variable_value_is : forall p, extract_parameter p = variable_value p.
Proof.
  intros p. unfold extract_parameter, variable_value, parameter_values. rewrite !literal_is, !primitive_is.
  assert (V : map literal (pa_values p) = map value_at (pa_values p)) by (apply map_ext; apply literal_is). rewrite V. unfold entry_unless_blank.
  destruct (pa_values p) as [|v vs].
  - destruct (blank (pa_example p)) eqn:E, (blank (pa_default p)) eqn:D; cbn [negb with_attr_if app].
    + apply blank_nil in E. now rewrite E.
    + apply blank_nil in E. now rewrite E.
    + rewrite value_text by exact E. unfold text_at. now rewrite app_nil_r.
    + rewrite value_text by exact E. unfold text_at, with_attr. cbn. destruct (snd (pa_example p)); reflexivity.
  - destruct (blank (pa_example p)) eqn:E, (blank (pa_default p)) eqn:D; cbn [negb with_attr_if app]; rewrite ?value_text by assumption; reflexivity.
Qed.
Lemma variable_is : forall p, parameter_to_refract p = variable p.
Proof.
  intros p. unfold parameter_to_refract, variable. rewrite !primitive_is, variable_value_is. unfold entry_unless_blank.
  destruct (blank (pa_description p)), (blank (pa_type p)); reflexivity.
Qed.
Lemma effective_keys : forall l, last_per_key (map variable l) = map variable (effective l).
Proof.
  induction l as [|p l IH]; [reflexivity|]. cbn [map last_per_key effective]. change (string_key (variable p)) with (Some (fst (pa_name p))). cbv iota.
  assert (E : existsb (has_key (fst (pa_name p))) (map variable l) = existsb (fun q => String.eqb (fst (pa_name p)) (fst (pa_name q))) l).
  { clear IH. induction l as [|q l IH]; [reflexivity|]. cbn [map existsb]. rewrite IH. f_equal. unfold has_key. change (string_key (variable q)) with (Some (fst (pa_name q))). apply String.eqb_sym. }
  rewrite E. destruct (existsb _ l); [exact IH|]. cbn [map]. now rewrite IH.
Qed.
Lemma parameters_is : forall l, parameters_to_refract l = Elem "hrefVariables" [] [] true (DObject (map variable (effective l))).
Proof.
  intros l. unfold parameters_to_refract. rewrite fold_push_back by constructor. cbn [filter app]. rewrite (map_ext _ _ variable_is), effective_keys. reflexivity.
Qed.

(** ** Outcomes *)
Lemma xbind_inv : forall A B (m : X A) (f : A -> X B) w b, xbind m f = (w, Done b) ->
  exists a w1 w2, m = (w1, Done a) /\ f a = (w2, Done b) /\ w = w1 ++ w2.
Proof.
  intros A B [w0 o] f w b H. unfold xbind in H. cbn [fst snd] in H. destruct o as [a| | | | |]; try discriminate.
  destruct (f a) as [w2 o2] eqn:E. injection H as <- ->. now exists a, w0, w2.
Qed.
Lemma xret_inv : forall A (a b : A) w, xret a = (w, Done b) -> a = b /\ w = [].
Proof. intros A a b w H. injection H as <- <-. auto. Qed.
Lemma of_mson_inv : forall A (m : M A) w a, of_mson m = (w, Done a) -> m = ret (a, w).
Proof. intros A m w a H. unfold of_mson in H. destruct m as [[[x v]| |]|]; try discriminate. now injection H as <- <-. Qed.
Lemma of_run_inv : forall A (m : run A) w a, of_run m = (w, Done a) -> m = ret a /\ w = [].
Proof. intros A m w a H. unfold of_run in H. destruct m as [[x| |]|]; try discriminate. now injection H as <- <-. Qed.
Lemma xmap_inv : forall A B (f : A -> X B) (P : A -> B -> list annotation -> Prop) l, (forall a b w, In a l -> f a = (w, Done b) -> P a b w) ->
  forall w bs, xmap f l = (w, Done bs) -> each P l bs w.
Proof.
  intros A B f P. induction l as [|x l IH]; intros H w bs E.
  - apply xret_inv in E as [<- ->]. exists []. repeat split. constructor.
  - cbn [xmap] in E. apply xbind_inv in E as (b & w1 & w2 & E1 & E & ->). apply xbind_inv in E as (ys & w3 & w4 & E2 & E & ->). apply xret_inv in E as [<- ->].
    rewrite app_nil_r. destruct (IH (fun a b w Ha => H a b w (or_intror Ha)) _ _ E2) as (rs & F & -> & ->).
    exists ((b, w1) :: rs). split; [|now split]. constructor; [|exact F]. apply H; [now left|exact E1].
Qed.

Section Conversion.
  Context (fuel : nat) (r : registry) (opts : option parse_options).

  (** ** Data structures *)
  Lemma structure_some : forall s o w, structure_empty s = false -> structure_to_refract fuel r s = ret (o, w) -> exists d, o = Some d.
  Proof.
    intros s o w E H. unfold structure_to_refract in H. rewrite E in H. apply mbind_ret in H as (b & w1 & w2 & _ & H & _). apply mbind_ret in H as (e & w3 & w4 & _ & H & _).
    apply mret_ret in H as [H _]. now exists e.
  Qed.
  Lemma shape_if : forall s o w, mson_if fuel r s = (w, Done o) -> shape fuel r s o w.
  Proof.
    intros s o w H. unfold mson_if in H. destruct (structure_empty s) eqn:E.
    - apply xret_inv in H as [<- ->]. now constructor.
    - apply of_mson_inv in H. destruct (structure_some s o w E H) as (d & ->). now constructor.
  Qed.
  Lemma shape_data : forall s o w, data_structure fuel r s = (w, Done o) ->
    exists d, shape fuel r s d w /\ o = match structure_entry d with e :: _ => Some e | [] => None end.
  Proof.
    intros s o w H. unfold data_structure in H. apply xbind_inv in H as (d & w1 & w2 & H & E & ->). apply xret_inv in E as [<- ->]. rewrite app_nil_r.
    exists d. split; [|now destruct d]. apply of_mson_inv in H. destruct (structure_empty s) eqn:E.
    - unfold structure_to_refract in H. rewrite E in H. apply mret_ret in H as [<- ->]. now constructor.
    - destruct (structure_some s d w1 E H) as (x & ->). now constructor.
  Qed.
  Lemma expand_is : forall d w x, expand_refract fuel r d = (w, Done x) -> expands r d x /\ w = [].
  Proof.
    intros d w x H. unfold expand_refract in H. apply of_run_inv in H as [H ->]. split; [|reflexivity].
    destruct (expand fuel r [] d) as [[o| |]|] eqn:E; try discriminate H. cbn [bind] in H. injection H as <-. exists o. split; [|reflexivity]. now apply (expand_computes fuel).
  Qed.

  (** ** Messages *)
  Lemma content_type_is : forall l, declared_type l (content_type l).
  Proof.
    intros l. unfold content_type. induction l as [|[[k v] p] l IH]; [constructor; intros h []|]. cbn [find fst]. destruct (String.eqb_spec k "Content-Type") as [->|N].
    - apply (dt_first [] v p l). intros h [].
    - destruct IH as [l F|l v' p' l' F].
      + constructor. intros h [<-|Hh]; [exact N|now apply F].
      + apply (dt_first ((k, v, p) :: l) v' p' l'). intros h [<-|Hh]; [exact N|now apply F].
  Qed.
  Lemma declared_unique : forall l a b, declared_type l a -> declared_type l b -> a = b.
  Proof.
    assert (G : forall l a, declared_type l a -> a = content_type l).
    { intros l a [l' F|l1 v p l2 F]; unfold content_type.
      - destruct (find _ l') as [h|] eqn:E; [|reflexivity]. apply find_some in E as [Hh E]. apply String.eqb_eq in E. now destruct (F h Hh).
      - induction l1 as [|h l1 IH]; [reflexivity|]. cbn [app find]. destruct (String.eqb_spec (fst (fst h)) "Content-Type") as [E|_]; [now destruct (F h (or_introl eq_refl))|].
        apply IH. intros x Hx. apply F. now right. }
    intros l a b Ha Hb. now rewrite (G l a Ha), (G l b Hb).
  Qed.
  Lemma body_is : forall y m full l w, body_asset fuel opts y m full = (w, Done l) -> body_asset_of opts y m full l /\ w = [].
  Proof.
    intros y m full l w H. unfold body_asset in H. destruct (blank (py_body y)) eqn:E; cbn [negb] in H.
    - apply blank_nil in E. destruct full as [x|]; [|apply xret_inv in H as [<- ->]; split; [constructor 3; auto|reflexivity]].
      assert (B : negb (no_bodies opts) = generates_bodies opts) by (unfold no_bodies, generates_bodies; now destruct opts). rewrite B in H.
      destruct (generates_bodies opts) eqn:G; cbn [andb] in H; [|apply xret_inv in H as [<- ->]; split; [constructor 3; auto|reflexivity]].
      destruct (is_json m) eqn:J; [|apply xret_inv in H as [<- ->]; split; [constructor 3; auto|reflexivity]].
      apply xbind_inv in H as (v & w1 & w2 & H & K & ->). apply of_run_inv in H as [H ->]. apply xret_inv in K as [<- ->]. split; [|reflexivity].
      rewrite asset_is by discriminate. apply (body_generated _ _ _ _ x v); auto. now apply (value_computes fuel).
    - apply blank_not in E. apply xret_inv in H as [<- ->]. split; [|reflexivity]. rewrite asset_is by discriminate. now constructor.
  Qed.
  Lemma schema_is : forall y m full l w, schema_asset fuel opts y m full = (w, Done l) -> schema_asset_of opts y m full l /\ w = [].
  Proof.
    intros y m full l w H. unfold schema_asset in H. change (print_media json_schema_type) with schema_type in H. destruct (blank (py_schema y)) eqn:E; cbn [negb] in H.
    - apply blank_nil in E. destruct full as [x|]; [|apply xret_inv in H as [<- ->]; split; [constructor 3; auto|reflexivity]].
      assert (B : negb (no_schemas opts) = generates_schemas opts) by (unfold no_schemas, generates_schemas; now destruct opts). rewrite B in H.
      destruct (generates_schemas opts) eqn:G; cbn [andb] in H; [|apply xret_inv in H as [<- ->]; split; [constructor 3; auto|reflexivity]].
      destruct (is_json m) eqn:J; [|apply xret_inv in H as [<- ->]; split; [constructor 3; auto|reflexivity]].
      apply xbind_inv in H as (v & w1 & w2 & H & K & ->). apply of_run_inv in H as [H ->]. apply xret_inv in K as [<- ->]. split; [|reflexivity].
      rewrite asset_is by discriminate. apply (schema_generated _ _ _ _ x v); auto. now apply (schema_computes fuel).
    - apply blank_not in E. apply xret_inv in H as [<- ->]. split; [|reflexivity]. rewrite asset_is by discriminate.
      replace (print_media (if is_json m then json_schema_type else text_plain_type)) with (if is_json m then schema_type else "text/plain") by (now destruct (is_json m)).
      now constructor.
  Qed.
  (** what a payload holds, and its head *)
  Lemma payload_is : forall y a e w, payload_to_refract fuel r opts (Some y) a = (w, Done e) ->
    exists l, message fuel r opts y (option_map ac_attributes a) l w /\ e = eset (payload_head (Some y) a) (DArray l).
  Proof.
    intros y a e w H. cbn [payload_to_refract] in H. apply xbind_inv in H as (own & w1 & w2 & H1 & H & ->). apply shape_if in H1.
    destruct (parse_media (content_type (py_headers y))) as [m|] eqn:M; [|discriminate].
    apply xbind_inv in H as (from & w3 & w4 & H2 & H & ->). apply xbind_inv in H as (full & w5 & w6 & H3 & H & ->).
    apply xbind_inv in H as (body & w7 & w8 & H4 & H & ->). apply xbind_inv in H as (schema & w9 & w10 & H5 & H & ->). apply xret_inv in H as [<- ->].
    apply body_is in H4 as [H4 ->]. apply schema_is in H5 as [H5 ->].
    assert (F : match from with Some d => exists x, full = Some x /\ expands r d x | None => full = None end /\ w5 = []).
    { destruct from as [d|].
      - apply xbind_inv in H3 as (x & wa & wb & H3 & E & ->). apply expand_is in H3 as [H3 ->]. apply xret_inv in E as [<- ->]. split; [now exists x|reflexivity].
      - apply xret_inv in H3 as [<- ->]. auto. }
    destruct F as [F ->]. cbn [app]. rewrite !app_nil_r. rewrite copy_is.
    exists (copies (py_description y) ++ structure_entry own ++ body ++ schema). split; [|now destruct own].
    apply (message_intro fuel r opts y _ own w1 from w3 full (content_type (py_headers y)) m body schema); auto using content_type_is.
    destruct own as [d|]; [apply xret_inv in H2 as [<- ->]; cbn; auto|]. destruct a as [a|]; cbn [option_map]; [now apply shape_if|]. apply xret_inv in H2 as [<- ->]. auto.
  Qed.
  Lemma attach_attrs : forall n m a h d p, ~ In "sourceMap" (map fst a) -> attach (Elem n m a h d) p = Elem n m (a ++ placed p) h d.
  Proof.
    intros n m a h d [|x p] N; cbn; [now rewrite app_nil_r|]. f_equal. induction a as [|[k v] a IH]; [reflexivity|]. cbn. cbn in N.
    destruct (String.eqb_spec k "sourceMap"); [exfalso; apply N; now left|]. rewrite IH; [reflexivity|]. intros H. apply N. now right.
  Qed.
  Lemma head_details : forall n m a d y, (forall k, In k (map fst a) -> ~ In k ["sourceMap"; "hrefVariables"; "headers"]) ->
    (let e := attach (Elem n m a true d) (py_map y) in
     let e := match py_parameters y with [] => e | l => with_attr e "hrefVariables" (parameters_to_refract l) end in
     match py_headers y with [] => e | l => with_attr e "headers" (array_named "httpHeaders" (map header_to_refract l)) end) =
    Elem n m (a ++ details y) true d.
  Proof.
    intros n m a d y N. cbv zeta. rewrite attach_attrs by (intros H; apply (N _ H); now left). unfold details, variables, headers. rewrite app_assoc.
    assert (App : forall (a : info) k v, ~ In k (map fst a) -> iset a k v = a ++ [(k, v)]).
    { clear. intros a k v. induction a as [|[k' v'] a IH]; [reflexivity|]. cbn. intros H. destruct (String.eqb_spec k' k); [exfalso; apply H; now left|]. rewrite IH; [reflexivity|]. intros K. apply H. now right. }
    set (b := a ++ placed (py_map y)).
    assert (Nb : ~ In "hrefVariables" (map fst b) /\ ~ In "headers" (map fst b)).
    { unfold b. rewrite !map_app, !in_app_iff. split; intros [H|H]; try (apply (N _ H); cbn; tauto); destruct (py_map y); cbn in H; intuition discriminate. }
    destruct Nb as [N1 N2].
    destruct (py_parameters y) as [|p l]; destruct (py_headers y) as [|h l']; unfold with_attr; cbn [eattrs set_attrs app]; rewrite ?parameters_is; rewrite ?(map_ext _ _ header_is).
    - now rewrite app_nil_r.
    - rewrite (App b) by exact N2. reflexivity.
    - now rewrite (App b) by exact N1.
    - rewrite (App b) by exact N1. rewrite (App (b ++ _)); [now rewrite <- app_assoc|]. rewrite map_app, in_app_iff. cbn. intuition discriminate.
  Qed.
  Lemma request_is : forall q a e w, fst (ac_method a) <> "" -> payload_to_refract fuel r opts q (Some a) = (w, Done e) -> request fuel r opts a q e w.
  Proof.
    intros q a e w M H. apply blank_not in M. destruct q as [y|].
    - apply payload_is in H as (l & Hl & ->). cbn [option_map] in Hl.
      replace (eset (payload_head (Some y) (Some a)) (DArray l)) with
        (Elem "httpRequest" (entry_unless_blank "title" (py_name y)) (("method", text_at (ac_method a)) :: details y) true (DArray l)); [now constructor|].
      unfold payload_head, is_request. rewrite M. cbn [negb]. rewrite !primitive_is.
      assert (T : with_meta_if (negb (blank (py_name y))) (with_attr (array_named "httpRequest" []) "method" (text_at (ac_method a))) "title" (text_at (py_name y)) =
        Elem "httpRequest" (entry_unless_blank "title" (py_name y)) [("method", text_at (ac_method a))] true (DArray [])).
      { unfold entry_unless_blank. destruct (blank (py_name y)); reflexivity. }
      rewrite T. assert (D := head_details "httpRequest" (entry_unless_blank "title" (py_name y)) [("method", text_at (ac_method a))] (DArray []) y).
      cbv zeta in D. rewrite D; [reflexivity|]. intros k [<-|[]]. cbn. intuition discriminate.
    - apply xret_inv in H as [<- ->]. unfold payload_head, is_request. rewrite M. cbn [negb]. rewrite primitive_is. constructor.
  Qed.
  Lemma response_is : forall q e w, payload_to_refract fuel r opts q None = (w, Done e) -> response fuel r opts q e w.
  Proof.
    intros q e w H. destruct q as [y|].
    - apply payload_is in H as (l & Hl & ->). cbn [option_map] in Hl.
      replace (eset (payload_head (Some y) None) (DArray l)) with (Elem "httpResponse" [] (("statusCode", text_at (py_name y)) :: details y) true (DArray l)); [now constructor|].
      unfold payload_head, is_request. rewrite !primitive_is.
      assert (D := head_details "httpResponse" [] [("statusCode", text_at (py_name y))] (DArray []) y). cbv zeta in D. cbn [array_named with_attr].
      change (with_attr (array_named "httpResponse" []) "statusCode" (text_at (py_name y))) with (Elem "httpResponse" [] [("statusCode", text_at (py_name y))] true (DArray [])).
      rewrite D; [reflexivity|]. intros k [<-|[]]. cbn. intuition discriminate.
    - apply xret_inv in H as [<- ->]. constructor.
  Qed.
  Lemma transaction_is : forall t a q s e w, fst (ac_method a) <> "" -> transaction_to_refract fuel r opts t a q s = (w, Done e) -> transaction fuel r opts a t q s e w.
  Proof.
    intros t a q s e w M H. unfold transaction_to_refract in H. apply xbind_inv in H as (eq & w1 & w2 & H1 & H & ->). apply xbind_inv in H as (es & w3 & w4 & H2 & H & ->).
    apply xret_inv in H as [<- ->]. rewrite app_nil_r, copy_is. apply (transaction_intro fuel r opts a t q s eq es w1 w3); [now apply request_is|now apply response_is].
  Qed.
  Lemma exchanges_are : forall x, exchanges x = pairs x.
  Proof.
    intros x. unfold exchanges, pairs. destruct (ex_requests x) as [|q qs]; [now rewrite app_nil_r|]. destruct (ex_responses x) as [|s ss].
    - change ([] ++ ?l) with l. generalize (q :: qs). intros l. induction l as [|y l IH]; [reflexivity|]. change (flat_map ?f (y :: l)) with (f y ++ flat_map f l). rewrite IH. reflexivity.
    - change ([] ++ ?l) with l. generalize (q :: qs) (s :: ss). intros l l'. induction l as [|y l IH]; [reflexivity|]. change (flat_map ?f (y :: l)) with (f y ++ flat_map f l). cbn [list_prod]. rewrite map_app, IH. f_equal. now rewrite map_map.
  Qed.
  Lemma example_is : forall a x ts w, fst (ac_method a) <> "" -> example_to_refract fuel r opts a x = (w, Done ts) ->
    each (fun p => transaction fuel r opts a (ex_description x) (fst p) (snd p)) (pairs x) ts w.
  Proof.
    intros a x ts w M H. unfold example_to_refract in H. rewrite exchanges_are in H. eapply xmap_inv; [|exact H]. intros p b w' _ E. now apply transaction_is.
  Qed.
  Lemma transition_is : forall a e w, fst (ac_method a) <> "" -> action_to_refract fuel r opts a = (w, Done e) -> transition fuel r opts a e w.
  Proof.
    intros a e w M H. unfold action_to_refract in H. cbv zeta in H.
    apply xbind_inv in H as (e1 & w1 & w2 & H1 & H & ->). apply xbind_inv in H as (ts & w3 & w4 & H2 & H & ->). apply xret_inv in H as [<- ->]. rewrite app_nil_r.
    apply (xmap_inv _ _ _ (fun x => each (fun p => transaction fuel r opts a (ex_description x) (fst p) (snd p)) (pairs x))) in H2;
      [|intros x b w' _ E; now apply example_is].
    rewrite copy_is.
    match type of H1 with (if _ then xret ?e0 else _) = _ => assert (Head : e0 = Elem "transition" [("title", text_at (ac_name a))]
        (entry_unless_blank "relation" (ac_relation a) ++ entry_unless_blank "href" (ac_uri a) ++ variables (ac_parameters a)) true (DArray [])) end.
    { rewrite !primitive_is. unfold entry_unless_blank, variables. destruct (blank (ac_relation a)), (blank (ac_uri a)), (ac_parameters a) as [|p l]; cbn [negb with_attr_if]; rewrite ?parameters_is; reflexivity. }
    rewrite Head in H1. clear Head.
    assert (G : exists d, shape fuel r (ac_attributes a) d w1 /\ e1 = Elem "transition" [("title", text_at (ac_name a))]
        (entry_unless_blank "relation" (ac_relation a) ++ entry_unless_blank "href" (ac_uri a) ++ variables (ac_parameters a) ++
         match structure_entry d with [] => [] | e :: _ => [("data", e)] end) true (DArray [])).
    { destruct (structure_empty (ac_attributes a)) eqn:Em.
      - apply xret_inv in H1 as [<- ->]. exists None. split; [now constructor|]. cbn [structure_entry]. now rewrite app_nil_r.
      - apply xbind_inv in H1 as (o & wa & wb & H1 & E & ->). apply shape_data in H1 as (d & D & ->). exists d.
        destruct d as [d|]; cbn [structure_entry] in E; [|discriminate E]. apply xret_inv in E as [<- ->]. rewrite app_nil_r. split; [exact D|].
        unfold with_attr, entry_unless_blank, variables. cbn [eattrs set_attrs structure_entry]. f_equal.
        destruct (blank (ac_relation a)), (blank (ac_uri a)), (ac_parameters a) as [|p l]; reflexivity. }
    destruct G as (d & D & ->). exact (transition_intro fuel r opts a d w1 ts w3 D H2).
  Qed.
  Lemma resource_is : forall s e w, (forall a, In a (re_actions s) -> fst (ac_method a) <> "") -> resource_to_refract fuel r opts s = (w, Done e) -> resource_element fuel r opts s e w.
  Proof.
    intros s e w M H. unfold resource_to_refract in H. cbv zeta in H.
    apply xbind_inv in H as (o & w1 & w2 & H1 & H & ->). apply xbind_inv in H as (l & w3 & w4 & H2 & H & ->). apply xret_inv in H as [<- ->]. rewrite app_nil_r.
    apply (xmap_inv _ _ _ (transition fuel r opts)) in H2; [|intros a b w' Ha E; apply transition_is; [now apply M|exact E]]. rewrite copy_is.
    match goal with |- resource_element _ _ _ _ (eset ?e0 _) _ => assert (Head : e0 = Elem "resource" [("title", text_at (re_name s))] (("href", text_at (re_uri s)) :: variables (re_parameters s)) true (DArray [])) end.
    { rewrite !primitive_is. unfold variables. destruct (re_parameters s) as [|p ps]; rewrite ?parameters_is; reflexivity. }
    rewrite Head. assert (G : exists d, shape fuel r (re_attributes s) d w1 /\ match o with Some x => [x] | None => [] end = structure_entry d).
    { destruct (structure_empty (re_attributes s)) eqn:Em.
      - apply xret_inv in H1 as [<- ->]. exists None. split; [now constructor|reflexivity].
      - apply shape_data in H1 as (d & D & ->). exists d. split; [exact D|]. now destruct d. }
    destruct G as (d & D & ->). exact (resource_intro fuel r opts s d w1 l w3 D H2).
  Qed.
  Definition listed {A} (o : option A) : list A := match o with Some x => [x] | None => [] end.
  Lemma somes_concat : forall A (l : list (option A)), Api.somes l = concat (map listed l).
  Proof. intros A l. unfold Api.somes. now rewrite flat_map_concat_map. Qed.
  (** the methods of the actions of what is converted *)
  Definition methods (b : belement) : Prop := forall x, inside b x -> b_class x = ResourceElement -> forall a, In a (re_actions (b_resource x)) -> fst (ac_method a) <> "".
  Lemma element_is : forall b, methods b -> forall o w, element_to_refract fuel r opts b = (w, Done o) -> gives fuel r opts b (listed o) w.
  Proof.
    apply (belement_ind' (fun b => methods b -> forall o w, element_to_refract fuel r opts b = (w, Done o) -> gives fuel r opts b (listed o) w)).
    intros b IH M o w H. destruct b as [c n y s d l t]. cbn [element_to_refract b_class] in H. destruct c; try discriminate.
    - apply xbind_inv in H as (os & w1 & w2 & H1 & H & ->). apply xret_inv in H as [<- ->]. rewrite app_nil_r.
      apply (xmap_inv _ _ _ (fun c o w => gives fuel r opts c (listed o) w)) in H1.
      + destruct H1 as (rs & F & -> & ->). cbn [listed].
        assert (Head : eset (category_head (BElem CategoryElement n y s d l t)) (DArray (Api.somes (map fst rs))) =
          Elem "category" (category_meta (BElem CategoryElement n y s d l t)) [] true (DArray (concat (map fst (map (fun x => (listed (fst x), snd x)) rs))))).
        { rewrite somes_concat, !map_map. unfold category_head, category_meta. rewrite primitive_is. cbn [b_category]. destruct t; reflexivity. }
        rewrite Head. replace (concat (map snd rs)) with (concat (map snd (map (fun x => (@listed element (fst x), snd x)) rs))) by (rewrite map_map; reflexivity).
        apply gives_category; [reflexivity|]. cbn [b_elements]. clear -F. induction F; constructor; auto.
      + intros c x w' Hc E. apply IH; [exact Hc| |exact E]. intros z Hz. apply M. now apply (inside_below _ c z).
    - apply xret_inv in H as [<- ->]. rewrite copy_is. replace (listed _) with (copies (b_copy (BElem CopyElement n y s d l t))); [now constructor|].
      cbn [b_copy]. unfold copies. now destruct (blank y).
    - apply xbind_inv in H as (e & w1 & w2 & H1 & H & ->). apply xret_inv in H as [<- ->]. rewrite app_nil_r. cbn [listed].
      apply gives_resource; [reflexivity|]. apply resource_is; [|exact H1]. intros a Ha. apply (M _ (inside_here _) eq_refl a Ha).
    - apply shape_data in H as (x & D & ->). replace (listed _) with (structure_entry x) by now destruct x. now apply gives_structure.
  Qed.
  Lemma document_is : forall b e w, methods_given b -> blueprint_to_refract fuel r opts b = (w, Done e) -> document_element fuel r opts b e w.
  Proof.
    intros b e w M H. unfold blueprint_to_refract in H. cbv zeta in H. apply xbind_inv in H as (os & w1 & w2 & H1 & H & ->). apply xret_inv in H as [<- ->]. rewrite app_nil_r.
    apply (xmap_inv _ _ _ (fun c o w => gives fuel r opts c (listed o) w)) in H1;
      [|intros c o w' Hc E; apply element_is; [|exact E]; intros z Hz; now apply (M c z Hc Hz)].
    destruct H1 as (rs & F & -> & ->). rewrite copy_is, somes_concat, primitive_is, map_map.
    match goal with |- document_element _ _ _ _ ?top _ => replace top with (Elem "category" [("classes", texts ["api"]); ("title", text_at (bp_name b))] (metadata (bp_metadata b))
        true (DArray (copies (bp_description b) ++ concat (map (fun x => listed (fst x)) rs)))) end.
    - constructor. exists (map (fun x => (listed (fst x), snd x)) rs). split; [clear -F; induction F; constructor; auto|]. rewrite !map_map. split; reflexivity.
    - unfold metadata. destruct (bp_metadata b) as [|m ms]; [reflexivity|]. rewrite (map_ext _ _ metadata_is). reflexivity.
  Qed.
End Conversion.
