(** Properties C64-C70: from the abstract syntax tree to API Elements *)
From Coq Require Import Permutation.
From Verif Require Import Base Utf8 SoValue JsonIo JsonSpec YamlIo SourceMap Capi CapiSpec Element ElementSpec SerializeSo SerializeSpec Extend Registry Expand ExpandSpec ExpandProofs ExpandPieces
  JsonValue JsonSchema GenSpec FuelMono Depth BodyProofs SchemaProofs Peg MediaType TypeTables NamedTypes Mson MsonSpec MsonSane MsonTotal Blueprint Register RegisterSpec RegisterProofs
  Prop_Json Prop_Serialize Prop_Capi Prop_Gen Prop_Mson Prop_Register Api ApiSpec ApiProofs ApiSound ApiTotal.
Local Open Scope string_scope.
Local Open Scope list_scope.

(** ** C64: requests and responses *)
Theorem C64_request : forall fuel r o a q e w, fst (ac_method a) <> "" -> payload_to_refract fuel r o q (Some a) = (w, Done e) -> request fuel r o a q e w.
Proof. intros. now apply request_is. Qed.
Theorem C64_response : forall fuel r o q e w, payload_to_refract fuel r o q None = (w, Done e) -> response fuel r o q e w.
Proof. intros. now apply response_is. Qed.
(** the specification leaves nothing open *)
Lemma shape_fun : forall fuel r s d w d' w', shape fuel r s d w -> shape fuel r s d' w' -> d = d' /\ w = w'.
Proof. intros fuel r s d w d' w' [E|x v E H] [E'|x' v' E' H']; try congruence; [now split|]. rewrite H in H'. injection H' as <- <-. now split. Qed.
Lemma computes_fun : forall A (f : nat -> run A) x y, computes f x -> computes f y -> x = y.
Proof. intros. now apply (computes_unique A f). Qed.
Lemma expands_fun : forall r d x y, expands r d x -> expands r d y -> x = y.
Proof. intros r d x y (a & A & ->) (b & B & ->). assert (E := computes_fun _ _ _ _ A B). now injection E as ->. Qed.
Lemma body_fun : forall o y m full l l', body_asset_of o y m full l -> body_asset_of o y m full l' -> l = l'.
Proof.
  intros o y m full l l' [B|x v B F G J C|B N] [B'|x' v' B' F' G' J' C'|B' N']; try congruence; try contradiction.
  - assert (x = x') by congruence. subst x'. assert (E := computes_fun _ _ _ _ C C'). now injection E as ->.
  - destruct N' as [N'|[N'|N']]; congruence.
  - destruct N as [N|[N|N]]; congruence.
Qed.
Lemma schema_fun : forall o y m full l l', schema_asset_of o y m full l -> schema_asset_of o y m full l' -> l = l'.
Proof.
  intros o y m full l l' [B|x v B F G J C|B N] [B'|x' v' B' F' G' J' C'|B' N']; try congruence; try contradiction.
  - assert (x = x') by congruence. subst x'. assert (E := computes_fun _ _ _ _ C C'). now injection E as ->.
  - destruct N' as [N'|[N'|N']]; congruence.
  - destruct N as [N|[N|N]]; congruence.
Qed.
Theorem C64_determined : forall fuel r o y a l w l' w', message fuel r o y a l w -> message fuel r o y a l' w' -> l = l' /\ w = w'.
Proof.
  intros fuel r o y a l w l' w' [own w1 from w2 full type m body schema H1 H2 H3 H4 H5 H6 H7] [own' w1' from' w2' full' type' m' body' schema' G1 G2 G3 G4 G5 G6 G7].
  destruct (shape_fun _ _ _ _ _ _ _ H1 G1) as [<- <-]. assert (from = from' /\ w2 = w2') as [<- <-].
  { destruct own; [destruct H2, G2; subst; now split|]. destruct a; [now apply (shape_fun fuel r s)|destruct H2, G2; subst; now split]. }
  assert (type = type') as <- by now apply (declared_unique (py_headers y)). assert (m = m') as <- by congruence.
  assert (full = full') as <- by (destruct from as [d|]; [destruct H3 as (x & -> & X), G3 as (x' & -> & X'); f_equal; now apply (expands_fun r d)|congruence]).
  rewrite (body_fun _ _ _ _ _ _ H6 G6), (schema_fun _ _ _ _ _ _ H7 G7). now split.
Qed.

(** ** C65: generated bodies and schemas are JSON texts *)
Definition number_ok (d : dsd element) : Prop := match d with DNumber s => json_number s = true | _ => True end.
Lemma sane_ok : forall e, sane e -> allsub number_ok e.
Proof. intros e S x Hx. destruct (S x Hx) as (_ & _ & _ & _ & _ & D). unfold number_ok. destruct (edata x); auto. Qed.
Lemma registered_later : forall ds, well_declared ds -> none_reserved ds -> forall fuel order w r, Permutation ds order -> register fuel ds order = (w, Done r) ->
  exists f, fuel <= f /\ holds_types f ds r /\ knows f ds r.
Proof.
  intros ds W R fuel order w r P E. destruct (C62_registered ds W R) as (f0 & H). exists (max fuel f0). split; [lia|]. specialize (H (max fuel f0) ltac:(lia) order P).
  destruct (register_more fuel (max fuel f0) ltac:(lia) ds order) as [K|K]; [rewrite E in K; discriminate|]. rewrite <- K, E in H. now destruct H as (H1 & H2 & _).
Qed.
Lemma registry_numbers : forall fuel ds r, holds_types fuel ds r -> none_reserved ds -> forall n p, rfind r n = Some p -> allsub number_ok p.
Proof.
  intros fuel ds r H R n p E. destruct (held_entry fuel ds r H R n p E) as [B|[[_ ->]|(s & v & _ & _ & C)]].
  - cbn in B. intros x X. repeat (destruct B as [B|B]; [injection B as <- <-; inversion X as [|? c ? Hc]; subst; [cbn; auto|destruct Hc]|]). destruct B.
  - intros x X. inversion X as [|? c ? Hc Hx]; subst; [exact I|]. cbn in Hc. destruct Hc as [<-|[]]. inversion Hx as [|? c ? Hc]; subst; [exact I|destruct Hc].
  - apply sane_ok. now apply (structure_sane fuel r s p v).
Qed.
Lemma expanded_numbers : forall r d x, (forall n p, rfind r n = Some p -> allsub number_ok p) -> allsub number_ok d -> expands r d x -> allsub number_ok x.
Proof.
  intros r d x H D (o & (f & F) & ->). destruct o as [y|]; [|exact D].
  apply (expand_ok number_ok r ltac:(intros; exact I) ltac:(intros []; cbn; auto) ltac:(intros; cbn; auto) ltac:(intros; cbn; auto) H f [] d D (Some y) (F f (le_n f)) y eq_refl).
Qed.
Lemma body_text : forall e v, allsub number_ok e -> body e v -> Json_text v (serialize_json v) /\ read_json (serialize_json v) = Some v.
Proof.
  intros e v K [f H]. assert (K' : allsub (lit_ok True (fun _ => True)) e) by (intros x Hx; specialize (K x Hx); destruct (edata x); cbn in *; auto).
  destruct (body_good True (fun _ => True) I f e K') as (V & _ & _). destruct (V _ _ (H f (le_n f))) as (_ & N & _). now apply C01_json_lossless, N.
Qed.
(** an asset of a message: the text written in the document, or a JSON text that stands for the value generated from the data structure *)
Inductive asset_text (r : registry) (y : payload) : string -> Prop :=
| at_body : fst (py_body y) <> "" -> asset_text r y (fst (py_body y))
| at_schema : fst (py_schema y) <> "" -> asset_text r y (fst (py_schema y))
| at_generated d x v t : expands r d x -> (body x v \/ exists fs, schema x fs /\ v = VObject fs) -> Json_text v t -> read_json t = Some v -> asset_text r y t.
Theorem C65_generated : forall ds, well_declared ds -> none_reserved ds -> forall fuel order w r, Permutation ds order -> register fuel ds order = (w, Done r) ->
  forall fuel' o y attributes l w', message fuel' r o y attributes l w' -> forall e, In e l -> ename e = "asset" -> exists t, edata e = DString t /\ asset_text r y t.
Proof.
  intros ds W R fuel order w r P E fuel' o y attributes l w' M e He N. destruct (registered_later ds W R fuel order w r P E) as (f & _ & H & _).
  assert (Nr := registry_numbers f ds r H R). destruct M as [own w1 from w2 full type m b s H1 H2 H3 H4 H5 H6 H7].
  assert (Full : forall x, full = Some x -> exists d, expands r d x /\ allsub number_ok x).
  { intros x ->. destruct from as [d|]; [|discriminate]. destruct H3 as (x' & Hx & X). injection Hx as <-. exists d. split; [exact X|]. apply (expanded_numbers r d x Nr); [|exact X]. apply sane_ok.
    assert (S : forall z v, shape fuel' r z (Some d) v -> sane d) by (intros z v Sh; inversion Sh as [|? ? Em C]; subst; now apply (structure_sane fuel' r z d v)).
    destruct own as [d'|]; [destruct H2 as [H2 _]; subst; injection H2 as ->; now apply (S _ _ H1)|]. destruct attributes as [a|]; [now apply (S _ _ H2)|destruct H2; discriminate]. }
  repeat (apply in_app_or in He as [He|He]).
  - unfold copies in He. destruct (blank _); [destruct He|]. destruct He as [<-|[]]. discriminate.
  - destruct own; [|destruct He]. destruct He as [<-|[]]. discriminate.
  - destruct H6 as [B|x v B F G J C|B _]; [| |destruct He]; destruct He as [<-|[]]; (eexists; split; [reflexivity|]); [now apply at_body|].
    destruct (Full x F) as (d & X & K). destruct (body_text x v K C) as [T1 T2]. now apply (at_generated r y d x v); [|left| |].
  - destruct H7 as [B|x v B F G J C|B _]; [| |destruct He]; destruct He as [<-|[]]; (eexists; split; [reflexivity|]); [now apply at_schema|].
    destruct (Full x F) as (d & X & K). assert (K' : allsub (fun d => match d with DNumber s => json_number s = true | _ => True end) x) by exact K.
    destruct (C28_schema_is_json x v K' C) as [T1 T2]. apply (at_generated r y d x (VObject v)); auto. right. now exists v.
Qed.

(** ** C66: the transactions of an example: every request with every response *)
Theorem C66_transactions : forall fuel r o a x ts w, fst (ac_method a) <> "" -> example_to_refract fuel r o a x = (w, Done ts) ->
  each (fun p => transaction fuel r o a (ex_description x) (fst p) (snd p)) (pairs x) ts w.
Proof. intros. now apply example_is. Qed.
Theorem C66_count : forall fuel r o a x ts w, example_to_refract fuel r o a x = (w, Done ts) ->
  length ts = match length (ex_requests x), length (ex_responses x) with 0, n => n | n, 0 => n | n, m => n * m end.
Proof.
  intros fuel r o a x ts w H. unfold example_to_refract in H. rewrite exchanges_are in H.
  assert (E : each (fun _ _ _ => True) (pairs x) ts w) by (apply (xmap_inv _ _ _ (fun _ _ _ => True) (pairs x)) in H; [exact H|auto]).
  destruct E as (rs & F & -> & _). assert (Ln : length (pairs x) = length rs) by (clear -F; induction F; cbn; congruence). assert (F' := Ln). rewrite map_length, <- F'. unfold pairs.
  destruct (ex_requests x) as [|q l]; [now rewrite map_length|]. destruct (ex_responses x) as [|s l']; [now rewrite map_length|]. rewrite map_length, prod_length. reflexivity.
Qed.

(** ** C67: the whole document *)
Theorem C67_document : forall fuel r o b e w, methods_given b -> blueprint_to_refract fuel r o b = (w, Done e) -> document_element fuel r o b e w.
Proof. intros. now apply document_is. Qed.

(** ** C68: the variables of a URI template *)
Theorem C68_variables : forall l, parameters_to_refract l = Elem "hrefVariables" [] [] true (DObject (map variable (effective l))).
Proof. exact parameters_is. Qed.
(** of the parameters of one name the last is used, and the order is kept *)
Theorem C68_last : forall l, NoDup (map (fun p => fst (pa_name p)) (effective l)) /\ subsequence (effective l) l /\
  forall p, In p (effective l) <-> exists l1 l2, l = l1 ++ p :: l2 /\ forall q, In q l2 -> fst (pa_name q) <> fst (pa_name p).
Proof.
  intros l. split; [apply effective_names|]. split.
  - induction l as [|p l IH]; cbn [effective]; [constructor|]. destruct (existsb _ l); now constructor.
  - induction l as [|p l IH]; cbn [effective]; intros x.
    + split; [intros []|intros ([|y l1] & l2 & E & _); discriminate].
    + split.
      * assert (T : In x (effective l) -> exists l1 l2, p :: l = l1 ++ x :: l2 /\ forall q, In q l2 -> fst (pa_name q) <> fst (pa_name x)).
        { intros Hx. apply IH in Hx as (l1 & l2 & -> & H). exists (p :: l1), l2. now split. }
        destruct (existsb _ l) eqn:E; [exact T|]. intros [<-|Hx]; [|now apply T]. exists [], l. split; [reflexivity|]. intros q Hq K.
        assert (X : existsb (fun q => String.eqb (fst (pa_name p)) (fst (pa_name q))) l = true) by (apply existsb_exists; exists q; split; [exact Hq|apply String.eqb_eq; now symmetry]). congruence.
      * intros (l1 & l2 & E & H). destruct l1 as [|y l1]; cbn in E; injection E as -> ->.
        -- destruct (existsb (fun q => String.eqb (fst (pa_name x)) (fst (pa_name q))) l2) eqn:X; [|now left]. apply existsb_exists in X as (q & Hq & Eq). apply String.eqb_eq in Eq. now destruct (H q Hq).
        -- assert (In x (effective (l1 ++ x :: l2))) by (apply IH; now exists l1, l2). destruct (existsb _ _); [assumption|now right].
Qed.

(** ** C69: the result is sound, and reached *)
Theorem C69_sound : forall fuel r o b e w, methods_given b -> blueprint_to_refract fuel r o b = (w, Done e) -> sound e.
Proof. intros fuel r o b e w M H. apply (document_sound fuel r o b e w). now apply document_is. Qed.
Theorem C69_reads_back : forall fuel r o b e w sm, methods_given b -> blueprint_to_refract fuel r o b = (w, Done e) ->
  exists v, render_so e sm = Some v /\ read_json (serialize_json v) = Some v.
Proof.
  intros fuel r o b e w sm M H. assert (S := C69_sound fuel r o b e w M H). destruct (C15_text_reads_back e sm (sound_no_null e S) (sound_keys e S) (sound_numbers e S)) as (v & V & R & _). now exists v.
Qed.
(** the conversion of every document whose types are well declared ends; its result does not depend on the number of steps *)
Theorem C69_total : forall b o order, well_declared (find_named_types (bp_elements b)) -> Permutation (find_named_types (bp_elements b)) order ->
  exists f0 w x, x <> Runs /\ forall f, f0 <= f -> convert f o order b = (w, x).
Proof. exact convert_ends. Qed.
Theorem C69_steps : forall f f' o order b, f <= f' -> snd (convert f o order b) <> Runs -> convert f' o order b = convert f o order b.
Proof. intros f f' o order b L H. destruct (convert_more f f' o order b L) as [E|E]; [contradiction|now symmetry]. Qed.

(** ** C70: from the source to the text *)
(** [conv] is what the conversion does: it ends as the model does; ThrowsOther stands for conversions that do not end with a result or an
    exception drafter knows *)
Definition means (x : outcome element) (c : conversion) : Prop :=
  match x with
  | Done e => c = Converted e
  | Refused a => c = ThrowsError a
  | Fails m => exists a, c = ThrowsError a /\ a_message a = m
  | Raises m => c = ThrowsStd m
  | Breaks | Runs => False
  end.
Definition performs (conv : blueprint -> option parse_options -> conversion * list annotation) : Prop :=
  forall b o c w, conv b o = (c, w) -> c <> ThrowsOther ->
    exists order fuel x, Permutation (find_named_types (bp_elements b)) order /\ convert fuel o order b = (w, x) /\ means x c.
Lemma performs_done : forall conv b o e w, performs conv -> conv b o = (Converted e, w) ->
  exists order fuel r w1 w2, Permutation (find_named_types (bp_elements b)) order /\ register fuel (find_named_types (bp_elements b)) order = (w1, Done r) /\
    blueprint_to_refract fuel r o b = (w2, Done e) /\ w = w1 ++ w2.
Proof.
  intros conv b o e w H C. destruct (H b o _ w C ltac:(discriminate)) as (order & fuel & x & P & E & M). destruct x as [y| | | | |]; cbn in M; try contradiction; try discriminate.
  - injection M as ->. unfold convert in E. apply xbind_inv in E as (r & w1 & w2 & E1 & E2 & ->). now exists order, fuel, r, w1, w2.
  - destruct M as (a & K & _). discriminate.
Qed.
(** every text the C interface hands out is whole: it reads back as the value of the parse result, whose first entry is the document *)
Theorem C70_text : forall (parse : bool -> string -> report * blueprint) conv h src popts sopts opts so api err ws,
  performs conv -> (forall required, methods_given (snd (parse required src))) ->
  heap_ok h -> load_parse_options h popts = Some opts -> load_serialize_options h sopts = Some so ->
  analysed parse conv opts src api err ws -> Forall CapiSpec.placed (opt_list err ++ ws) -> (get_format so = JSON \/ get_format so = YAML) ->
  exists p h' text, drafter_parse_blueprint_to _ parse conv h (Some src) true popts sopts = Some (code_of err, Some (Some p), h') /\ load h' p = Some (OText text) /\
  exists e v, render_so e (are_sourcemaps_included so) = Some v /\
    (get_format so = JSON -> text = serialize_json v /\ read_json text = Some v) /\ (get_format so = YAML -> serialize_yaml v = Some text) /\
    forall d, api = Some d -> exists order fuel r w1 w2, Permutation (find_named_types (bp_elements (snd (parse (is_name_required opts) src)))) order /\
      register fuel (find_named_types (bp_elements (snd (parse (is_name_required opts) src)))) order = (w1, Done r) /\
      document_element fuel r opts (snd (parse (is_name_required opts) src)) d w2 /\ exists rest, e = Elem "parseResult" [] [] true (DArray (d :: rest)).
Proof.
  intros parse conv h src popts sopts opts so api err ws Pf Mg H L LS An Pl Fm. set (b := snd (parse (is_name_required opts) src)) in *.
  assert (D : forall d, api = Some d -> exists order fuel r w1 w2, Permutation (find_named_types (bp_elements b)) order /\
    register fuel (find_named_types (bp_elements b)) order = (w1, Done r) /\ document_element fuel r opts b d w2).
  { intros d ->. unfold analysed in An. cbv zeta in An. fold (is_name_required opts) in An. fold b in An. inversion An as [|e ws' Z C E1 E2 E3| |]; subst.
    destruct (performs_done conv b opts d ws' Pf C) as (order & fuel & r & w1 & w2 & P & R & B & _). exists order, fuel, r, w1, w2. split; [exact P|]. split; [exact R|]. apply document_is; [apply Mg|exact B]. }
  assert (T : forall d, api = Some d -> CapiSpec.tidy d).
  { intros d E. destruct (D d E) as (order & fuel & r & w1 & w2 & _ & _ & B). apply document_sound in B. split; [now apply sound_no_null|]. split; [now apply sound_keys|now apply sound_numbers]. }
  destruct (C16_text_is_whole _ parse conv h src popts sopts opts so api err ws H L LS An Pl T Fm) as (r & h1 & p & h2 & e & text & v & E1 & E2 & E3 & E4 & E5 & E6 & E7).
  destruct (C18_parse_result _ parse conv h src popts opts api err ws H L An Pl) as (r' & h1' & es & wes & F1 & F2 & _). rewrite E1 in F1. injection F1 as <- <-. rewrite E2 in F2. injection F2 as ->.
  exists p, h2, text. split; [exact E3|]. split; [exact E4|]. exists (Elem "parseResult" [] [] true (DArray (opt_list api ++ es ++ wes))), v. split; [exact E5|]. split; [exact E6|]. split; [exact E7|].
  intros d E. destruct (D d E) as (order & fuel & r0 & w1 & w2 & P & R & B). exists order, fuel, r0, w1, w2. repeat (split; [assumption|]). exists (es ++ wes). now rewrite E.
Qed.

(** ** Concrete documents *)
Definition said (s : string) : text := (s, [Range 1 2]).
Definition parameter_of (n d : string) : parameter := Param (said n) no_text (said "number") OptionalUse (said d) no_text [].
Definition choice : parameter := Param (said "sort") (said "how") no_text RequiredUse (said "up") (said "down") [said "up"; said "down"].
Definition headers_of (t : string) : list pair_text := [("Content-Type", t, [Range 5 6])].
Definition message_of (name type : string) (s : structure) (body : string) : payload := Pay (said name) no_text [] (headers_of type) s (body, []) no_text [].
Definition of_human : structure := declare "" (called "Human") [].
Definition listing : action := Act (said "GET") (said "List") (said "about it") [] no_structure no_text (said "list")
  [Exa no_text [message_of "one" "text/plain" no_structure "?"; message_of "" "application/json" no_structure ""] [message_of "200" "application/json" of_human ""; message_of "404" "" no_structure ""]].
Definition people : resource := Res (said "/people{?page,sort}") (said "People") no_text no_structure [parameter_of "page" "1"; choice; parameter_of "page" "2"] [listing].
Definition of_people : belement := BElem ResourceElement no_text no_text people no_structure [] UndefinedCategory.
Definition service : blueprint := Blue [("FORMAT", "1A", [Range 0 3])] (said "Service") (said "text") [of_group [of_people]; of_structure human].
Definition service_types : list structure := [human].
Lemma service_methods : methods_given service.
Proof.
  intros top x T I C a Ha. cbn in T. destruct T as [<-|[<-|[]]].
  - inversion I as [|? c ? _ Hc I']; subst; [discriminate|]. cbn in Hc. destruct Hc as [<-|[]]. inversion I' as [|? c ? K]; subst; [|discriminate]. cbn in Ha. destruct Ha as [<-|[]]. discriminate.
  - inversion I as [|? c ? K]; subst; discriminate.
Qed.
Lemma service_found : find_named_types (bp_elements service) = service_types.
Proof. reflexivity. Qed.
Lemma service_declared : well_declared service_types /\ none_reserved service_types.
Proof.
  assert (R : none_reserved service_types) by (intros s [<-|[]]; reflexivity). split; [|exact R]. assert (exists t, preprocess 9 (declarations service_types) = Some (t, None)) as (t & A) by (eexists; vm_compute; reflexivity).
  apply (C63_accepted _ _ _ A R). intros s [<-|[]]. split; [right; reflexivity|reflexivity].
Qed.
(** the texts of the assets within an element *)
Fixpoint assets (n : nat) (e : element) : list string :=
  match n with
  | O => []
  | S n => match edata e with
           | DString s => if String.eqb (ename e) "asset" then [s] else []
           | DArray l => flat_map (assets n) l
           | _ => []
           end
  end.
Definition name_of (e : element) : string := ename e.
Fixpoint outline (n : nat) (e : element) : list string :=
  match n with O => [] | S n => ename e :: match edata e with DArray l => flat_map (outline n) l | _ => [] end end.
Example C67_nonvacuous : exists w e, convert 20 None service_types service = (w, Done e) /\
  outline 9 e = ["category"; "copy"; "category"; "resource"; "transition"; "copy";
    "httpTransaction"; "httpRequest"; "asset"; "httpResponse"; "dataStructure"; "asset"; "asset";
    "httpTransaction"; "httpRequest"; "asset"; "httpResponse";
    "httpTransaction"; "httpRequest"; "httpResponse"; "dataStructure"; "asset"; "asset";
    "httpTransaction"; "httpRequest"; "httpResponse"; "dataStructure"] /\
  assets 9 e = (let body := serialize_json (VObject [("age", VNumber "0")]) in
    let schema := serialize_json (VObject [("$schema", VString "http://json-schema.org/draft-07/schema#"); ("type", VString "object"); ("properties", VObject [("age", VObject [("type", VString "number")])])]) in
    ["?"; body; schema; "?"; body; schema]) /\ length w = 2.
Proof. do 2 eexists. split; [vm_compute; reflexivity|]. split; [vm_compute; reflexivity|]. split; vm_compute; reflexivity. Qed.
(** its request, its response and its transitions are converted *)
Example C64_nonvacuous : exists r w e w' e', register 9 service_types service_types = (w, Done r) /\
  payload_to_refract 20 r None (Some (message_of "one" "text/plain" no_structure "?")) (Some listing) = (w', Done e) /\
  e = Elem "httpRequest" [("title", text_at (said "one"))]
        [("method", text_at (said "GET")); ("headers", Elem "httpHeaders" [] [] true (DArray [Elem "member" [] (placed [Range 5 6]) true (DMember (Some (plain "Content-Type")) (Some (plain "text/plain")))]))] true
        (DArray [Elem "asset" [("classes", texts ["messageBody"])] [("contentType", plain "text/plain")] true (DString "?")]) /\
  exists w'', payload_to_refract 20 r None (Some (message_of "200" "application/json" of_human "")) None = (w'', Done e').
Proof. do 5 eexists. split; [vm_compute; reflexivity|]. split; [vm_compute; reflexivity|]. split; [reflexivity|]. eexists. vm_compute. reflexivity. Qed.
Example C66_nonvacuous : exists r w w' ts, register 9 service_types service_types = (w, Done r) /\ example_to_refract 20 r None listing (hd (Exa no_text [] []) (ac_examples listing)) = (w', Done ts) /\ length ts = 4.
Proof. do 4 eexists. split; [vm_compute; reflexivity|]. split; [vm_compute; reflexivity|reflexivity]. Qed.
(** the second page replaces the first and comes after the choice *)
Example C68_nonvacuous : effective (re_parameters people) = [choice; parameter_of "page" "2"].
Proof. reflexivity. Qed.
Example C69_nonvacuous : methods_given service /\ well_declared (find_named_types (bp_elements service)) /\ exists w e, convert 20 None service_types service = (w, Done e).
Proof. split; [exact service_methods|]. split; [exact (proj1 service_declared)|]. do 2 eexists. vm_compute. reflexivity. Qed.
(** a conversion as C70 requires *)
Definition with_steps (fuel : nat) (b : blueprint) (o : option parse_options) : conversion * list annotation :=
  let (w, x) := convert fuel o (find_named_types (bp_elements b)) b in
  (match x with Done e => Converted e | Refused a => ThrowsError a | Fails m => ThrowsError (Annotation m 4 []) | Raises m => ThrowsStd m | Breaks | Runs => ThrowsOther end, w).
Example C70_performs : forall fuel, performs (with_steps fuel).
Proof.
  intros fuel b o c w H N. unfold with_steps in H. destruct (convert fuel o (find_named_types (bp_elements b)) b) as [w' x] eqn:E. injection H as <- <-.
  exists (find_named_types (bp_elements b)), fuel, x. split; [apply Permutation_refl|]. split; [exact E|]. destruct x; cbn; auto. eexists. now split.
Qed.
Definition small : blueprint := Blue [] (said "Small") no_text [of_people].
Definition parse_small (required : bool) (src : string) : report * blueprint := (Report (Annotation "" 0 []) [], small).
Example C70_nonvacuous : exists d, performs (with_steps 20) /\ (forall required, methods_given (snd (parse_small required ""))) /\ analysed parse_small (with_steps 20) None "" (Some d) None [].
Proof.
  assert (M : methods_given small).
  { intros top x [<-|[]] Hi C a Ha. inversion Hi as [|? c ? K]; subst; [|discriminate]. cbn in Ha. destruct Ha as [<-|[]]. discriminate. }
  assert (exists d, with_steps 20 small None = (Converted d, [])) as (d & E) by (eexists; vm_compute; reflexivity).
  exists d. split; [apply C70_performs|]. split; [intros; exact M|]. exact (out_ok (Report (Annotation "" 0 []) []) (with_steps 20 small None) d [] eq_refl E).
Qed.

(** ** The boundary: a request of an action without a method becomes a response, its name the status *)
Theorem C64_method_refuted : exists a q e w, payload_to_refract 9 base_types None (Some q) (Some a) = (w, Done e) /\ ename e = "httpResponse" /\ ifind (eattrs e) "statusCode" = Some (text_at (py_name q)).
Proof.
  exists (Act no_text (said "x") no_text [] no_structure no_text no_text []), (message_of "one" "" no_structure "?"). do 2 eexists. split; [vm_compute; reflexivity|]. split; reflexivity.
Qed.

Print Assumptions C64_request.
Print Assumptions C64_response.
Print Assumptions C64_determined.
Print Assumptions C65_generated.
Print Assumptions C66_transactions.
Print Assumptions C66_count.
Print Assumptions C67_document.
Print Assumptions C68_variables.
Print Assumptions C68_last.
Print Assumptions C69_sound.
Print Assumptions C69_reads_back.
Print Assumptions C69_total.
Print Assumptions C69_steps.
Print Assumptions C70_text.
Print Assumptions C64_method_refuted.
