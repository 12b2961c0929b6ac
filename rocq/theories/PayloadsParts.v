(** Lemmas for C77: signatures, descriptions, sections *)
From Verif Require Import Base StringUtility StringSpec StringProofs SignatureProofs Regex RegexSpec RegexProofs ByteBuffer ByteSpec ByteProofs Prop_Bytes Markdown MarkdownSpec MarkdownTree Keywords KeywordsSpec KeywordsProofs KeywordsOrder Prop_Keywords Prop_Strings RegexCaps TypeTables SectionsSpec SectionsKeys.
From Verif Require Import Source Headers HeadersSpec HeadersProofs Prop_Headers Payloads PayloadsSpec PayloadsText PayloadsLine PayloadsNodes.
Local Open Scope string_scope.

Lemma form_pattern : forall ty k sh, form ty k sh -> signature_pattern ty = Some (pattern_of k).
Proof. intros ty [] [] H; cbn in H; subst; reflexivity. Qed.
Lemma form_name : forall ty k sh, form ty k sh -> section_name ty = kind_name k.
Proof. intros ty [] [] H; cbn in H; subst; reflexivity. Qed.
Lemma form_expected : forall ty k sh, form ty k sh -> expected_signature ty = expected_line k.
Proof. intros ty [] [] H; cbn in H; subst; reflexivity. Qed.
Lemma form_level : forall ty k sh, form ty k sh -> parent_form ty (if sh then Short_ else Deep_).
Proof. intros ty [] [] H; cbn in H; subst; reflexivity. Qed.
Lemma form_abbreviated : forall ty k sh, form ty k sh -> abbreviated ty = sh.
Proof. intros ty [] [] H; cbn in H; subst; reflexivity. Qed.
Lemma form_response : forall ty k sh, form ty k sh -> (is_response ty = true <-> k = Response_).
Proof. intros ty [] [] H; cbn in H; subst; cbn; split; congruence. Qed.
Lemma form_request : forall ty k sh, form ty k sh -> (is_request ty = true <-> k = Request_).
Proof. intros ty [] [] H; cbn in H; subst; cbn; split; congruence. Qed.

(** ** the kinds of sections *)
Lemma line_apart : forall t p q, (forall s, regex_match s p = true -> regex_match s q = true -> False) -> regex_match (item_line t) p = true -> regex_match (item_line t) q = false.
Proof. intros t p q H A. destruct (regex_match (item_line t) q) eqn:E; [elim (H _ A E)|reflexivity]. Qed.
Lemma section_words_apart :
  (forall s, regex_match s HeadersRegex = true -> regex_match s BodyRegex = true -> False) /\ (forall s, regex_match s HeadersRegex = true -> regex_match s SchemaRegex = true -> False) /\
  (forall s, regex_match s HeadersRegex = true -> regex_match s AttributesRegex = true -> False) /\ (forall s, regex_match s HeadersRegex = true -> regex_match s ParametersRegex = true -> False) /\
  (forall s, regex_match s BodyRegex = true -> regex_match s SchemaRegex = true -> False) /\ (forall s, regex_match s BodyRegex = true -> regex_match s AttributesRegex = true -> False) /\
  (forall s, regex_match s BodyRegex = true -> regex_match s ParametersRegex = true -> False) /\ (forall s, regex_match s SchemaRegex = true -> regex_match s AttributesRegex = true -> False) /\
  (forall s, regex_match s SchemaRegex = true -> regex_match s ParametersRegex = true -> False) /\ (forall s, regex_match s AttributesRegex = true -> regex_match s ParametersRegex = true -> False).
Proof.
  split; [apply (apart_match 200); vm_compute; reflexivity|]. split; [apply (apart_match 200); vm_compute; reflexivity|]. split; [apply (apart_match 200); vm_compute; reflexivity|].
  split; [apply (apart_match 200); vm_compute; reflexivity|]. split; [apply (apart_match 200); vm_compute; reflexivity|]. split; [apply (apart_match 200); vm_compute; reflexivity|].
  split; [apply (apart_match 200); vm_compute; reflexivity|]. split; [apply (apart_match 200); vm_compute; reflexivity|]. split; [apply (apart_match 200); vm_compute; reflexivity|].
  apply (apart_match 200); vm_compute; reflexivity.
Qed.
Lemma nested_type_is : forall t, (payload_nested_type t = HeadersSection <-> headers_section t) /\ (payload_nested_type t = BodySection <-> body_section t) /\
  (payload_nested_type t = SchemaSection <-> schema_section t) /\ (payload_nested_type t = AttributesSection <-> attributes_section t) /\ (payload_nested_type t = ParametersSection <-> parameters_section t).
Proof.
  intros t. unfold headers_section, body_section, schema_section, attributes_section, parameters_section.
  rewrite <- (check_item HeadersRegex _ ltac:(discriminate) headers_text), <- (check_item BodyRegex _ ltac:(discriminate) body_text), <- (check_item SchemaRegex _ ltac:(discriminate) schema_text),
    <- (check_item AttributesRegex _ ltac:(discriminate) attributes_text), <- (check_item ParametersRegex _ ltac:(discriminate) parameters_text).
  unfold payload_nested_type, headers_type, asset_type, attributes_type, parameters_type.
  destruct section_words_apart as (A1 & A2 & A3 & A4 & A5 & A6 & A7 & A8 & A9 & A10). generalize (item_line t). intros s. specialize (A1 s). specialize (A2 s). specialize (A3 s). specialize (A4 s). specialize (A5 s).
  specialize (A6 s). specialize (A7 s). specialize (A8 s). specialize (A9 s). specialize (A10 s).
  destruct (regex_match s HeadersRegex), (regex_match s BodyRegex), (regex_match s SchemaRegex), (regex_match s AttributesRegex), (regex_match s ParametersRegex);
    try (elim A1; reflexivity); try (elim A2; reflexivity); try (elim A3; reflexivity); try (elim A4; reflexivity); try (elim A5; reflexivity); try (elim A6; reflexivity); try (elim A7; reflexivity);
    try (elim A8; reflexivity); try (elim A9; reflexivity); try (elim A10; reflexivity); cbn; (split; [|split; [|split; [|split]]]); split; congruence.
Qed.
Lemma nested_none : forall t, payload_nested_type t = UndefinedSection <-> ~ a_section t.
Proof. exact payload_nested_none. Qed.
Lemma section_dec : forall t, a_section t \/ ~ a_section t.
Proof.
  intros t. rewrite <- nested_none. destruct (nested_type_is t) as (A & B & C & D & F). unfold a_section. rewrite <- A, <- B, <- C, <- D, <- F. clear.
  unfold payload_nested_type, headers_type, asset_type, attributes_type, parameters_type.
  destruct (regex_match (item_line t) HeadersRegex), (regex_match (item_line t) BodyRegex), (regex_match (item_line t) SchemaRegex), (regex_match (item_line t) AttributesRegex), (regex_match (item_line t) ParametersRegex); cbn; tauto.
Qed.
Lemma section_item : forall t, a_section t -> exists P, item_says P t.
Proof. intros t [H|[H|[H|[H|H]]]]; eexists; exact H. Qed.
Lemma section_no_text : forall t, a_section t -> text_node t = false.
Proof. intros t H. apply section_item in H as (P & H). destruct t as [[] x z m cs]; try contradiction; reflexivity. Qed.

Section Parts.
Context (source : string) (index : list N) (models : string -> option payload).
Context (nested : section_type -> list tree -> tree -> outcome (list annotation)) (found_none : section_type -> list tree -> bool).
Hypothesis Small : (slen source < 2 ^ 63)%N.
Hypothesis Indexed : List.length index = String.length source.
Notation fine := (fine source).
Notation within := (within source).
Notation warn_ok := (warn_ok source index Small Indexed).

(** ** the first line *)
Lemma named_ok : forall ty k sh t s name hs cs w, form ty k sh -> fine t -> named_by k t s name hs cs ->
  parse_signature index ty t s empty_payload w = Val (Load name "" [] hs [] "" "" no_reference, w ++ map (shown index) cs)%list.
Proof.
  intros ty k sh t s name hs cs w Fo F H. unfold parse_signature. rewrite (form_pattern _ _ _ Fo), (form_name _ _ _ Fo), (form_expected _ _ _ Fo).
  destruct (pattern_of k) as [[pat i] j] eqn:Ep. assert (C : capture_of k s = regex_capture s pat 5) by (unfold capture_of; now rewrite Ep).
  destruct H as [(media & H & M & ->)|(H & -> & -> & u & U & D)].
  - destruct (capture_line k s name media H) as (g & G & R). destruct (capture_some k s g G) as (_ & _ & X). specialize (X R). destruct (line_unique _ _ _ _ _ _ H X) as [-> ->]. rewrite Ep in *. cbn [fst snd] in *. rewrite <- C, G.
    unfold rest_of in R. rewrite R. cbn [negb String.eqb]. destruct M as [[E ->]|[E ->]].
    + rewrite E. cbn. now rewrite app_nil_r.
    + destruct (String.eqb_spec (trim (nth j g "")) ""); [contradiction|]. cbn. now rewrite app_nil_r.
  - rewrite <- C. apply before_c_text in U. subst u. destruct (capture_of k s) as [g|] eqn:G.
    + destruct (capture_some k s g G) as (N & St & X). rewrite Ep in X. cbn [fst snd] in X. destruct (String.eqb_spec (rest_of s g) "") as [R|R].
      * exfalso. exact (H _ _ (X R)).
      * unfold rest_of in R. destruct (String.eqb_spec (trim (from s (String.length (nth 0 g "")))) "") as [?|_]; [contradiction|]. cbn [negb]. destruct D as [(_ & _ & ->)|[D _]]; [|exfalso; apply D; now split].
        rewrite warn_ok by exact F. reflexivity.
    + apply capture_none in G. destruct D as [(N & St & _)|[_ ->]]; [elim G; now split|]. cbn. now rewrite app_nil_r.
Qed.
Lemma named_total : forall k t s, exists name hs cs, named_by k t s name hs cs.
Proof.
  intros k t s. destruct (capture_of k s) as [g|] eqn:G.
  - destruct (capture_some k s g G) as (N & St & X). destruct (String.eqb_spec (rest_of s g) "") as [R|R].
    + specialize (X R). destruct (String.eqb_spec (trim (nth (snd (pattern_of k)) g "")) "") as [E|E].
      * do 3 eexists. left. eexists. split; [exact X|]. split; [left; split; [exact E|reflexivity]|reflexivity].
      * do 3 eexists. left. eexists. split; [exact X|]. split; [right; split; [exact E|reflexivity]|reflexivity].
    + do 3 eexists. right. split; [|split; [reflexivity|split; [reflexivity|]]].
      * intros n m H. destruct (capture_line k s n m H) as (g' & G' & R'). congruence.
      * exists (c_text s). split; [now apply before_c_text|]. left. split; [exact N|]. split; [exact St|reflexivity].
  - do 3 eexists. right. split; [|split; [reflexivity|split; [reflexivity|]]].
    + intros n m H. destruct (capture_line k s n m H) as (g' & G' & R'). congruence.
    + exists (c_text s). split; [now apply before_c_text|]. right. split; [now apply capture_none|reflexivity].
Qed.
Definition tidy_name (s : string) : Prop := forall c r, s = String c r -> ~ white c.
Lemma trim_tidy : forall s, tidy_name (trim s).
Proof. intros s c r E. destruct (trim_spec s) as (a & b & _ & _ & _ & H & _). exact (H _ _ E). Qed.
Lemma line_tidy : forall k s n m, signature_line k s n m -> tidy_name n.
Proof.
  intros [] s n m H.
  - destruct H as (_ & l & w & x & p & z & _ & _ & _ & _ & _ & _ & T & _). apply trims_is in T. subst n. apply trim_tidy.
  - destruct H as (_ & l & w & x & p & z & _ & _ & _ & _ & _ & T & _). apply trims_is in T. subst n. apply trim_tidy.
  - destruct H as (_ & l & w & x & p & z & _ & _ & _ & _ & _ & _ & T & _). apply trims_is in T. subst n. apply trim_tidy.
Qed.
Lemma named_tidy : forall k t s n hs cs, named_by k t s n hs cs -> tidy_name n.
Proof. intros k t s n hs cs [(m & H & _)|(_ & -> & _)]; [exact (line_tidy _ _ _ _ H)|discriminate]. Qed.
Lemma status_ok : forall ty k sh t name name' cs w hs, form ty k sh -> fine t -> with_status k t name name' cs ->
  (if (String.eqb (q_name (Load name "" [] hs [] "" "" no_reference)) "" && is_response ty)%bool
   then andthen (warn index EmptyDefinitionWarning "missing response HTTP status code, assuming 'Response 200'" (t_map t) w) (fun w => Val (set_name "200" (Load name "" [] hs [] "" "" no_reference), w))
   else Val (Load name "" [] hs [] "" "" no_reference, w)) = Val (Load name' "" [] hs [] "" "" no_reference, w ++ map (shown index) cs)%list.
Proof.
  intros ty k sh t name name' cs w hs Fo F H. pose proof (form_response _ _ _ Fo) as R. cbn [q_name]. destruct H as [(-> & -> & -> & ->)|(N & -> & ->)].
  - rewrite (proj2 R eq_refl). cbn [String.eqb andb]. rewrite warn_ok by exact F. reflexivity.
  - cbn [map]. rewrite app_nil_r. destruct (String.eqb_spec name "") as [->|_]; [|reflexivity]. destruct (is_response ty) eqn:E; [|reflexivity]. elim N. split; [now apply R|reflexivity].
Qed.
Lemma status_total : forall k t name, exists name' cs, with_status k t name name' cs.
Proof.
  intros k t name. destruct (String.eqb_spec name "") as [->|N].
  - destruct k; [do 2 eexists; right; split; [intros [H _]; discriminate|split; reflexivity]| |do 2 eexists; right; split; [intros [H _]; discriminate|split; reflexivity]].
    do 2 eexists. left. split; [reflexivity|]. split; [reflexivity|]. split; reflexivity.
  - do 2 eexists. right. split; [tauto|split; reflexivity].
Qed.
Lemma status_tidy : forall k t name name' cs, with_status k t name name' cs -> tidy_name name -> tidy_name name' /\ (k = Response_ -> name' <> "").
Proof.
  intros k t name name' cs [(-> & -> & -> & ->)|(N & -> & ->)] T.
  - split; [|discriminate]. intros c r E. injection E as <- _. cbn. intuition discriminate.
  - split; [exact T|]. intros -> ->. apply N. now split.
Qed.

(** ** the description *)
Lemma trim_no_feed : forall s, trim s <> String LF "".
Proof. intros s E. apply (trim_tidy s _ _ E). cbn. tauto. Qed.
Lemma description_ok : forall ty k s d text, form ty k false -> description source s d text -> s <> String LF "" -> Forall fine d -> Forall (fun t => ~ a_section t) d -> forall x p w,
  ~ begins (fun t => ~ a_section t) x -> q_description p = s ->
  contents (payload_is_description ty) (fun t p w => payload_description source t p w) (d ++ x)%list p w = Val (set_description text p, w, x).
Proof.
  intros ty k s d text Fo H. assert (B : forall t, payload_is_description ty t = true <-> ~ a_section t).
  { intros t. unfold payload_is_description. rewrite (form_abbreviated _ _ _ Fo). cbn [negb andb]. rewrite <- nested_none. destruct (payload_nested_type t); split; congruence. }
  induction H as [s|t l c d T H IH|s s' t l c d Ns Pd T H IH]; intros Nf F A x p w X E.
  - cbn [app]. rewrite (contents_stop _ _ _ _ x p w B X). do 3 f_equal. destruct p. cbn in *. now subst.
  - inversion F as [|? ? F1 F2]; inversion A as [|? ? A1 A2]; subst. cbn [app contents]. rewrite (proj2 (B t) A1). unfold payload_description at 1. rewrite E. cbn [String.eqb andthen].
    rewrite (map_ok source index Small Indexed t F1). cbn [andthen]. apply trims_is in T. rewrite <- T. change ("" +++ c) with c. rewrite (IH ltac:(rewrite T; apply trim_no_feed) F2 A2 x (set_description c p) w X eq_refl). reflexivity.
  - inversion F as [|? ? F1 F2]; inversion A as [|? ? A1 A2]; subst. cbn [app contents]. rewrite (proj2 (B t) A1). unfold payload_description at 1. destruct (String.eqb_spec (q_description p) "") as [?|_]; [contradiction|].
    rewrite (proj1 (padded_iff _ _ Ns Nf) Pd). cbn [andthen]. rewrite (map_ok source index Small Indexed t F1). cbn [andthen]. apply trims_is in T. rewrite <- T.
    rewrite (IH) with (p := set_description (s' +++ c) p); [reflexivity|..]; try assumption; [|reflexivity].
    destruct Pd as (j & u & _ & -> & _). intros Q. apply (f_equal String.length) in Q. rewrite !length_append in Q. cbn in Q. lia.
Qed.
Lemma description_total : forall d s, s <> String LF "" -> exists text, description source s d text.
Proof.
  induction d as [|t d IH]; intros s N; [eexists; constructor|]. set (c := trim (text_at source (covered (place t)))). destruct (String.eqb_spec s "") as [->|Ns].
  - destruct (IH c) as (text & H); [apply trim_no_feed|]. exists text. apply (description_start _ t d c); [now apply trims_is|exact H].
  - destruct (C41_two_new_lines s Ns N) as (j & u & E & Q & _). apply (padded_iff s _ Ns N) in E. destruct (IH ((s +++ run_of j LF) +++ c)) as (text & H).
    + rewrite Q. intros X. apply (f_equal String.length) in X. rewrite !length_append in X. cbn in X. lia.
    + exists text. eapply description_next; [exact Ns|exact E|apply trims_is; reflexivity|exact H].
Qed.
End Parts.
