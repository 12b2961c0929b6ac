(** Lemmas for C77: references and payloads in short *)
From Verif Require Import Base StringUtility StringSpec StringProofs SignatureProofs Regex RegexSpec RegexProofs ByteBuffer ByteSpec ByteProofs Prop_Bytes Markdown MarkdownSpec MarkdownTree Keywords KeywordsSpec KeywordsProofs KeywordsOrder Prop_Keywords Prop_Strings RegexCaps TypeTables SectionsSpec SectionsKeys.
From Verif Require Import Source Headers HeadersSpec HeadersProofs Prop_Headers Payloads PayloadsSpec PayloadsText PayloadsLine PayloadsNodes PayloadsParts PayloadsLoop.
Local Open Scope string_scope.

Lemma typed_iff : forall hs, content_type hs = true <-> typed hs.
Proof.
  intros hs. unfold content_type, typed. rewrite existsb_exists. split.
  - intros ((n & v) & I & E). cbn in E. apply String.eqb_eq in E. subst n. now exists v.
  - intros (v & I). exists ("Content-Type", v). split; [exact I|reflexivity].
Qed.

Section Short.
Context (source : string) (index : list N) (models : string -> option payload).
Context (nested : section_type -> list tree -> tree -> outcome (list annotation)) (found_none : section_type -> list tree -> bool).
Hypothesis Small : (slen source < 2 ^ 63)%N.
Hypothesis Indexed : List.length index = String.length source.
Notation fine := (fine source).
Notation within := (within source).
Notation warn_ok := (warn_ok source index Small Indexed).

(** ** references *)
Lemma from_ok : forall ty what t id m p p' cs w, section_name ty = what -> fine t -> from_model what t id m p p' cs ->
  refer index ty m (set_reference (Ref id Resolved (t_map t)) p) w = Val (p', w ++ map (shown index) cs)%list.
Proof.
  intros ty what t id m p p' cs w Fo F (hs & -> & H). unfold refer. rewrite Fo. cbn [set_reference q_headers q_reference r_place q_name q_attributes]. rewrite <- typed_iff in H. destruct H as [(Q & -> & ->)|[(Q & T & -> & ->)|(Q & T & -> & ->)]].
  + rewrite Q. cbn. now rewrite app_nil_r.
  + destruct (content_type (q_headers m)); [now elim T|]. destruct (q_headers p) as [|h l]; [now elim Q|]. cbn. now rewrite app_nil_r.
  + rewrite T. destruct (q_headers p) as [|h l]; [now elim Q|]. cbn [andb negb]. rewrite (warn_ok t IgnoringWarning _ w F). reflexivity.
Qed.
Lemma from_total : forall what t id m p, exists p' cs, from_model what t id m p p' cs.
Proof.
  intros what t id m p. destruct (q_headers p) as [|h l] eqn:Q.
  - do 2 eexists. eexists. split; [reflexivity|]. left. now split.
  - destruct (content_type (q_headers m)) eqn:T; do 2 eexists; eexists; (split; [reflexivity|]); right.
    + right. split; [congruence|]. split; [now apply typed_iff|now split].
    + left. split; [congruence|]. split; [|now split]. intros X. apply typed_iff in X. congruence.
Qed.
Lemma referred_ok : forall ty k sh t text id p p' cs w, form ty k sh -> fine t -> refers text id -> referred models k t id p p' cs ->
  parse_reference index models ty t text p w = Some (Val (p', w ++ map (shown index) cs)%list).
Proof.
  intros ty k sh t text id p p' cs w Fo F R H. unfold parse_reference. apply refers_iff in R. rewrite R. destruct H as [(M & -> & ->)|(m & M & H)]; rewrite M.
  - cbn. now rewrite app_nil_r.
  - f_equal. now apply (from_ok _ _ _ _ _ _ _ _ _ (form_name _ _ _ Fo)).
Qed.
Lemma referred_total : forall k t id p, exists p' cs, referred models k t id p p' cs.
Proof.
  intros k t id p. destruct (models id) as [m|] eqn:M; [|do 2 eexists; left; now split].
  destruct (from_total (kind_name k) t id m p) as (p' & cs & H). exists p', cs. right. now exists m.
Qed.
Lemma referred_id : forall k t id p p' cs, referred models k t id p p' cs -> r_id (q_reference p') = id /\ q_name p' = q_name p.
Proof. intros k t id p p' cs [(M & -> & ->)|(m & M & hs & -> & H)]; split; reflexivity. Qed.

(** ** the nodes *)
Notation contents_of ty := (contents (payload_is_content ty) (fun t p w => payload_content source index models ty t p w)).
Lemma is_content_short : forall ty k t, form ty k true -> (payload_is_content ty t = true <-> plain_node t).
Proof. intros ty k t Fo. unfold payload_is_content. rewrite (form_abbreviated _ _ _ Fo). cbn [andb]. apply plain_is. Qed.
Lemma contents_extraneous : forall ty k id d p x, form ty k true -> r_id (q_reference p) = id -> id <> "" -> Forall fine d -> Forall plain_node d -> ~ begins plain_node x -> forall w,
  contents_of ty (d ++ x)%list p w = Val (p, (w ++ map (shown index) (extraneous id d))%list, x).
Proof.
  intros ty k id d p x Fo R N F P X. induction d as [|t d IH]; intros w.
  - cbn [app extraneous map]. rewrite app_nil_r. apply (contents_stop _ _ _ plain_node); [intros t; now apply (is_content_short ty k)|exact X].
  - inversion F as [|? ? F1 F2]; inversion P as [|? ? P1 P2]; subst. cbn [app contents]. rewrite (proj2 (is_content_short ty k t Fo) P1). unfold payload_content at 1. apply String.eqb_neq in N as N'. rewrite N'. cbn [negb].
    rewrite (warn_ok t IgnoringWarning _ w F1). cbn [andthen]. rewrite (IH F2 P2). rewrite <- app_assoc. reflexivity.
Qed.
Lemma content_step : forall ty k t c cs p w, form ty k true -> fine t -> r_id (q_reference p) = "" -> (q_body p = "" -> forall id, ~ is_reference t id) -> content source Short_ Body_ t c cs ->
  payload_content source index models ty t p w = Val (set_body (q_body p +++ c) p, w ++ map (shown index) cs)%list.
Proof.
  intros ty k t c cs p w Fo F R N C. unfold payload_content. rewrite R. cbn [String.eqb negb].
  assert (A : andthen (content_of source index BodySection ty t w) (fun '(c, w) => Val (set_body (q_body p +++ c) p, w)) = Val (set_body (q_body p +++ c) p, w ++ map (shown index) cs)%list).
  { change BodySection with (kind_section Body_). rewrite (content_ok source index Small Indexed Short_ ty Body_ t c cs w F (form_level _ _ _ Fo) C). reflexivity. }
  destruct (String.eqb_spec (q_body p) "") as [B|B]; cbn [negb orb]; [|exact A].
  destruct (match t_type t with ParagraphNode => false | _ => true end) eqn:T; [exact A|].
  unfold parse_reference. destruct (model_reference (trim (t_text t))) as [id|] eqn:M; [|exact A]. exfalso. apply (N B id). split.
  - destruct t as [[] y z m ds]; try discriminate T; exact I.
  - apply refers_iff. rewrite <- M. now rewrite text_is.
Qed.
Lemma contents_body : forall ty k d cs ws x, form ty k true -> in_turn (content source Short_ Body_) d cs ws -> Forall fine d -> Forall plain_node d -> ~ begins plain_node x -> forall p w,
  r_id (q_reference p) = "" -> (forall e q z id, q_body p = "" -> d = (e ++ q :: z)%list -> empty_nodes source e -> ~ is_reference q id) ->
  contents_of ty (d ++ x)%list p w = Val (set_body (q_body p +++ sconcat cs) p, (w ++ map (shown index) ws)%list, x).
Proof.
  intros ty k d cs ws x Fo H. induction H as [|t l a r v u S1 S2 IH]; intros F P X p w R N.
  - cbn [app sconcat map]. rewrite app_nil_r, append_nil_r. replace (set_body (q_body p) p) with p by now destruct p. apply (contents_stop _ _ _ plain_node); [intros t; now apply (is_content_short ty k)|exact X].
  - inversion F as [|? ? F1 F2]; inversion P as [|? ? P1 P2]; subst. cbn [app contents]. rewrite (proj2 (is_content_short ty k t Fo) P1). rewrite (content_step ty k t a v p w Fo F1 R).
    + cbn [andthen]. rewrite (IH F2 P2 X (set_body (q_body p +++ a) p) (w ++ map (shown index) v)%list R).
      * cbn [set_body q_body sconcat]. rewrite map_app, app_assoc, append_assoc. reflexivity.
      * intros e q z id B E Em. cbn [set_body q_body] in B. destruct (q_body p) as [|c b] eqn:Q; [|discriminate]. cbn in B. subst a. apply (N (t :: e) q z id eq_refl); [now rewrite E|]. constructor; [|exact Em].
        destruct S1 as (w1 & w2 & _ & W & _). exact W.
    + intros B id. apply (N [] t l id B); [reflexivity|constructor].
    + exact S1.
Qed.
Lemma contents_empty : forall ty k e es ws, form ty k true -> in_turn (content source Short_ Body_) e es ws -> Forall fine e -> Forall plain_node e -> empty_nodes source e -> (forall u i, In u e -> ~ is_reference u i) -> forall x p w,
  r_id (q_reference p) = "" -> contents_of ty (e ++ x)%list p w = contents_of ty x p (w ++ map (shown index) ws)%list.
Proof.
  intros ty k e es ws Fo H. induction H as [|t l a r v u S1 S2 IH]; intros F P Em N x p w R.
  - cbn. now rewrite app_nil_r.
  - inversion F as [|? ? F1 F2]; inversion P as [|? ? P1 P2]; inversion Em as [|? ? E1 E2]; subst. cbn [app]. cbn [contents]. rewrite (proj2 (is_content_short ty k t Fo) P1).
    rewrite (content_step ty k t a v p w Fo F1 R); [|intros _ id; apply N; now left|exact S1]. assert (a = "") as -> by (destruct S1 as (w1 & w2 & _ & W & _); exact (writes_unique source t _ _ W E1)).
    cbn [andthen]. rewrite append_nil_r. replace (set_body (q_body p) p) with p by now destruct p. rewrite (IH F2 P2 E2 (fun u i I => N u i (or_intror I)) x p _ R). rewrite map_app, app_assoc. reflexivity.
Qed.
Lemma reference_dec : forall t, (exists id, is_reference t id) \/ (forall id, ~ is_reference t id).
Proof.
  intros t. unfold is_reference. assert (D : paragraph_node t \/ ~ paragraph_node t) by (destruct t as [[] y z m ds]; cbn; tauto). destruct D as [D|D]; [|right; tauto].
  destruct (model_reference (trim (the_text t))) as [id|] eqn:M; [left; exists id; split; [exact D|now apply refers_iff]|]. right. intros id [_ H]. now apply (proj2 (refers_none (the_text t)) M id).
Qed.
Lemma reference_search : forall d, (exists e q z id, d = (e ++ q :: z)%list /\ empty_nodes source e /\ (forall u i, In u e -> ~ is_reference u i) /\ is_reference q id) \/
  (forall e q z id, d = (e ++ q :: z)%list -> empty_nodes source e -> ~ is_reference q id).
Proof.
  induction d as [|t d IH]; [right; intros [|] q z id E; discriminate|]. destruct (reference_dec t) as [(id & R)|R].
  - left. exists [], t, d, id. split; [reflexivity|]. split; [constructor|]. split; [intros u i []|exact R].
  - destruct (writes_total source t) as (c & W). destruct (String.eqb_spec c "") as [->|C].
    + destruct IH as [(e & q & z & id & -> & Em & N & Q)|IH].
      * left. exists (t :: e), q, z, id. split; [reflexivity|]. split; [now constructor|]. split; [|exact Q]. intros u i [<-|I]; [apply R|now apply N].
      * right. intros e q z id E Em. destruct e as [|u e]; cbn in E; injection E as -> E; [apply R|]. inversion Em. now apply (IH e q z id).
    + right. intros e q z id E Em. destruct e as [|u e]; cbn in E; injection E as -> E; [apply R|]. inversion Em as [|? ? E1 E2]. elim C. exact (writes_unique source u _ _ W E1).
Qed.

(** ** the opening node *)
Definition behind (ty : section_type) (t : tree) (rest : string) (p : payload) (w : report) : outcome (payload * report) :=
  if String.eqb rest "" then Val (p, w)
  else if negb (abbreviated ty) then Val (set_description rest p, w)
  else match parse_reference index models ty t rest p w with
       | Some o => o
       | None =>
         andthen (signature_content index BodySection ty t w) (fun '(c, w) =>
         andthen (two_new_lines (q_body p +++ c)) (fun body => Val (set_body body p, w)))
       end.
Lemma signature_ok : forall ty k sh t first rest name0 name hs w1 w2 w, form ty k sh -> fine t -> lines (the_text t) first rest -> named_by k t first name0 hs w1 -> with_status k t name0 name w2 ->
  payload_signature index models ty t empty_payload w = behind ty t rest (Load name "" [] hs [] "" "" no_reference) (w ++ map (shown index) (w1 ++ w2))%list.
Proof.
  intros ty k sh t first rest name0 name hs w1 w2 w Fo F L N St. unfold payload_signature. apply lines_iff in L. rewrite text_is in L. rewrite L.
  rewrite (named_ok source index Small Indexed ty k sh t first name0 hs w1 w Fo F N). cbn [andthen]. rewrite (status_ok source index Small Indexed ty k sh t name0 name w2 _ hs Fo F St). cbn [andthen].
  rewrite map_app, app_assoc. reflexivity.
Qed.
Lemma short_ok : forall ty k t first rest d p p' cs x w, form ty k true -> short_content source models k t rest d p p' cs -> lines (the_text t) first rest -> fine t -> Forall fine d -> Forall plain_node d -> ~ begins plain_node x ->
  q_body p = "" -> r_id (q_reference p) = "" -> ~ refers rest "" -> (forall q, In q d -> ~ refers (the_text q) "") ->
  exists p1 w', behind ty t rest p w = Val (p1, w') /\ contents_of ty (d ++ x)%list p1 w' = Val (p', (w ++ map (shown index) cs)%list, x).
Proof.
  intros ty k t first rest d p p' cs x w Fo H L F Fd P X B R Nr Nd. unfold behind. rewrite (form_abbreviated _ _ _ Fo). cbn [negb].
  destruct H as [(id & w1 & H & Re & ->)|(Nref & own & w1 & O & H)].
  - assert (Rn : rest <> ""). { intros ->. apply refers_iff in H. discriminate H. } apply String.eqb_neq in Rn. rewrite Rn. rewrite (referred_ok ty k true t rest id p p' w1 w Fo F H Re).
    do 2 eexists. split; [reflexivity|]. destruct (referred_id _ _ _ _ _ _ Re) as [I _]. rewrite (contents_extraneous ty k id d p' x Fo I); try assumption; [rewrite map_app, app_assoc; reflexivity|]. intros ->. now apply Nr.
  - assert (G : exists p1, (if String.eqb rest "" then Val (p, w) else match parse_reference index models ty t rest p w with
         | Some o => o
         | None => andthen (signature_content index BodySection ty t w) (fun '(c, w) => andthen (two_new_lines (q_body p +++ c)) (fun body => Val (set_body body p, w)))
         end) = Val (p1, w ++ map (shown index) w1)%list /\ p1 = set_body own p).
    { destruct O as [(-> & -> & ->)|(Rn & c & O & Pd)].
      - exists p. cbn. rewrite app_nil_r. split; [reflexivity|]. destruct p. cbn in *. now subst.
      - apply String.eqb_neq in Rn as Rn'. rewrite Rn'. unfold parse_reference. rewrite (proj1 (refers_none rest) Nref). change BodySection with (kind_section Body_).
        rewrite (own_ok source index Small Indexed Short_ ty Body_ t c w1 w F (form_level _ _ _ Fo) O). cbn [andthen]. rewrite B. change ("" +++ c) with c.
        assert (Cn : c <> "" /\ c <> String LF "").
        { destruct O as (first' & rest' & L' & O). apply lines_iff in L. apply lines_iff in L'. rewrite L in L'. injection L' as <- <-. destruct O as [(-> & _)|(_ & -> & _)]; [contradiction|].
          split; [destruct rest; discriminate|]. destruct rest as [|a rest]; [contradiction|]. intros E. injection E as _ E. destruct rest; discriminate. }
        rewrite (proj1 (padded_iff c own (proj1 Cn) (proj2 Cn)) Pd). cbn [andthen]. exists (set_body own p). split; reflexivity. }
    destruct G as (p1 & G & ->). exists (set_body own p), (w ++ map (shown index) w1)%list. split; [exact G|]. clear G.
    destruct H as [(e & q & z & es & id & w2 & w3 & -> & -> & Em & Ne & [Pq Rq] & T & Re & ->)|(N & cs' & w2 & T & -> & ->)].
    + replace (set_body "" p) with p by (destruct p; cbn in *; now subst). apply Forall_app in Fd as [Fe Fq]. apply Forall_app in P as [Pe Pz]. inversion Fq as [|? ? F1 F2]; inversion Pz as [|? ? P1 P2]; subst. rewrite <- app_assoc.
      rewrite (contents_empty ty k e es w2 Fo T Fe Pe Em Ne); [|exact R]. cbn [app contents]. rewrite (proj2 (is_content_short ty k q Fo) P1). unfold payload_content at 1. rewrite R, B. cbn [String.eqb negb orb].
      assert (Y : (match t_type q with ParagraphNode => false | _ => true end) = false) by (destruct q as [[] y' z' m' ds']; try contradiction; reflexivity). rewrite Y. rewrite text_is in Rq.
      rewrite (referred_ok ty k true q (t_text q) id p p' w3 _ Fo F1 Rq Re). cbn [andthen]. destruct (referred_id _ _ _ _ _ _ Re) as [I _].
      rewrite (contents_extraneous ty k id z p' x Fo I); try assumption; [rewrite !map_app, !app_assoc; reflexivity|]. intros ->. apply (Nd q); [apply in_app_iff; right; now left|]. now rewrite text_is.
    + rewrite (contents_body ty k d cs' w2 x Fo T Fd P X (set_body own p) _ R N). cbn [set_body q_body]. rewrite map_app, app_assoc. reflexivity.
Qed.
Lemma short_total : forall k t first rest d p, lines (the_text t) first rest -> exists p' cs, short_content source models k t rest d p p' cs.
Proof.
  intros k t first rest d p L. destruct (model_reference (trim rest)) as [id|] eqn:M.
  - apply refers_iff in M. destruct (referred_total k t id p) as (p' & w1 & H). do 2 eexists. left. do 2 eexists. split; [exact M|]. split; [exact H|reflexivity].
  - pose proof (proj2 (refers_none rest) M) as M0. clear M. rename M0 into M.
    assert (O : exists own w1, (rest = "" /\ own = "" /\ w1 = []) \/ (rest <> "" /\ exists c, own_lines Short_ Body_ t c w1 /\ padded c own)).
    { destruct (String.eqb_spec rest "") as [->|N]; [do 2 eexists; left; now split|]. destruct (own_total Short_ Body_ t) as (c & w1 & O).
      assert (Cn : c <> "" /\ c <> String LF "").
      { destruct O as (first' & rest' & L' & O). apply lines_iff in L. apply lines_iff in L'. rewrite L in L'. injection L' as <- <-. destruct O as [(-> & _)|(_ & -> & _)]; [contradiction|].
        split; [destruct rest; discriminate|]. destruct rest as [|a rest]; [contradiction|]. intros E. injection E as _ E. destruct rest; discriminate. }
      destruct (C41_two_new_lines c (proj1 Cn) (proj2 Cn)) as (j & u & E & _). eexists _, w1. right. split; [exact N|]. exists c. split; [exact O|]. apply (padded_iff c _ (proj1 Cn) (proj2 Cn)). exact E. }
    destruct O as (own & w1 & O).
    assert (C : (forall e q z id, own = "" -> d = (e ++ q :: z)%list -> empty_nodes source e -> ~ is_reference q id) -> exists p' cs, short_content source models k t rest d p p' cs).
    { intros C. destruct (turn_total _ (content source Short_ Body_) d) as (cs & w2 & T); [intros u _; apply content_total|]. do 2 eexists. right. split; [exact M|]. exists own, w1. split; [exact O|]. right. split; [exact C|].
      do 2 eexists. split; [exact T|]. split; reflexivity. }
    destruct (String.eqb_spec own "") as [Q|Q]; [|apply C; intros e q z id E; contradiction]. destruct (reference_search d) as [(e & q & z & id & E & Em & Ne & I)|N].
    + destruct (turn_total _ (content source Short_ Body_) e) as (cs & w2 & T); [intros u _; apply content_total|]. destruct (referred_total k q id p) as (p' & w3 & H).
      do 2 eexists. right. split; [exact M|]. exists own, w1. split; [exact O|]. left. exists e, q, z, cs, id, w2, w3. split; [exact Q|]. split; [exact E|]. split; [exact Em|]. split; [exact Ne|]. split; [exact I|]. split; [exact T|]. split; [exact H|reflexivity].
    + apply C. intros e q z id _. apply N.
Qed.
Lemma short_name : forall k t rest d p p' cs, short_content source models k t rest d p p' cs -> q_name p' = q_name p.
Proof.
  intros k t rest d p p' cs [(id & w1 & _ & H & _)|(_ & own & w1 & _ & [(e & q & z & es & id & w2 & w3 & _ & _ & _ & _ & _ & _ & H & _)|(_ & c & w2 & _ & -> & _)])]; try exact (proj2 (referred_id _ _ _ _ _ _ H)). reflexivity.
Qed.
End Short.
