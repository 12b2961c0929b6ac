(** Lemmas for C78: references to models that come later, the document *)
From Verif Require Import Base StringUtility StringSpec StringProofs SignatureProofs Regex RegexSpec RegexProofs ByteBuffer ByteSpec ByteProofs Markdown MarkdownSpec MarkdownTree Keywords KeywordsSpec KeywordsProofs KeywordsOrder Prop_Keywords TypeTables Sections SectionsSpec SectionsKeys SectionsLoop SectionsUnique.
From Verif Require Import Source Headers HeadersSpec HeadersProofs Prop_Headers Payloads PayloadsSpec PayloadsText PayloadsLine PayloadsNodes PayloadsParts PayloadsLoop PayloadsShort PayloadsWhole Prop_Payloads Transactions TransactionsSpec TransactionsBase TransactionsAction TransactionsResource.
Local Open Scope string_scope.
Local Open Scope list_scope.

Section Document.
Context (source : string) (index : list N).
Context (nested : section_type -> list tree -> tree -> outcome (list annotation)) (found_none : section_type -> list tree -> bool).
Hypothesis Small : (slen source < 2 ^ 63)%N.
Hypothesis Indexed : List.length index = String.length source.
Notation fine := (PayloadsNodes.fine source).
Notation sound := (sound source).
Notation sound_examples := (sound_examples source).
Notation sound_resource := (sound_resource source).
Notation plus := (plus index).
Notation after := (after index).

(** ** late references *)
Definition check_of (k : payload_kind) : list range -> payload -> report -> outcome report := match k with Request_ => check_request index found_none | _ => check_response index end.
Lemma check_of_ok : forall k q p, k <> Model_ -> fine q -> tidy_name (q_name p) -> (k = Response_ -> q_name p <> "") ->
  exists c, checked found_none k q p c /\ forall w, check_of k (place q) p w = Val (w ++ map (shown index) c).
Proof.
  intros k q p Nk F T N. destruct (checked_total source index found_none Small Indexed k q p T) as (c & H). exists c. split; [exact H|]. intros w. destruct k; [| |contradiction]; cbn in H; cbn [check_of].
  - now apply (request_ok source index found_none Small Indexed q p c w F).
  - now apply (response_ok source index Small Indexed q p c w F T (N eq_refl)).
Qed.
Lemma late_ok : forall k p st, k <> Model_ -> sound k p -> exists p' ev, settled found_none (find_model (s_models st)) k p p' ev /\ late index (check_of k) p st = Val (p', after st (s_models st) ev).
Proof.
  intros k p st Nk (Td & Ne & Pe). unfold late. destruct (String.eqb_spec (r_id (q_reference p)) "") as [E|E]; cbn [negb andb].
  - exists p, []. split; [left; split; [intros [H _]; contradiction|now split]|]. now rewrite after_nil.
  - destruct (r_state (q_reference p)) eqn:Rs; try (exists p, []; split; [left; split; [intros [_ H]; congruence|now split]|now rewrite after_nil]).
    destruct (Pe eq_refl) as (q & F & Pq). unfold resolve. destruct (find_model (s_models st) (r_id (q_reference p))) as [m|] eqn:Fm.
    + destruct (from_total "section" q (r_id (q_reference p)) m p) as (p' & w & Fr). pose proof (from_ok source index Small Indexed UndefinedSection "section" q (r_id (q_reference p)) m p p' w (s_warnings st) eq_refl F Fr) as E1.
      change (t_map q) with (place q) in E1. rewrite Pq in E1. rewrite E1. cbn [andthen]. pose proof Fr as (hs & Ep & _). assert (Nm : q_name p' = q_name p) by (rewrite Ep; reflexivity). assert (Pl : r_place (q_reference p') = place q) by (rewrite Ep; reflexivity).
      destruct (check_of_ok k q p' Nk F ltac:(now rewrite Nm) ltac:(now rewrite Nm)) as (c & Ch & Ec). rewrite Pl. unfold with_warnings at 1. cbn [s_warnings]. rewrite Ec. cbn [andthen]. exists p', (map Warns (w ++ c)). split.
      * right. split; [now split|]. exists q, (r_id (q_reference p)), c. split; [exact Pq|]. split; [reflexivity|]. split; [exact Ch|]. right. exists m, w. now repeat split.
      * rewrite <- plus_after. unfold TransactionsBase.plus, with_warnings. cbn. now rewrite map_app, app_assoc.
    + set (p' := set_reference (Ref (r_id (q_reference p)) Unresolved (r_place (q_reference p))) p). rewrite <- Pq. rewrite (failed_ok source index Small Indexed q _ st F). cbn [andthen]. change (r_place (q_reference p')) with (r_place (q_reference p)). rewrite <- Pq.
      destruct (check_of_ok k q p' Nk F Td Ne) as (c & Ch & Ec). rewrite Ec. cbn [andthen]. exists p', (Fails ("Undefined resource model " +++ r_id (q_reference p)) (place q) :: map Warns c). split.
      * right. split; [now split|]. exists q, (r_id (q_reference p)), c. split; [exact Pq|]. split; [reflexivity|]. split; [exact Ch|]. left. split; [exact Fm|]. split; [unfold p'; now rewrite <- Pq|reflexivity].
      * change (Fails ("Undefined resource model " +++ r_id (q_reference p)) (place q) :: map Warns c) with ([Fails ("Undefined resource model " +++ r_id (q_reference p)) (place q)] ++ map Warns c).
        rewrite <- (after_app index st (s_models st)). set (st1 := after st (s_models st) [Fails ("Undefined resource model " +++ r_id (q_reference p)) (place q)]). change (s_models st) with (s_models st1). rewrite <- (plus_after index). unfold p', st1. rewrite Pq. reflexivity.
Qed.
Lemma each_ok : forall A (P : A -> Prop) (step : table -> A -> A -> list event -> Prop) f, (forall x st, P x -> exists y ev, step (find_model (s_models st)) x y ev /\ f x st = Val (y, after st (s_models st) ev)) ->
  forall l st, Forall P l -> exists r ev, each_of (step (find_model (s_models st))) l r ev /\ each f l st = Val (r, after st (s_models st) ev).
Proof.
  intros A P step f H l. induction l as [|x l IH]; intros st Fl.
  - exists [], []. split; [constructor|]. cbn. now rewrite after_nil.
  - inversion Fl as [|? ? Px Pl]; subst. destruct (H x st Px) as (y & e & S1 & E1). destruct (IH (after st (s_models st) e) Pl) as (r & g & S2 & E2). rewrite after_models in S2, E2. exists (y :: r), (e ++ g). split; [now constructor|].
    cbn [each]. rewrite E1. cbn [andthen]. rewrite E2. cbn [andthen]. now rewrite after_app.
Qed.
Lemma late_example_ok : forall e st, Forall (sound Request_) (fst e) /\ Forall (sound Response_) (snd e) ->
  exists y ev, settled_example found_none (find_model (s_models st)) e y ev /\ late_example index found_none e st = Val (y, after st (s_models st) ev).
Proof.
  intros e st [A B]. unfold late_example.
  destruct (each_ok payload (sound Request_) (fun T => settled found_none T Request_) _ (fun x st => late_ok Request_ x st ltac:(discriminate)) (fst e) st A) as (qs & ev1 & S1 & E1). change (check_of Request_) with (check_request index found_none) in E1. rewrite E1. cbn [andthen].
  destruct (each_ok payload (sound Response_) (fun T => settled found_none T Response_) _ (fun x st => late_ok Response_ x st ltac:(discriminate)) (snd e) (after st (s_models st) ev1) B) as (rs & ev2 & S2 & E2). rewrite after_models in S2, E2. change (check_of Response_) with (check_response index) in E2. rewrite E2. cbn [andthen].
  exists (qs, rs), (ev1 ++ ev2). split; [exists ev1, ev2; now repeat split|]. now rewrite after_app.
Qed.
Lemma late_action_ok : forall a st, sound_examples (a_examples a) -> exists y ev, settled_action found_none (find_model (s_models st)) a y ev /\ late_action index found_none a st = Val (y, after st (s_models st) ev).
Proof.
  intros a st H. unfold late_action. destruct (each_ok transaction _ (settled_example found_none) _ late_example_ok (a_examples a) st H) as (l & ev & S1 & E1). rewrite E1. cbn [andthen]. eexists. exists ev. split; [exists l; split; [exact S1|reflexivity]|]. reflexivity.
Qed.
Lemma late_resource_ok : forall r st, sound_resource r -> exists y ev, settled_resource found_none (find_model (s_models st)) r y ev /\ late_resource index found_none r st = Val (y, after st (s_models st) ev).
Proof.
  intros r st H. unfold late_resource. destruct (each_ok _ _ (settled_action found_none) _ late_action_ok (e_actions r) st H) as (l & ev & S1 & E1). rewrite E1. cbn [andthen]. eexists. exists ev. split; [exists l; split; [exact S1|reflexivity]|]. reflexivity.
Qed.

(** ** the resources *)
Hypothesis Nul : ~ StringSpec.has NUL source.
Hypothesis Nest : answers nested.
Definition readable_resource (l : list part) : Prop := exists k ex rest, resource_ok (Sec k l ex) rest /\ Forall (node_fits source) (nodes_of l).
Lemma take_ok : forall l rs st, Forall readable_resource l -> Forall sound_resource rs ->
  exists r ms ev, resources_say source index nested found_none rs (find_model (s_models st)) l r (find_model ms) ev /\ Forall sound_resource (rs ++ r) /\
    take_resources source index nested found_none l rs st = Val (rs ++ r, after st ms ev).
Proof.
  induction l as [|ps l IH]; intros rs st Fl Fr.
  - exists [], (s_models st), []. split; [constructor|]. rewrite app_nil_r. split; [exact Fr|]. cbn. now rewrite after_nil.
  - inversion Fl as [|? ? (k & ex & rest & Ok & Fn) Fl']; subst. destruct (resource_ok_reads source index nested found_none Small Indexed Nul Nest (Sec k ps ex) rest st Ok Fn) as (r & ms & ev & Sy & E & So & (h & Fh & H1 & H2)).
    assert (R : exists w, repeated_resource rs r h w /\ forall st, (if existsb (fun x => String.eqb (e_uri x) (e_uri r)) rs
           then warned index DuplicateWarning ("the resource '" +++ e_uri r +++ "' is already defined") (place h) st else Val st) = Val (plus st w)).
    { destruct (existsb (fun x => String.eqb (e_uri x) (e_uri r)) rs) eqn:D.
      - eexists. split; [left; split; [|reflexivity]|intros st'; now apply (warned_ok source index Small Indexed h)]. apply existsb_exists in D as (q & I1 & Q). exists q. split; [exact I1|]. now apply String.eqb_eq.
      - exists []. split; [right; split; [|reflexivity]|intros; now rewrite plus_nil]. intros q I1 Q. assert (existsb (fun x => String.eqb (e_uri x) (e_uri r)) rs = true); [|congruence]. apply existsb_exists. exists q. split; [exact I1|now apply String.eqb_eq]. }
    destruct R as (w & R & Ew). destruct (IH (rs ++ [r]) (plus (after st ms ev) w) Fl') as (rs2 & ms2 & f & S2 & F2 & E2); [apply Forall_app; split; [exact Fr|]; constructor; [exact So|constructor]|].
    rewrite plus_models, after_models in S2. exists (r :: rs2), ms2, (ev ++ map Warns w ++ f). rewrite <- app_assoc in F2, E2. cbn [app] in F2, E2. split; [now apply (resources_more source index nested found_none rs _ ps l r rs2 h (find_model ms))|]. split; [exact F2|].
    cbn [take_resources]. unfold take_resource. rewrite E. cbn [andthen]. rewrite H2, Ew. cbn [andthen]. rewrite E2. now rewrite plus_after, !after_app.
Qed.
Lemma in_order_each : forall rule done ps rest, in_order rule done ps rest -> Forall (fun p => exists d r, rule d p r) ps.
Proof. intros rule done ps rest H. induction H as [|done p ps rest R _ IH]; constructor; [|exact IH]. now exists done, (nodes_of ps ++ rest). Qed.
Lemma nodes_in : forall P ps p, Forall P (nodes_of ps) -> In p ps -> Forall P (part_nodes p).
Proof. intros P ps p F I1. unfold nodes_of in F. rewrite Forall_flat_map, Forall_forall in F. now apply F. Qed.
Lemma resources_found : forall base ps, document_ok base (Sec BlueprintSection ps []) -> Forall (node_fits source) (nodes_of ps) -> Forall readable_resource (resources_in ps).
Proof.
  intros base ps (m & o & d & qs & E & _ & Op & _ & _ & Or) Fit. injection E as ->. apply Forall_forall. intros l I1. unfold resources_in in I1. apply in_flat_map in I1 as (x & I1 & I2).
  assert (Fx := nodes_in _ _ _ Fit I1). rewrite !in_app_iff in I1. destruct I1 as [I1|[I1|[I1|I1]]].
  - apply in_map_iff in I1 as (t & <- & _). destruct I2.
  - destruct Op as [(-> & _)|[(h & -> & _)|(t & -> & _)]]; [destruct I1|destruct I1 as [<-|[]]; destruct I2..].
  - apply in_map_iff in I1 as (t & <- & _). destruct I2.
  - pose proof (in_order_each _ _ _ _ Or) as Fo. rewrite Forall_forall in Fo. destruct (Fo x I1) as (dn & rest & R). destruct x as [t|t|t|ty t|t|t|s]; try destruct I2. cbn in R. destruct R as [[_ R]|[R|R]].
    + destruct s as [k ls ex]. assert (k = ResourceSection) as -> by (destruct R as [(a & h & R & _)|(h & d' & q & R & _)]; congruence). destruct I2 as [->|[]]. exists ResourceSection, ex, rest. now split.
    + destruct R as (h & d' & q & -> & _ & _ & Og & _). cbn in I2. rewrite flat_map_app in I2. apply in_app_iff in I2 as [I2|I2].
      { apply in_flat_map in I2 as (y & I2 & I3). apply in_map_iff in I2 as (t & <- & _). destruct I3. }
      apply in_flat_map in I2 as (y & I2 & I3). pose proof (in_order_each _ _ _ _ Og) as Fg. rewrite Forall_forall in Fg. destruct (Fg y I2) as (dn' & rest' & R). destruct y as [t|t|t|ty t|t|t|s]; try destruct I3. cbn in R. destruct R as [_ R].
      destruct s as [k ls ex]. assert (k = ResourceSection) as -> by (destruct R as [(a & h' & R & _)|(h' & d'' & q' & R & _)]; congruence). destruct I3 as [->|[]]. exists ResourceSection, ex, rest'. split; [exact R|].
      apply (nodes_in _ (Head h :: map Text d' ++ q) (Sub (Sec ResourceSection l ex)) Fx). right. apply in_app_iff. now right.
    + destruct R as (h & q & -> & _). destruct I2.
Qed.
Theorem document_reads : forall base ps, document_ok base (Sec BlueprintSection ps []) -> Forall (node_fits source) (nodes_of ps) ->
  exists rs T ms ev, document_says source index nested found_none ps rs T ev /\ (forall i, T i = find_model ms i) /\ read_document source index nested found_none ps = Val (rs, State ms (last_error index ev) (warnings index ev)).
Proof.
  intros base ps Ok Fit. pose proof (resources_found base ps Ok Fit) as Fr. destruct (take_ok (resources_in ps) [] no_state Fr (Forall_nil _)) as (rs0 & ms & e & Sy & So & E). cbn [app] in So, E.
  destruct (each_ok resource sound_resource (settled_resource found_none) _ late_resource_ok rs0 (after no_state ms e) So) as (rs & f & S2 & E2). rewrite after_models in S2, E2.
  exists rs, (find_model ms), ms, (e ++ f). split; [|split; [reflexivity|]].
  - exists rs0, e, f. split; [exact Sy|]. split; [exact S2|reflexivity].
  - unfold read_document. change (flat_map resource_of ps) with (resources_in ps). rewrite E. cbn [andthen]. rewrite E2, after_app. reflexivity.
Qed.
End Document.
