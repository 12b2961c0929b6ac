(** Lemmas for C85: what is read is what the specification says, and it says something of every document that has an outline *)
From Verif Require Import Base StringUtility StringSpec StringProofs SignatureProofs Regex RegexSpec RegexProofs ByteBuffer ByteSpec ByteProofs Markdown MarkdownSpec Keywords KeywordsSpec KeywordsProofs KeywordsOrder Prop_Keywords Prop_Strings RegexCaps TypeTables Sections SectionsSpec SectionsKeys SectionsMeta SectionsParts SectionsKinds.
From Verif Require Import Source Headers HeadersSpec Payloads PayloadsSpec PayloadsText PayloadsNodes Transactions TransactionsSpec Preface PrefaceSpec PrefaceText PrefaceWhole PrefaceTotal Relations RelationsSpec RelationsText.
Local Open Scope string_scope.
Local Open Scope list_scope.

Section Whole.
Context (source : string) (index : list N).
Hypothesis Small : (slen source < 2 ^ 63)%N.
Hypothesis Indexed : List.length index = String.length source.
Notation fine := (PayloadsNodes.fine source).
Notation within := (PayloadsNodes.within source).
Notation say := (map (shown index)).

(** ** the nodes, and those in them *)
Definition deep (t : tree) : Prop := fine t /\ within t.
Lemma fine_of : forall t, deep t -> fine t. Proof. now intros t []. Qed.
Lemma deep_fine : forall l, Forall deep l -> Forall fine l.
Proof. intros l. apply Forall_impl. exact fine_of. Qed.
Lemma deep_app : forall a b, Forall deep (nodes_of (a ++ b)) -> Forall deep (nodes_of a) /\ Forall deep (nodes_of b).
Proof. intros a b. rewrite nodes_two. apply Forall_app. Qed.
Lemma deep_texts : forall d r, Forall deep (nodes_of (map Text d ++ r)) -> Forall deep d /\ Forall deep (nodes_of r).
Proof. intros d r. rewrite nodes_texts. apply Forall_app. Qed.
Lemma deep_head : forall h l, Forall deep (nodes_of (Head h :: l)) -> Forall deep (nodes_of l).
Proof. intros h l H. unfold nodes_of in H. cbn in H. now inversion H. Qed.
Lemma deep_sub : forall k ps ex l, Forall deep (nodes_of (Sub (Sec k ps ex) :: l)) -> Forall deep (nodes_of ps) /\ Forall deep (nodes_of l).
Proof. intros k ps ex l H. unfold nodes_of in H. cbn in H. now apply Forall_app in H. Qed.
Lemma deep_more : forall x l, Forall deep (nodes_of (x :: l)) -> Forall deep (nodes_of l).
Proof. intros x l H. change (x :: l) with ([x] ++ l) in H. now apply deep_app in H as []. Qed.
Lemma deep_listed : forall ty t l, Forall deep (nodes_of (Listed ty t :: l)) -> deep t.
Proof. intros ty t l H. unfold nodes_of in H. cbn in H. now inversion H. Qed.
Lemma deep_group : forall l, Forall deep (nodes_of l) -> Forall (fun q => Forall deep (nodes_of q)) (flat_map (fun y => match y with Sub (Sec ResourceSection q _) => [q] | _ => [] end) l).
Proof.
  induction l as [|x l IH]; intros H; [constructor|]. cbn [flat_map]. apply Forall_app. split; [|exact (IH (deep_more _ _ H))].
  destruct x as [t|t|t|ty t|t|t|[k ps ex]]; try constructor. destruct k; try constructor; [|constructor]. exact (proj1 (deep_sub _ _ _ _ H)).
Qed.
Lemma deep_resources : forall l, Forall deep (nodes_of l) -> Forall (fun q => Forall deep (nodes_of q)) (flat_map resource_of l).
Proof.
  induction l as [|x l IH]; intros H; [constructor|]. cbn [flat_map]. apply Forall_app. split; [|exact (IH (deep_more _ _ H))].
  destruct x as [t|t|t|ty t|t|t|[k ps ex]]; try constructor. destruct (deep_sub _ _ _ _ H) as [D _]. destruct k; try constructor; [exact (deep_group _ D)|exact D|constructor].
Qed.

(** ** relations *)
Lemma relation_ok : forall item old rel cs w, deep item -> relation_says item old rel cs -> parse_relation index item old w = Val (rel, w ++ say cs).
Proof.
  intros item old rel cs w [_ D] (t & r & first & rest & l & u & w1 & w2 & O & L & T & B & H & A & ->). unfold parse_relation. rewrite (opens_of item t r O). cbn [andthen].
  destruct (opens_fine source item t r O D) as [Ft Fr]. pose proof (relation_found t first rest l u L T B) as F. destruct (relation_of (t_text t)) as [n|].
  - destruct H as [[R ->]|(N & _)]; [|elim (N n F)]. rewrite (relation_line_unique u n rel F R). cbn [andthen app]. rewrite (all_ignored_of source index Small Indexed r w2 w Fr A). reflexivity.
  - destruct H as [[R _]|(_ & -> & ->)]; [elim (F rel R)|]. unfold FormattingWarning, relation_message. rewrite (warn_said source index Small Indexed) by exact Ft. cbn [andthen]. rewrite (all_ignored_of source index Small Indexed r w2 _ Fr A).
    cbn [andthen]. now rewrite map_app, app_assoc.
Qed.
Lemma relation_total : forall P item old, deep item -> item_says P item -> exists rel cs, relation_says item old rel cs.
Proof.
  intros P item old [_ D] I. destruct (opens_total source P item I D) as (t & r & O). destruct (all_ignored_total r) as (w2 & A).
  destruct (first_line (the_text t) "") as [first rest] eqn:E. apply PayloadsText.lines_iff in E. assert (T : PayloadsSpec.trims first (trim first)) by now apply trims_is.
  assert (B : before "000" (trim first) (c_text (trim first))) by now apply before_c_text. pose proof (relation_found t first rest _ _ E T B) as F. destruct (relation_of (t_text t)) as [n|].
  - exists n, ([] ++ w2). exists t, r, first, rest, (trim first), (c_text (trim first)), [], w2. repeat (split; [assumption|]). split; [now left|]. split; [exact A|reflexivity].
  - eexists old, (_ ++ w2). exists t, r, first, rest, (trim first), (c_text (trim first)). eexists _, w2. repeat (split; [assumption|]). split; [right; split; [exact F|split; reflexivity]|]. split; [exact A|reflexivity].
Qed.

(** ** actions *)
Lemma skip_word : forall x a w, ~ a_relation x -> ~ a_description x -> action_word source index x a w = Val (a, w).
Proof. intros [t|t|t|ty t|t|t|s] a w R D; try reflexivity; [elim D; now exists t|]. destruct ty; try reflexivity. elim R. now exists t. Qed.
Lemma relations_ok : forall a ps c cs, relations_say a ps c cs -> forall d w, Forall deep (nodes_of ps) -> action_wording source index ps (ActionWords d a) w = Val (ActionWords d c, w ++ say cs).
Proof.
  intros a ps c cs H. induction H as [rel|a b c t r w1 w2 R H IH|a c x r w1 R D H IH]; intros d w F.
  - cbn. now rewrite app_nil_r.
  - cbn [action_wording action_word i_relation i_description]. rewrite (relation_ok t a b w1 w (deep_listed _ _ _ F) R). cbn [andthen]. rewrite (IH d _ (deep_more _ _ F)). now rewrite map_app, app_assoc.
  - cbn [action_wording]. rewrite (skip_word x _ w R D). cbn [andthen]. exact (IH d w (deep_more _ _ F)).
Qed.
Lemma action_texts : forall d s e, Forall fine d -> not_a_line s -> description source s d e -> forall r rel w,
  action_wording source index (map Text d ++ r) (ActionWords s rel) w = action_wording source index r (ActionWords e rel) w.
Proof.
  induction d as [|t d IH]; intros s e F N D r rel w.
  - inversion D; subst. reflexivity.
  - inversion F as [|t0 d0 F1 F2]; subst. destruct (one_text source index Small Indexed t s F1 N) as (c & E & Nc & K). apply K in D. cbn [map app action_wording action_word i_description i_relation]. rewrite E. cbn [andthen]. now apply IH.
Qed.
Lemma action_ok_words : forall ps a cs w, action_tells source ps a cs -> Forall deep (nodes_of ps) -> action_wording source index ps (ActionWords "" "") w = Val (a, w ++ say cs).
Proof.
  intros ps a cs w (h & d & r & -> & D & R) F. apply deep_head in F. apply deep_texts in F as [Fd Fr]. cbn [action_wording action_word andthen].
  rewrite (action_texts d "" (i_description a) (deep_fine d Fd) empty_line D). rewrite (relations_ok _ _ _ _ R _ _ Fr). now destruct a.
Qed.
(** ** resources *)
Lemma skip_resource : forall uri x r w, (forall s, x <> Sub s) -> ~ a_description x -> resource_word source index uri x r w = Val (r, w).
Proof. intros uri [t|t|t|ty t|t|t|s] r w S D; try reflexivity; [elim D; now exists t|elim (S s eq_refl)]. Qed.
Lemma known_same : forall l a, relation_known l (i_relation a) = true <-> same_relation l a.
Proof.
  intros l a. unfold relation_known, same_relation. rewrite existsb_exists. split.
  - intros (b & I & E). apply andb_true_iff in E as [E E3]. apply andb_true_iff in E as [_ E2]. apply String.eqb_eq in E3. split; [|now exists b]. intros Z. now rewrite Z in E2.
  - intros (N & b & I & E). exists b. split; [exact I|]. rewrite E, String.eqb_refl. destruct (String.eqb_spec (i_relation a) ""); [contradiction|reflexivity].
Qed.
Lemma repeated_relation_ok : forall uri b ps a cs w, Forall deep (nodes_of ps) -> repeated_relation uri b ps a cs ->
  (if relation_known b (i_relation a) then warn index DuplicateWarning ("relation identifier '" +++ i_relation a +++ "' already defined for resource '" +++ uri +++ "'") (first_map ps) w else Val w) = Val (w ++ say cs).
Proof.
  intros uri b ps a cs w F [(K & h & r & -> & ->)|(K & ->)].
  - rewrite (proj2 (known_same b a) K). unfold nodes_of in F. cbn [flat_map part_nodes app] in F. inversion F as [|t0 r0 F1 F2]; subst. cbn [first_map]. unfold DuplicateWarning. now rewrite (warn_said source index Small Indexed) by exact (fine_of h F1).
  - destruct (relation_known b (i_relation a)) eqn:E; [elim K; now apply known_same|]. cbn. now rewrite app_nil_r.
Qed.
Lemma repeated_relation_total : forall uri b h r a, exists cs, repeated_relation uri b (Head h :: r) a cs.
Proof.
  intros uri b h r a. destruct (relation_known b (i_relation a)) eqn:E.
  - apply known_same in E. eexists. left. split; [exact E|]. do 2 eexists. split; reflexivity.
  - exists []. right. split; [|reflexivity]. intros K. apply known_same in K. congruence.
Qed.
Lemma actions_ok : forall uri b ps l cs, actions_tell source uri b ps l cs -> forall d w, Forall deep (nodes_of ps) -> resource_wording source index uri ps (ResourceWords d b) w = Val (ResourceWords d (b ++ l), w ++ say cs).
Proof.
  intros uri b ps l cs H. induction H as [b|b k ps ex r a l w1 w3 w2 A K H IH|b x r l w1 S D H IH]; intros d w F.
  - cbn. now rewrite !app_nil_r.
  - apply deep_sub in F as [F1 F2]. cbn [resource_wording resource_word]. rewrite (action_ok_words ps a w1 w A F1). cbn [andthen j_description j_actions]. rewrite (repeated_relation_ok uri b ps a w3 _ F1 K). cbn [andthen]. rewrite (IH d _ F2). now rewrite !map_app, <- !app_assoc.
  - cbn [resource_wording]. rewrite (skip_resource uri x _ w S D). cbn [andthen]. exact (IH d w (deep_more _ _ F)).
Qed.
Lemma resource_texts : forall uri d s e, Forall fine d -> not_a_line s -> description source s d e -> forall r l w,
  resource_wording source index uri (map Text d ++ r) (ResourceWords s l) w = resource_wording source index uri r (ResourceWords e l) w.
Proof.
  intros uri. induction d as [|t d IH]; intros s e F N D r l w.
  - inversion D; subst. reflexivity.
  - inversion F as [|t0 d0 F1 F2]; subst. destruct (one_text source index Small Indexed t s F1 N) as (c & E & Nc & K). apply K in D. cbn [map app resource_wording resource_word j_description j_actions]. rewrite E. cbn [andthen]. now apply IH.
Qed.
Lemma resource_ok_words : forall ps r cs w, resource_tells source ps r cs -> Forall deep (nodes_of ps) -> resource_wording source index (resource_path ps) ps (ResourceWords "" []) w = Val (r, w ++ say cs).
Proof.
  intros ps r cs w (uri & P & H) F. rewrite (path_ok ps uri P). clear P. destruct H as [[E A]|(h & d & l & -> & D & A)].
  - rewrite (actions_ok uri [] ps _ _ A "" w F), <- E. now destruct r.
  - apply deep_head in F. apply deep_texts in F as [Fd Fl]. cbn [resource_wording resource_word andthen].
    rewrite (resource_texts uri d "" (j_description r) (deep_fine d Fd) empty_line D). rewrite (actions_ok uri [] _ _ _ A _ _ Fl). now destruct r.
Qed.
Lemma resources_ok : forall l rs cs, resources_tell source l rs cs -> forall w, Forall (fun q => Forall deep (nodes_of q)) l -> wordings source index l w = Val (rs, w ++ say cs).
Proof.
  intros l rs cs H. induction H as [|ps l r rs w1 w2 R H IH]; intros w F.
  - cbn. now rewrite app_nil_r.
  - inversion F as [|q0 l0 F1 F2]; subst. cbn [wordings]. rewrite (resource_ok_words ps r w1 w R F1). cbn [andthen]. rewrite (IH _ F2). cbn [andthen]. now rewrite map_app, app_assoc.
Qed.

(** ** totality *)
Lemma relation_item : forall t, action_item RelationSection t -> item_says reads_relation t.
Proof.
  intros t [[_ H]|[[[E _]|[[E _]|[E _]]]|[(_ & [[E _]|[E _]])|(_ & [[E _]|[E _]])]]]; try discriminate. exact H.
Qed.
Lemma relations_total : forall done ps rest, in_order action_rule done ps rest -> forall a, Forall deep (nodes_of ps) -> exists c cs, relations_say a ps c cs.
Proof.
  intros done ps rest H. induction H as [done rest|done p ps rest R H IH]; intros a F; [do 2 eexists; constructor|]. pose proof (deep_more _ _ F) as F2.
  assert (K : (exists t, p = Listed RelationSection t) \/ (~ a_relation p /\ ~ a_description p)).
  { destruct p as [t|t|t|ty t|t|t|s]; cbn in R; try contradiction; try (right; split; intros (u & E); discriminate).
    destruct ty; first [left; now exists t|right; split; intros (u & E); discriminate]. }
  destruct K as [(t & ->)|[K1 K2]].
  - cbn in R. destruct (relation_total _ t a (deep_listed _ _ _ F) (relation_item t R)) as (b & w1 & S1). destruct (IH b F2) as (c & w2 & S2). do 2 eexists. econstructor; eassumption.
  - destruct (IH a F2) as (c & w2 & S2). do 2 eexists. now apply relations_skip; [..|eassumption].
Qed.
Lemma action_total : forall s rest, action_ok s rest -> Forall deep (section_nodes s) -> exists k h ps ex a cs, s = Sec k (Head h :: ps) ex /\ action_tells source (Head h :: ps) a cs.
Proof.
  intros s rest (h & d & ps & ex & -> & _ & _ & O & _) F. cbn [section_nodes] in F. fold (nodes_of (Head h :: map Text d ++ ps)) in F. pose proof (deep_head _ _ F) as G. apply deep_texts in G as [Fd Fr].
  destruct (description_some source index Small Indexed d "" (deep_fine d Fd) empty_line) as (x & D). destruct (relations_total _ _ _ O "" Fr) as (c & cs & R).
  do 4 eexists. exists (ActionWords x c), cs. split; [reflexivity|]. exists h, d, ps. now split.
Qed.
Lemma actions_total : forall done ps rest, in_order resource_rule done ps rest -> forall uri b, Forall deep (nodes_of ps) -> exists l cs, actions_tell source uri b ps l cs.
Proof.
  intros done ps rest H. induction H as [done rest|done p ps rest R H IH]; intros uri b F; [do 2 eexists; constructor|]. pose proof (deep_more _ _ F) as F2.
  assert (K : (exists s, p = Sub s) \/ ((forall s, p <> Sub s) /\ ~ a_description p)).
  { destruct p as [t|t|t|ty t|t|t|s]; cbn in R; try contradiction; try (right; split; [intros s; discriminate|intros (u & E); discriminate]). left. now exists s. }
  destruct K as [(s & ->)|[K1 K2]].
  - destruct R as [_ R]. unfold nodes_of in F. cbn [flat_map part_nodes] in F. apply Forall_app in F as [F _]. destruct (action_total s _ R F) as (k & h & qs & ex & a & w1 & -> & A1). destruct (repeated_relation_total uri b h qs a) as (w3 & A3). destruct (IH uri (b ++ [a]) F2) as (l & cs & A). do 2 eexists. econstructor; eassumption.
  - destruct (IH uri b F2) as (l & cs & A). do 2 eexists. now apply actions_skip; [..|eassumption].
Qed.
Lemma words_total : forall s rest, resource_ok s rest -> Forall deep (section_nodes s) -> exists ps ex r cs, s = Sec ResourceSection ps ex /\ resource_tells source ps r cs.
Proof.
  intros s rest [(a & h & -> & _ & _ & A)|(h & d & ps & -> & _ & _ & _ & O & _)] F; cbn [section_nodes] in F.
  - cbn [flat_map part_nodes] in F. rewrite app_nil_r in F. destruct (action_total a _ A F) as (k & h' & ps & ex & x & w & -> & T). do 2 eexists. exists (ResourceWords "" [x]), (w ++ [] ++ []). split; [reflexivity|].
    eexists. split; [eexists h', _; split; [reflexivity|right; do 3 eexists; reflexivity]|]. left. split; [reflexivity|].
    cbn [j_actions]. econstructor; [exact T|right; split; [intros (_ & y & [] & _)|reflexivity]|constructor].
  - fold (nodes_of (Head h :: map Text d ++ ps)) in F. pose proof (deep_head _ _ F) as G. apply deep_texts in G as [Fd Fr].
    destruct (description_some source index Small Indexed d "" (deep_fine d Fd) empty_line) as (x & D). destruct (actions_total _ _ _ O (snd (resource_header h)) [] Fr) as (l & cs & A).
    do 2 eexists. exists (ResourceWords x l), cs. split; [reflexivity|]. exists (snd (resource_header h)). split; [eexists h, _; split; [reflexivity|now left]|]. right. exists h, d, ps. now split.
Qed.
Lemma tell_app : forall a b rs rs' w w', resources_tell source a rs w -> resources_tell source b rs' w' -> resources_tell source (a ++ b) (rs ++ rs') (w ++ w').
Proof.
  intros a b rs rs' w w' H. revert b rs' w'. induction H as [|ps l r rs w1 w2 R H IH]; intros b rs' w' K; [exact K|]. cbn [app]. rewrite <- app_assoc. constructor; [exact R|now apply IH].
Qed.
Lemma tell_one : forall ps r w, resource_tells source ps r w -> resources_tell source [ps] [r] w.
Proof. intros ps r w H. rewrite <- (app_nil_r w). constructor; [exact H|constructor]. Qed.
Lemma group_tells : forall done ps rest, in_order group_rule done ps rest -> Forall deep (nodes_of ps) ->
  exists rs cs, resources_tell source (flat_map (fun y => match y with Sub (Sec ResourceSection q _) => [q] | _ => [] end) ps) rs cs.
Proof.
  intros done ps rest H. induction H as [done rest|done p ps rest R H IH]; intros F; [do 2 eexists; constructor|]. destruct (IH (deep_more _ _ F)) as (rs & cs & A).
  destruct p as [t|t|t|ty t|t|t|s]; cbn in R; try contradiction.
  - exists rs, cs. exact A.
  - destruct R as [_ R]. unfold nodes_of in F. cbn [flat_map part_nodes] in F. apply Forall_app in F as [F _]. destruct (words_total s _ R F) as (qs & ex & r & w1 & -> & A1). do 2 eexists. cbn [flat_map app]. econstructor; [exact A1|exact A].
Qed.
Lemma no_texts : forall d, flat_map (fun y => match y with Sub (Sec ResourceSection q _) => [q] | _ => [] end) (map Text d) = @nil (list part).
Proof. induction d; [reflexivity|assumption]. Qed.
Lemma document_tells : forall base done ps rest, in_order (document_rule base) done ps rest -> Forall deep (nodes_of ps) -> exists rs cs, resources_tell source (flat_map resource_of ps) rs cs.
Proof.
  intros base done ps rest H. induction H as [done rest|done p ps rest R H IH]; intros F; [do 2 eexists; constructor|]. destruct (IH (deep_more _ _ F)) as (rs & cs & A).
  destruct p as [t|t|t|ty t|t|t|s]; cbn in R; try contradiction; [exists rs, cs; exact A|]. unfold nodes_of in F. cbn [flat_map part_nodes] in F. apply Forall_app in F as [F _].
  destruct R as [[_ R]|[R|R]].
  - destruct (words_total s _ R F) as (qs & ex & r & w1 & -> & A1). do 2 eexists. cbn [flat_map resource_of app]. econstructor; [exact A1|exact A].
  - destruct R as (h & d & qs & -> & _ & _ & O & _). cbn [section_nodes] in F. fold (nodes_of (Head h :: map Text d ++ qs)) in F. pose proof (deep_head _ _ F) as G. apply deep_texts in G as [_ G]. destruct (group_tells _ _ _ O G) as (rs1 & w1 & A1).
    do 2 eexists. cbn [flat_map resource_of app]. rewrite flat_map_app, no_texts. cbn [app]. eapply tell_app; [exact A1|exact A].
  - destruct R as (h & qs & -> & _). exists rs, cs. exact A.
Qed.
Lemma all_told : forall base ps, document_ok base (Sec BlueprintSection ps []) -> Forall deep (nodes_of ps) -> exists rs cs, resources_tell source (flat_map resource_of ps) rs cs.
Proof.
  intros base ps (m & o & d & r & E & _ & O & _ & _ & R) F. injection E as ->. rewrite !nodes_two in F. apply Forall_app in F as [_ F]. apply Forall_app in F as [_ F]. apply Forall_app in F as [_ F].
  destruct (document_tells base _ _ _ R F) as (rs & cs & A). exists rs, cs. rewrite !flat_map_app.
  assert (Em : flat_map resource_of (map Meta m) = []) by (clear; induction m; [reflexivity|assumption]). assert (Et : flat_map resource_of (map Text d) = []) by (clear; induction d; [reflexivity|assumption]).
  rewrite Em, Et. replace (flat_map resource_of o) with (@nil (list part)) by (destruct O as [(-> & _)|[(h & -> & _)|(u & -> & _)]]; reflexivity). exact A.
Qed.
End Whole.
