(** Property C86: the parameters of resources and actions *)
From Verif Require Import Base StringUtility StringSpec StringProofs ByteBuffer ByteSpec Markdown MarkdownSpec Keywords KeywordsSpec TypeTables SourceMap Mson TypeDefs TypeDefsSpec MembersTree MembersSpec MembersRead MembersLeaves MembersParts MembersWhole MembersEnds Prop_Members
  Params ParamsSpec ParamsRead ParamsWhole ParamsEnds Prop_Params Given GivenSpec GivenWhole.
From Verif Require Sections SectionsSpec Prop_Sections Transactions TransactionsSpec Payloads PayloadsSpec Blueprint Prop_Relations Relations RelationsSpec Prop_Preface Prop_Payloads.
Import PayloadsSpec(the_text, place, opens, lines).
Import Sections(part, Head, Text, Listed, Sub, Sec, outline).
Import SectionsSpec(part_nodes).
Import Transactions(action_signature, resource_header, resource_of).
Import Blueprint(parameter, Param, pa_name, UndefinedUse).
Local Open Scope string_scope.

(** documents: blocks inside the source, nested no deeper than the fuel *)
Definition readable_given (source : string) (fuel : nat) (nodes : list tree) : Prop :=
  (slen source < 2 ^ 64)%N /\ Forall one_line nodes /\ Forall (fun t => depth t <= S (S fuel) /\ within_source source t) nodes.
(** the parts of its resources, in or out of groups *)
Import TransactionsSpec(resources_in).
Lemma given_outline : forall source fuel inside base nodes ps rest, readable_given source fuel nodes -> outline inside base nodes = Val (Sec BlueprintSection ps [], rest) ->
  Forall (fun t => depth t <= S (S fuel) /\ within_source source t) (nodes_of ps).
Proof.
  intros source fuel inside base nodes ps rest (_ & One & F) E. destruct (Prop_Sections.C76_outline _ _ _ _ _ One E) as (_ & En & _). cbn [SectionsSpec.section_nodes] in En. fold (nodes_of ps) in En. now rewrite En.
Qed.
(** ** C86: the parameters of all resources and actions and the remarks about them are as specified, in order; for every document that has an outline (C76) and every state before *)
Theorem C86_document : forall source fuel inside base nodes ps rest s gs s', readable_given source fuel nodes -> outline inside base nodes = Val (Sec BlueprintSection ps [], rest) ->
  (read_given source fuel ps s = Val (gs, s') <-> exists e, all_parameters (bases (s_tables s)) source (resources_in ps) gs e /\ s' = perform e s).
Proof.
  intros source fuel inside base nodes ps rest s gs s' Rd E. pose proof (given_outline _ _ _ _ _ _ _ Rd E) as D. destruct Rd as (Small & _).
  exact (all_reads (bases (s_tables s)) source Small fuel _ (resources_nodes _ _ D) s gs s' eq_refl).
Qed.
Print Assumptions C86_document.
(** reading ends *)
Theorem C86_ends : forall source fuel inside base nodes ps rest s, readable_given source fuel nodes -> outline inside base nodes = Val (Sec BlueprintSection ps [], rest) -> read_given source fuel ps s <> Endless.
Proof.
  intros source fuel inside base nodes ps rest s Rd E. pose proof (resources_nodes _ _ (given_outline _ _ _ _ _ _ _ Rd E)) as D. unfold read_given. apply ends_steps. intros qs gs s0 I. apply ends_bind; [|intros [g s1] _; discriminate].
  apply ends_resource. rewrite Forall_forall in D. specialize (D qs I). revert D. apply Forall_impl. now intros t [].
Qed.
Print Assumptions C86_ends.

(** ** which parameters: an action has those of all its items, of one name the one defined last; a resource has those of each of its items, of one name in an item the one defined last there *)
Definition items_of (ps : list part) : list tree := flat_map (fun x => match x with Listed ParametersSection t => [t] | _ => [] end) ps.
Definition actions_in (ps : list part) : list (list part) := flat_map (fun x => match x with Sub (Sec _ qs _) => [qs] | _ => [] end) ps.
Definition item_defines (known : list (string * base_type)) (source : string) (item : tree) (ds : list parameter) : Prop := exists t r, opens item t r /\ defined known source "" r ds.
Definition action_has (known : list (string * base_type)) (source : string) (ps : list part) (l : list parameter) : Prop :=
  exists dss, Forall2 (item_defines known source) (items_of ps) dss /\ l = lasting (List.concat dss).
Definition resource_has (known : list (string * base_type)) (source : string) (ps : list part) (g : given) : Prop :=
  (exists dss, Forall2 (item_defines known source) (items_of ps) dss /\ g_parameters g = List.concat (map lasting dss)) /\ Forall2 (action_has known source) (actions_in ps) (g_actions g).
Section Laws.
Context (known : list (string * base_type)) (source : string).
Lemma listed_items : forall t r, items_of (Listed ParametersSection t :: r) = t :: items_of r.
Proof. reflexivity. Qed.
Lemma skipped_items : forall x r, ~ a_list x -> items_of (x :: r) = items_of r.
Proof. intros [t|t|t|ty t|t|t|s] r N; try reflexivity. destruct ty; try reflexivity. elim N. now exists t. Qed.
Lemma list_action : forall x r, a_list x -> actions_in (x :: r) = actions_in r.
Proof. intros x r (t & ->). reflexivity. Qed.
Lemma action_lasting : forall r l l' e, in_steps (action_part known source) r l l' e -> forall a, l = lasting a -> exists dss, Forall2 (item_defines known source) (items_of r) dss /\ l' = lasting (a ++ List.concat dss)%list.
Proof.
  intros r l l' e H. induction H as [l|x r l l1 l2 e1 e2 S1 H IH]; intros a E.
  - exists []. split; [constructor|]. cbn. now rewrite app_nil_r.
  - destruct S1 as [t l3 e3 -> M|N].
    + destruct M as [t' r' first rest l3 e3 O _ N]. destruct (nodes_lasting known source "" _ _ _ _ N a E) as (ds & D & E'). destruct (IH _ E') as (dss & F & ->). exists (ds :: dss). rewrite listed_items.
      split; [constructor; [now exists t', r'|exact F]|]. cbn [List.concat]. now rewrite app_assoc.
    + destruct (IH a E) as (dss & F & ->). exists dss. rewrite (skipped_items x r N). auto.
Qed.
Lemma action_known : forall ps l e, action_parameters known source ps l e -> action_has known source ps l.
Proof.
  intros ps l e (h & r & name & method & uri & e1 & e2 & -> & _ & H & _). destruct (action_lasting _ _ _ _ H [] eq_refl) as (dss & F & E). exists dss. split; [exact F|exact E].
Qed.
Lemma resource_lasting : forall uri name r g g' e, in_steps (resource_part known source uri name) r g g' e ->
  (exists dss, Forall2 (item_defines known source) (items_of r) dss /\ g_parameters g' = (g_parameters g ++ List.concat (map lasting dss))%list) /\
  (exists ls, Forall2 (action_has known source) (actions_in r) ls /\ g_actions g' = (g_actions g ++ ls)%list).
Proof.
  intros uri name r g g' e H. induction H as [g|x r g g1 g2 e1 e2 S1 H [(dss & F & E) (ls & G & K)]].
  - split; exists []; rewrite app_nil_r; (split; [constructor|reflexivity]).
  - destruct S1 as [t l e3 e4 -> P _|k h q ex own_name method own l e3 e4 -> A _ _|N1 N2]; cbn [g_parameters g_actions] in E, K.
    + split.
      * apply C81_last in P as (t' & r' & ds & O & D & ->). exists (ds :: dss). split; [constructor; [now exists t', r'|exact F]|]. cbn [map List.concat]. now rewrite app_assoc.
      * exists ls. split; [exact G|exact K].
    + split; [exists dss; auto|]. exists (l :: ls). split; [constructor; [exact (action_known _ _ _ A)|exact G]|]. now rewrite K, <- app_assoc.
    + rewrite (skipped_items x r N1). split; [exists dss; auto|]. exists ls. split; [|exact K]. destruct x as [t|t|t|ty t|t|t|s]; try exact G. now elim (N2 s).
Qed.
Lemma resource_known : forall ps g e, resource_parameters known source ps g e -> resource_has known source ps g.
Proof.
  intros ps g e H. destruct H as [h r name uri g e Hd H|k qs ex l e A].
  - apply resource_lasting in H as [(dss & F & E) (ls & G & K)]. cbn [g_parameters g_actions app] in E, K. split; [exists dss; auto|now rewrite K].
  - split; [exists []; split; [constructor|reflexivity]|]. constructor; [exact (action_known _ _ _ A)|constructor].
Qed.
End Laws.
Theorem C86_defined : forall source fuel inside base nodes ps rest s gs s', readable_given source fuel nodes -> outline inside base nodes = Val (Sec BlueprintSection ps [], rest) ->
  read_given source fuel ps s = Val (gs, s') -> Forall2 (resource_has (bases (s_tables s)) source) (resources_in ps) gs.
Proof.
  intros source fuel inside base nodes ps rest s gs s' Rd E H. apply (C86_document _ _ _ _ _ _ _ _ _ _ Rd E) in H as (e & H & _). clear - H. induction H as [|qs l g gs e e' R H IH]; constructor; [|exact IH]. exact (resource_known _ _ _ _ _ R).
Qed.
Print Assumptions C86_defined.
(** no two parameters of an action have one name *)
Theorem C86_names : forall source fuel inside base nodes ps rest s gs s' g l, readable_given source fuel nodes -> outline inside base nodes = Val (Sec BlueprintSection ps [], rest) ->
  read_given source fuel ps s = Val (gs, s') -> In g gs -> In l (g_actions g) -> NoDup (map (fun p => fst (pa_name p)) l).
Proof.
  intros source fuel inside base nodes ps rest s gs s' g l Rd E H I J. apply (C86_defined _ _ _ _ _ _ _ _ _ _ Rd E) in H. clear - H I J. induction H as [|qs g' ls gs [_ A] H IH]; [destruct I|]. destruct I as [->|I]; [|exact (IH I)].
  clear - A J. induction A as [|as_ l' ls ls' (dss & _ & ->) A IH]; [destruct J|]. destruct J as [<-|J]; [apply lasting_unique|exact (IH J)].
Qed.
Print Assumptions C86_names.

(** ** if nothing new is reported, every parameter is a variable of its path: that of its resource, or, if it is of an action with a path, of the action. Only endpoints without a name
    are different: their parameters are never looked up *)
Definition own_path (as_ : list part) (uri : string) : string :=
  match as_ with Head h :: _ => let '(_, _, own) := action_signature h in if String.eqb own "" then uri else own | _ => uri end.
Definition all_variables (uri : string) (l : list parameter) : Prop := Forall (fun p => variable_of uri (fst (pa_name p))) l.
Definition all_eligible (ps : list part) (g : given) : Prop :=
  forall h r, ps = Head h :: r -> all_variables (snd (resource_header h)) (g_parameters g) /\ Forall2 (fun as_ l => all_variables (own_path as_ (snd (resource_header h))) l) (actions_in r) (g_actions g).
Definition action_eligible (ps : list part) (g : given) : Prop :=
  forall k qs ex l, ps = [Sub (Sec k qs ex)] -> own_path qs "" <> "" -> In l (g_actions g) -> all_variables (own_path qs "") l.
Definition unsaid (e : located) : Prop := forall m c x, ~ In (m, Says c x) e.
Lemma unsaid_app : forall a b, unsaid (a ++ b) -> unsaid a /\ unsaid b.
Proof. intros a b H. split; intros m c x I; apply (H m c x), in_or_app; auto. Qed.
Lemma quiet_unsaid : forall e s, s_notes (perform e s) = s_notes s -> unsaid e.
Proof.
  intros e s H m c x I. apply in_split in I as (a & b & ->). rewrite perform_app in H. destruct (perform_grows a s) as (w & A & _). set (s1 := perform a s) in *.
  change (perform ((m, Says c x) :: b) s1) with (perform b (note m [Warns c x] s1)) in H. destruct (perform_grows b (note m [Warns c x] s1)) as (v & B & _). rewrite B in H. cbn [note s_notes map] in H. rewrite A in H. apply (f_equal (@List.length _)) in H. rewrite !app_length in H. cbn [List.length] in H. lia.
Qed.
Lemma looked_variables : forall uri name t l e, looked_up uri name t l e -> unsaid e -> all_variables uri l.
Proof.
  intros uri name t l e (w & W & ->) U. assert (N : w = []).
  { apply eligible_says in W. destruct W as [|x w [m ->] _]; [reflexivity|]. elim (U (lies t) 8%N m). now left. }
  subst w. clear U. remember (@nil effect) as w eqn:E. induction W as [|p l w V W IH|p l w V W IH]; [constructor|constructor; [exact V|now apply IH]|discriminate].
Qed.
Lemma eligible_steps : forall known source uri name r g g' e, in_steps (resource_part known source uri name) r g g' e -> unsaid e -> all_variables uri (g_parameters g) ->
  all_variables uri (g_parameters g') /\ exists ls, g_actions g' = (g_actions g ++ ls)%list /\ Forall2 (fun as_ l => all_variables (own_path as_ uri) l) (actions_in r) ls.
Proof.
  intros known source uri name r g g' e H. induction H as [g|x r g g1 g2 e1 e2 S1 H IH]; intros U V.
  - split; [exact V|]. exists []. rewrite app_nil_r. split; [reflexivity|constructor].
  - apply unsaid_app in U as [U1 U2]. destruct S1 as [t l e3 e4 -> P L|k h q ex own_name method own l e3 e4 -> A Sg K|N1 N2]; cbn [g_parameters g_actions] in IH.
    + apply unsaid_app in U1 as [_ U1]. apply IH; [exact U2|]. apply Forall_app. split; [exact V|]. exact (looked_variables _ _ _ _ _ L U1).
    + apply unsaid_app in U1 as [U3 U4]. destruct (IH U2 V) as [W (ls & E & F)]. split; [exact W|]. exists (l :: ls). split; [now rewrite E, <- app_assoc|]. constructor; [|exact F].
      cbn [own_path]. rewrite Sg. destruct K as [[-> K]|[N ->]]; [exact (looked_variables _ _ _ _ _ K U4)|]. destruct (String.eqb_spec own ""); [contradiction|].
      destruct A as (h' & q' & a & b & c & e5 & e6 & Eh & Sg' & _ & [[Z _]|[_ L]] & ->); injection Eh as <- <-; rewrite Sg in Sg'; injection Sg' as <- <- <-; [contradiction|]. apply unsaid_app in U3 as [_ U3]. exact (looked_variables _ _ _ _ _ L U3).
    + destruct (IH U2 V) as [W (ls & E & F)]. split; [exact W|]. exists ls. split; [exact E|]. destruct x as [t|t|t|ty t|t|t|s]; try exact F. now elim (N2 s).
Qed.
Theorem C86_no_remarks : forall source fuel inside base nodes ps rest s gs s', readable_given source fuel nodes -> outline inside base nodes = Val (Sec BlueprintSection ps [], rest) ->
  read_given source fuel ps s = Val (gs, s') -> s_notes s' = s_notes s -> Forall2 (fun qs g => all_eligible qs g /\ action_eligible qs g) (resources_in ps) gs.
Proof.
  intros source fuel inside base nodes ps rest s gs s' Rd E H Q. apply (C86_document _ _ _ _ _ _ _ _ _ _ Rd E) in H as (e & H & ->). apply quiet_unsaid in Q. clear - H Q.
  induction H as [|qs l g gs e e' R H IH]; constructor; [|apply IH; now apply unsaid_app in Q]. apply unsaid_app in Q as [Q _]. clear - R Q. destruct R as [h r name uri g e Hd St|k q ex l e A].
  - split; [|intros k q ex l X; discriminate]. intros h' r' X. injection X as <- <-. rewrite Hd. cbn [snd]. destruct (eligible_steps _ _ _ _ _ _ _ _ St Q) as [V (ls & -> & F)]; [constructor|]. split; [exact V|exact F].
  - split; [intros h r X; discriminate|]. intros k' q' ex' l' X N I. injection X as <- <- <-. cbn in I. destruct I as [<-|[]]. destruct A as (h & r & a & b & c & e1 & e2 & -> & Sg & _ & K & ->). cbn [own_path] in *. rewrite Sg in *.
    destruct (String.eqb_spec c ""); [contradiction|]. destruct K as [[Z _]|[_ L]]; [contradiction|]. apply unsaid_app in Q as [_ Q]. exact (looked_variables _ _ _ _ _ L Q).
Qed.
Print Assumptions C86_no_remarks.

(** ** these are the resources and actions of C85, and so of C78 *)
Lemma actions_subs : forall ps, List.length (actions_in ps) = Prop_Relations.subs ps.
Proof. induction ps as [|[t|t|t|ty t|t|t|[k qs ex]] r IH]; try exact IH; [reflexivity|]. exact (f_equal S IH). Qed.
Theorem C86_actions : forall source index fuel inside base nodes ps rest s gs s' ws w, readable_given source fuel nodes -> Prop_Preface.readable_preface source index nodes -> outline inside base nodes = Val (Sec BlueprintSection ps [], rest) ->
  read_given source fuel ps s = Val (gs, s') -> Relations.read_words source index ps = Val (ws, w) -> map (fun g => List.length (g_actions g)) gs = map (fun r => List.length (Relations.j_actions r)) ws.
Proof.
  intros source index fuel inside base nodes ps rest s gs s' ws w Rd Rp E G W. apply (C86_defined _ _ _ _ _ _ _ _ _ _ Rd E) in G.
  apply (Prop_Relations.C85_document _ _ _ _ _ _ _ _ Rp E) in W as (ws' & w' & T & X). injection X as <- _. rewrite (Prop_Relations.words_subs _ _ _ _ T). clear - G.
  induction G as [|qs g l gs [_ A] G IH]; [reflexivity|]. cbn [map]. rewrite IH. f_equal. rewrite <- actions_subs. clear - A. induction A; cbn; congruence.
Qed.
Print Assumptions C86_actions.

(** ** examples *)
Definition empty_state : st := St (T [] [] []) [].
Definition taken (source : string) (nodes : list tree) : option (outcome (list given * st)) :=
  match outline Prop_Sections.calm Prop_Sections.plain_base nodes with Val (Sec _ ps _, _) => Some (read_given source 2 ps empty_state) | _ => None end.
Definition given_source : string := "# API" +++ line_feed +++ line_feed +++ "# Group G" +++ line_feed +++ line_feed +++ "# A [/a/{id}]" +++ line_feed +++ line_feed +++ "+ Parameters" +++ line_feed +++ "    + id (string)" +++ line_feed +++ "    + no (string)" +++ line_feed +++ line_feed +++ "# GET" +++ line_feed +++ line_feed +++ "+ Parameters" +++ line_feed +++ "    + id (number)" +++ line_feed +++ "    + size" +++ line_feed +++ line_feed +++ "+ Parameters" +++ line_feed +++ "    + id (boolean)" +++ line_feed +++ line_feed +++ "+ Response 204" +++ line_feed +++ line_feed +++ "# Read [PUT /a/{id}/{x}]" +++ line_feed +++ line_feed +++ "+ Parameters" +++ line_feed +++ "    + id" +++ line_feed +++ "    + x" +++ line_feed +++ line_feed +++ "+ Response 204" +++ line_feed +++ line_feed +++ "# N [DELETE /b/{k}]" +++ line_feed +++ line_feed +++ "+ Parameters" +++ line_feed +++ "    + k" +++ line_feed +++ "    + id" +++ line_feed +++ line_feed +++ "+ Response 204" +++ line_feed +++ line_feed.
Definition given_nodes : list tree := [node HeaderNode ("API") 0 6 [];
  node HeaderNode ("Group G") 7 10 [];
  node HeaderNode ("A [/a/{id}]") 18 14 [];
  node ItemNode "" 33 50 [node ParagraphNode ("Parameters") 35 11 []; node ItemNode "" 50 14 [node ParagraphNode ("id (string)") 52 12 []]; node ItemNode "" 68 14 [node ParagraphNode ("no (string)") 70 12 []]];
  node HeaderNode ("GET") 83 6 [];
  node ItemNode "" 90 43 [node ParagraphNode ("Parameters") 92 11 []; node ItemNode "" 107 14 [node ParagraphNode ("id (number)") 109 12 []]; node ItemNode "" 125 7 [node ParagraphNode ("size") 127 5 []]];
  node ItemNode "" 133 33 [node ParagraphNode ("Parameters") 135 11 []; node ItemNode "" 150 15 [node ParagraphNode ("id (boolean)") 152 13 []]];
  node ItemNode "" 166 16 [node ParagraphNode ("Response 204") 168 13 []];
  node HeaderNode ("Read [PUT /a/{id}/{x}]") 182 25 [];
  node ItemNode "" 208 31 [node ParagraphNode ("Parameters") 210 11 []; node ItemNode "" 225 5 [node ParagraphNode ("id") 227 3 []]; node ItemNode "" 234 4 [node ParagraphNode ("x") 236 2 []]];
  node ItemNode "" 239 16 [node ParagraphNode ("Response 204") 241 13 []];
  node HeaderNode ("N [DELETE /b/{k}]") 255 20 [];
  node ItemNode "" 276 31 [node ParagraphNode ("Parameters") 278 11 []; node ItemNode "" 293 4 [node ParagraphNode ("k") 295 2 []]; node ItemNode "" 301 5 [node ParagraphNode ("id") 303 3 []]];
  node ItemNode "" 307 16 [node ParagraphNode ("Response 204") 309 13 []]].
Definition quiet_source : string := "# A [/a/{id}{?page}]" +++ line_feed +++ line_feed +++ "+ Parameters" +++ line_feed +++ "    + id (string)" +++ line_feed +++ line_feed +++ "# GET" +++ line_feed +++ line_feed +++ "+ Parameters" +++ line_feed +++ "    + page (number)" +++ line_feed +++ line_feed +++ "+ Response 204" +++ line_feed +++ line_feed.
Definition quiet_nodes : list tree := [node HeaderNode ("A [/a/{id}{?page}]") 0 21 [];
  node ItemNode "" 22 32 [node ParagraphNode ("Parameters") 24 11 []; node ItemNode "" 39 14 [node ParagraphNode ("id (string)") 41 12 []]];
  node HeaderNode ("GET") 54 6 [];
  node ItemNode "" 61 34 [node ParagraphNode ("Parameters") 63 11 []; node ItemNode "" 78 16 [node ParagraphNode ("page (number)") 80 14 []]];
  node ItemNode "" 95 16 [node ParagraphNode ("Response 204") 97 13 []]].
Definition twice_source : string := "# A [/a/{id}]" +++ line_feed +++ line_feed +++ "+ Parameters" +++ line_feed +++ "    + id (string)" +++ line_feed +++ line_feed +++ "+ Parameters" +++ line_feed +++ "    + id (number)" +++ line_feed +++ line_feed +++ "# GET" +++ line_feed +++ line_feed +++ "+ Response 204" +++ line_feed +++ line_feed.
Definition twice_nodes : list tree := [node HeaderNode ("A [/a/{id}]") 0 14 [];
  node ItemNode "" 15 32 [node ParagraphNode ("Parameters") 17 11 []; node ItemNode "" 32 14 [node ParagraphNode ("id (string)") 34 12 []]];
  node ItemNode "" 47 32 [node ParagraphNode ("Parameters") 49 11 []; node ItemNode "" 64 14 [node ParagraphNode ("id (number)") 66 12 []]];
  node HeaderNode ("GET") 79 6 [];
  node ItemNode "" 86 16 [node ParagraphNode ("Response 204") 88 13 []]].
Definition endpoint_source : string := "# GET /a/{id}" +++ line_feed +++ line_feed +++ "+ Parameters" +++ line_feed +++ "    + other" +++ line_feed +++ line_feed +++ "+ Response 204" +++ line_feed +++ line_feed.
Definition endpoint_nodes : list tree := [node HeaderNode ("GET /a/{id}") 0 14 [];
  node ItemNode "" 15 26 [node ParagraphNode ("Parameters") 17 11 []; node ItemNode "" 32 8 [node ParagraphNode ("other") 34 6 []]];
  node ItemNode "" 41 16 [node ParagraphNode ("Response 204") 43 13 []]].
Definition empty_source : string := "# A [/a/{id}]" +++ line_feed +++ line_feed +++ "# GET" +++ line_feed +++ line_feed +++ "+ Parameters" +++ line_feed +++ "    + id" +++ line_feed +++ line_feed +++ "+ Parameters" +++ line_feed +++ line_feed +++ "+ Response 204" +++ line_feed +++ line_feed.
Definition empty_nodes : list tree := [node HeaderNode ("A [/a/{id}]") 0 14 [];
  node HeaderNode ("GET") 15 6 [];
  node ItemNode "" 22 23 [node ParagraphNode ("Parameters") 24 11 []; node ItemNode "" 39 5 [node ParagraphNode ("id") 41 3 []]];
  node ItemNode "" 45 14 [node ParagraphNode ("Parameters") 47 11 []];
  node ItemNode "" 59 16 [node ParagraphNode ("Response 204") 61 13 []]].
Definition named_source : string := "# N [GET /b/{k}]" +++ line_feed +++ line_feed +++ "+ Parameters" +++ line_feed +++ "    + k" +++ line_feed +++ "    + other" +++ line_feed +++ line_feed +++ "+ Response 204" +++ line_feed +++ line_feed.
Definition named_nodes : list tree := [node HeaderNode ("N [GET /b/{k}]") 0 17 [];
  node ItemNode "" 18 34 [node ParagraphNode ("Parameters") 20 11 []; node ItemNode "" 35 4 [node ParagraphNode ("k") 37 2 []]; node ItemNode "" 43 8 [node ParagraphNode ("other") 45 6 []]];
  node ItemNode "" 52 16 [node ParagraphNode ("Response 204") 54 13 []]].
Definition a_parameter (x : string) (a n : N) (ty : string) : parameter := plain_parameter x a n ty UndefinedUse.
Definition given_parameters : list given := [Given [a_parameter "id" 52 12 "string"; a_parameter "no" 70 12 "string"]
  [[a_parameter "size" 127 5 ""; a_parameter "id" 152 13 "boolean"]; [a_parameter "id" 227 3 ""; a_parameter "x" 236 2 ""]; [a_parameter "k" 295 2 ""; a_parameter "id" 303 3 ""]]].
Definition given_notes : list (places * remark) :=
  [(at_place 33 50, Warns 8 "parameter 'no' is not found within the URI template '/a/{id}' for 'A' "); (at_place 150 15, Warns 4 "overshadowing previous parameter 'id' definition");
   (at_place 83 6, Warns 8 "parameter 'size' is not found within the URI template '/a/{id}' for 'A' "); (at_place 255 20, Warns 8 "parameter 'id' is not found within the URI template '/b/{k}' for 'N' ")].
Lemma readable_given_case : readable_given given_source 2 given_nodes.
Proof.
  split; [reflexivity|]. split.
  - repeat (constructor; [first [exact I|intros H; vm_compute in H; repeat (destruct H as [H|H]; [discriminate H|]); destruct H]|]). constructor.
  - repeat (constructor; [split; [cbn; lia|inside]|]). constructor.
Qed.
(** a resource with three actions; two items of one action are one list; an action with a path has its own variables *)
Example C86_given : readable_given given_source 2 given_nodes /\ taken given_source given_nodes = Some (Val (given_parameters, St (T [] [] []) given_notes)).
Proof. split; [exact readable_given_case|vm_compute; reflexivity]. Qed.
(** a parameter of an action found in the path of its resource; nothing is said *)
Example C86_quiet : taken quiet_source quiet_nodes = Some (Val ([Given [a_parameter "id" 41 12 "string"] [[a_parameter "page" 80 14 "number"]]], empty_state)).
Proof. vm_compute. reflexivity. Qed.
(** an endpoint with a name has its parameters looked up *)
Example C86_named : taken named_source named_nodes = Some (Val ([Given [] [[a_parameter "k" 37 2 ""; a_parameter "other" 45 6 ""]]],
  St (T [] [] []) [(at_place 0 17, Warns 8 "parameter 'other' is not found within the URI template '/b/{k}' for 'N' ")])).
Proof. vm_compute. reflexivity. Qed.

(** ** what does not hold *)
(** two items of one resource define a parameter twice, both are kept; nothing is said *)
Theorem C86_twice_refuted : taken twice_source twice_nodes = Some (Val ([Given [a_parameter "id" 34 12 "string"; a_parameter "id" 66 12 "number"] [[]]], empty_state)).
Proof. vm_compute. reflexivity. Qed.
Print Assumptions C86_twice_refuted.
(** a parameter of an endpoint without a name need not be a variable of its path; nothing is said *)
Theorem C86_endpoint_refuted : taken endpoint_source endpoint_nodes = Some (Val ([Given [] [[a_parameter "other" 34 6 ""]]], empty_state)) /\ ~ variable_of "/a/{id}" "other".
Proof.
  split; [vm_compute; reflexivity|]. intros V. destruct (template_some "/a/{id}") as (vs & E & K). apply K in V. vm_compute in E. injection E as <-. cbn in V. destruct V as [V|[]]. discriminate V.
Qed.
Print Assumptions C86_endpoint_refuted.
(** a second item of an action without a parameter; nothing is said, as the first has one *)
Theorem C86_empty_refuted : taken empty_source empty_nodes = Some (Val ([Given [] [[a_parameter "id" 41 3 ""]]], empty_state)).
Proof. vm_compute. reflexivity. Qed.
Print Assumptions C86_empty_refuted.
