(** Property C85: descriptions and relations of resources and actions *)
From Coq Require Permutation.
From Verif Require Import Base StringUtility StringSpec StringProofs SignatureProofs Regex RegexSpec RegexProofs ByteBuffer ByteSpec ByteProofs Markdown MarkdownSpec MarkdownTree Keywords KeywordsSpec KeywordsProofs KeywordsOrder Prop_Keywords TypeTables Sections SectionsSpec SectionsKeys SectionsLoop SectionsUnique Prop_Sections.
From Verif Require Import Source Headers HeadersSpec HeadersProofs Prop_Headers Payloads PayloadsSpec PayloadsText PayloadsNodes PayloadsWhole Prop_Payloads Transactions TransactionsSpec Prop_Transactions Preface PrefaceSpec PrefaceText PrefaceWhole PrefaceTotal Prop_Preface.
From Verif Require Import Relations RelationsSpec RelationsText RelationsWhole.
Local Open Scope string_scope.
Local Open Scope list_scope.

Lemma deep_inside : forall source l, Forall (inside_source source) l -> Forall (deep source) l.
Proof.
  intros source l H. apply Forall_forall. intros t I. rewrite Forall_forall in H. apply H, (inside_parts source) in I as (A & B & _). now split.
Qed.
Lemma deep_outline : forall source index inside base nodes ps rest, readable_preface source index nodes -> outline inside base nodes = Val (Sec BlueprintSection ps [], rest) ->
  document_ok base (Sec BlueprintSection ps []) /\ Forall (deep source) (nodes_of ps).
Proof.
  intros source index inside base nodes ps rest (_ & _ & One & Fit) E. destruct (C76_outline _ _ _ _ _ One E) as (_ & En & Ok). split; [exact Ok|]. cbn [section_nodes] in En. fold (nodes_of ps) in En. rewrite En. now apply deep_inside.
Qed.
(** ** C85: the descriptions, the relations and all warnings about relations are as specified, and nothing else; for every document that has an outline (C76) *)
Theorem C85_document : forall source index inside base nodes ps rest r, readable_preface source index nodes -> outline inside base nodes = Val (Sec BlueprintSection ps [], rest) ->
  (read_words source index ps = Val r <-> exists rs w, resources_tell source (resources_in ps) rs w /\ r = (rs, map (shown index) w)).
Proof.
  intros source index inside base nodes ps rest r Rd E. destruct (deep_outline _ _ _ _ _ _ _ Rd E) as [Ok D]. destruct Rd as (Small & Indexed & _). pose proof (deep_resources source _ D) as Dr.
  change (resources_in ps) with (flat_map resource_of ps). split.
  - intros R. destruct (all_told source index Small Indexed base ps Ok D) as (rs & w & T). exists rs, w. split; [exact T|]. unfold read_words in R. rewrite (resources_ok source index Small Indexed _ _ _ T [] Dr) in R. now injection R as <-.
  - intros (rs & w & T & ->). exact (resources_ok source index Small Indexed _ _ _ T [] Dr).
Qed.
Print Assumptions C85_document.
Theorem C85_ends : forall source index inside base nodes ps rest, readable_preface source index nodes -> outline inside base nodes = Val (Sec BlueprintSection ps [], rest) -> exists r, read_words source index ps = Val r.
Proof.
  intros source index inside base nodes ps rest Rd E. destruct (deep_outline _ _ _ _ _ _ _ Rd E) as [Ok D]. destruct Rd as (Small & Indexed & _).
  destruct (all_told source index Small Indexed base ps Ok D) as (rs & w & T). eexists. exact (resources_ok source index Small Indexed _ _ _ T [] (deep_resources source _ D)).
Qed.
Print Assumptions C85_ends.

(** ** whatever is written, a relation is a name: small letters, digits, points and dashes, the first a letter, or nothing *)
Lemma relations_named : forall a ps c w, relations_say a ps c w -> relation_name a -> relation_name c.
Proof.
  intros a ps c w H. induction H as [rel|a b c t r w v R H IH|a c x r w R D H IH]; intros N; [exact N| |now apply IH]. apply IH.
  destruct R as (t' & r' & first & rest & l & u & w1 & w2 & _ & _ & _ & _ & [[(l' & k & b1 & b2 & b3 & _ & _ & _ & _ & _ & _ & Nm) _]|(_ & -> & _)] & _); assumption.
Qed.
Lemma actions_named : forall source uri b ps l w, actions_tell source uri b ps l w -> Forall (fun a => relation_name (i_relation a)) l.
Proof.
  intros source uri b ps l w H. induction H as [b|b k ps ex r a l w u v A K H IH|b x r l w S D H IH]; [constructor| |exact IH]. constructor; [|exact IH].
  destruct A as (h & d & q & _ & _ & R). apply (relations_named _ _ _ _ R). now left.
Qed.
Theorem C85_relation : forall source index inside base nodes ps rest rs w r a, readable_preface source index nodes -> outline inside base nodes = Val (Sec BlueprintSection ps [], rest) ->
  read_words source index ps = Val (rs, w) -> In r rs -> In a (j_actions r) -> relation_name (i_relation a).
Proof.
  intros source index inside base nodes ps rest rs w r a Rd E R I J. apply (C85_document _ _ _ _ _ _ _ _ Rd E) in R as (rs' & w' & T & X). injection X as <- _. clear - T I J.
  induction T as [|qs l q rs w v R T IH]; [destruct I|]. destruct I as [->|I]; [|exact (IH I)]. assert (F : Forall (fun a => relation_name (i_relation a)) (j_actions r)) by (destruct R as (uri & _ & [[_ A]|(h & d & k & _ & _ & A)]); exact (actions_named _ _ _ _ _ _ A)).
  rewrite Forall_forall in F. exact (F a J).
Qed.
Print Assumptions C85_relation.

(** ** without warnings, every relation item says a name, and holds nothing else; and no two actions of a resource have the same *)
Definition relations_of (l : list action_words) : list string := flat_map (fun a => if String.eqb (i_relation a) "" then [] else [i_relation a]) l.
Lemma relations_in : forall l n, In n (relations_of l) <-> n <> "" /\ exists a, In a l /\ i_relation a = n.
Proof.
  intros l n. unfold relations_of. rewrite in_flat_map. split.
  - intros (a & I & J). destruct (String.eqb_spec (i_relation a) ""); [destruct J|]. destruct J as [<-|[]]. split; [assumption|now exists a].
  - intros (N & a & I & <-). exists a. split; [exact I|]. destruct (String.eqb_spec (i_relation a) ""); [contradiction|now left].
Qed.
Lemma distinct_relations : forall source uri b ps l w, actions_tell source uri b ps l w -> w = [] -> NoDup (relations_of b) -> NoDup (relations_of (b ++ l)).
Proof.
  intros source uri b ps l w H. induction H as [b|b k ps ex r a l w u v A K H IH|b x r l w S D H IH]; intros E N; [now rewrite app_nil_r| |now apply IH].
  apply app_eq_nil in E as [-> E]. apply app_eq_nil in E as [-> ->]. replace (b ++ a :: l) with ((b ++ [a]) ++ l) by now rewrite <- app_assoc. apply (IH eq_refl). destruct K as [(_ & h & q & _ & X)|(K & _)]; [discriminate|].
  unfold relations_of in *. rewrite flat_map_app. cbn [flat_map]. rewrite app_nil_r. destruct (String.eqb_spec (i_relation a) "") as [Z|Z]; [now rewrite app_nil_r|].
  apply (Permutation.Permutation_NoDup (Permutation.Permutation_cons_append _ _)). constructor; [|exact N]. fold (relations_of b). rewrite relations_in. intros (_ & c & I & J). apply K. split; [exact Z|now exists c].
Qed.
Definition says_relation (t : tree) : Prop :=
  exists c first rest l u n, opens t c [] /\ lines (the_text c) first rest /\ PayloadsSpec.trims first l /\ before "000" l u /\ relation_line u n.
Lemma ignored_some : forall l u, ~ in_turn (fun t (_ : unit) => ignored t) l u [] \/ l = [].
Proof.
  intros [|t l] u; [now right|left]. intros H. inversion H as [|t0 l0 a r v w S1 S2 E1 E2 E3]; subst. apply app_eq_nil in E3 as [-> _]. unfold ignored in S1. destruct S1 as [[_ X]|[_ X]]; discriminate X.
Qed.
Lemma silent_relations : forall a ps c w, relations_say a ps c w -> w = [] -> forall t, In (Listed RelationSection t) ps -> says_relation t.
Proof.
  intros a ps c w H. induction H as [rel|a b c t r w v R H IH|a c x r w R D H IH]; intros E u I.
  - destruct I.
  - apply app_eq_nil in E as [-> ->]. destruct I as [I|I]; [|now apply IH]. injection I as <-. destruct R as (t' & q & first & rest & l & k & w1 & w2 & O & L & T & B & Hr & (z & A) & E). symmetry in E. apply app_eq_nil in E as [-> ->].
    destruct (ignored_some q z) as [N | ->]; [contradiction|]. destruct Hr as [[Rl _]|(_ & _ & X)]; [|discriminate]. now exists t', first, rest, l, k, b.
  - destruct I as [->|I]; [|now apply IH]. elim R. now exists u.
Qed.
Lemma silent_actions : forall source uri b ps l w, actions_tell source uri b ps l w -> w = [] -> forall k qs ex t, In (Sub (Sec k qs ex)) ps -> In (Listed RelationSection t) qs -> says_relation t.
Proof.
  intros source uri b ps l w H. induction H as [b|b k ps ex r a l w u v A K H IH|b x r l w S D H IH]; intros E k' qs' ex' t I J.
  - destruct I.
  - apply app_eq_nil in E as [-> E]. apply app_eq_nil in E as [_ ->]. destruct I as [I|I]; [|now apply (IH eq_refl k' qs' ex')]. injection I as -> -> ->. destruct A as (h & d & q & -> & _ & R). apply (silent_relations _ _ _ _ R eq_refl). destruct J as [J|J]; [discriminate|].
    apply in_app_iff in J as [J|J]; [|exact J]. apply in_map_iff in J as (z & Z & _). discriminate.
  - destruct I as [->|I]; [now elim (S (Sec k' qs' ex'))|now apply (IH E k' qs' ex')].
Qed.
Theorem C85_no_warnings : forall source index inside base nodes ps rest rs, readable_preface source index nodes -> outline inside base nodes = Val (Sec BlueprintSection ps [], rest) ->
  read_words source index ps = Val (rs, []) ->
  (forall qs k as_ ex t, In qs (resources_in ps) -> In (Sub (Sec k as_ ex)) qs -> In (Listed RelationSection t) as_ -> says_relation t) /\
  (forall r, In r rs -> NoDup (relations_of (j_actions r))).
Proof.
  intros source index inside base nodes ps rest rs Rd E R. apply (C85_document _ _ _ _ _ _ _ _ Rd E) in R as (rs' & w' & T & X). injection X as <- W. symmetry in W. apply map_eq_nil in W. split.
  2:{ clear - T W. induction T as [|qs l q rs w v R T IH]; intros r I; [destruct I|]. apply app_eq_nil in W as [-> ->]. destruct I as [->|I]; [|now apply IH]. destruct R as (uri & _ & [[_ A]|(h & d & k & _ & _ & A)]);
      exact (distinct_relations _ _ _ _ _ _ A eq_refl (NoDup_nil _)). }
  intros qs k as_ ex t I J K. clear - T W I J K.
  induction T as [|qs' l q rs w v R T IH]; [destruct I|]. apply app_eq_nil in W as [-> ->]. destruct I as [->|I]; [|now apply IH]. destruct R as (uri & _ & [[_ A]|(h & d & p & -> & _ & A)]); [exact (silent_actions _ _ _ _ _ _ A eq_refl k as_ ex t J K)|].
  apply (silent_actions _ _ _ _ _ _ A eq_refl k as_ ex t); [|exact K]. destruct J as [J|J]; [discriminate|]. apply in_app_iff in J as [J|J]; [|exact J]. apply in_map_iff in J as (z & Z & _). discriminate.
Qed.
Print Assumptions C85_no_warnings.

(** ** these words are about the resources and actions of C78: as many resources, and each has as many actions *)
Definition subs (ps : list part) : nat := List.length (filter (fun x => match x with Sub _ => true | _ => false end) ps).
Lemma subs_texts : forall d r, subs (map Text d ++ r) = subs r.
Proof. induction d as [|t d IH]; intros r; [reflexivity|apply IH]. Qed.
Lemma tell_subs : forall source uri b ps l w, actions_tell source uri b ps l w -> List.length l = subs ps.
Proof.
  intros source uri b ps l w H. induction H as [b|b k ps ex r a l w u v A K H IH|b x r l w S D H IH]; [reflexivity|cbn; now rewrite IH|]. rewrite IH. destruct x; try reflexivity. elim (S s eq_refl).
Qed.
Lemma go_subs : forall source index nested found_none name uri T l0 l T' ev, go_through source index nested found_none name uri T l0 l T' ev -> List.length (actions_of l) = subs (map fst l).
Proof.
  intros source index nested found_none name uri T l0 l T' ev H. induction H as [T l0|T l0 x r T1 rest T2 e f R H IH]; [reflexivity|]. unfold actions_of in *. cbn [flat_map map fst snd]. rewrite app_length, IH.
  destruct x as [t|t|t|ty t|t|t|[k ps ex]]; cbn in R; try contradiction.
  - destruct R as [(_ & p & -> & _)|[(_ & hs & w & -> & _)|(_ & _ & -> & _)]]; reflexivity.
  - destruct R as (s & m & w & -> & _). reflexivity.
  - destruct R as (w & -> & _). reflexivity.
  - destruct R as (h & a & w1 & w2 & -> & _). reflexivity.
Qed.
Lemma say_subs : forall source index nested found_none T ps r T' ev, resource_says source index nested found_none T ps r T' ev -> List.length (e_actions r) = subs ps.
Proof.
  intros source index nested found_none T ps r T' ev [(k & qs & ex & h & a & w & name & uri & -> & _ & _ & _ & _ & -> & _)|(h & d & l & hs & name & uri & m & -> & _ & G & _ & _ & ->)]; [reflexivity|].
  cbn [e_actions]. rewrite map_length, (go_subs _ _ _ _ _ _ _ _ _ _ _ G). symmetry. exact (subs_texts d (map fst l)).
Qed.
Lemma says_subs : forall source index nested found_none b T l rs T' ev, resources_say source index nested found_none b T l rs T' ev -> map (fun r => List.length (e_actions r)) rs = map subs l.
Proof.
  intros source index nested found_none b T l rs T' ev H. induction H as [|b T ps l r rs h T1 T2 e w f H1 H2 H3 H IH]; [reflexivity|]. cbn [map]. now rewrite IH, (say_subs _ _ _ _ _ _ _ _ _ H1).
Qed.
Lemma each_length : forall A (step : A -> A -> list event -> Prop) l r e, each_of step l r e -> List.length r = List.length l.
Proof. intros A step l r e H. induction H; cbn; congruence. Qed.
Lemma settled_subs : forall found_none T rs0 rs f, each_of (settled_resource found_none T) rs0 rs f -> map (fun r => List.length (e_actions r)) rs = map (fun r => List.length (e_actions r)) rs0.
Proof. intros found_none T rs0 rs f H. induction H as [|x y l r e f (k & K & ->) H IH]; [reflexivity|]. cbn [map e_actions]. now rewrite IH, (each_length _ _ _ _ _ K). Qed.
Lemma words_subs : forall source l rs w, resources_tell source l rs w -> map (fun r => List.length (j_actions r)) rs = map subs l.
Proof.
  intros source l rs w H. induction H as [|ps l r rs w v R H IH]; [reflexivity|]. cbn [map]. rewrite IH. f_equal. destruct R as (uri & _ & [[_ A]|(h & d & k & -> & _ & A)]); [exact (tell_subs _ _ _ _ _ _ A)|]. rewrite (tell_subs _ _ _ _ _ _ A). symmetry. exact (subs_texts d k).
Qed.
Theorem C85_actions : forall source index nested found_none inside base nodes ps rest rs st ws w, readable_document source index nodes -> answers nested ->
  outline inside base nodes = Val (Sec BlueprintSection ps [], rest) -> read_document source index nested found_none ps = Val (rs, st) -> read_words source index ps = Val (ws, w) ->
  map (fun r => List.length (e_actions r)) rs = map (fun r => List.length (j_actions r)) ws.
Proof.
  intros source index nested found_none inside base nodes ps rest rs st ws w Rd Nest E D R. destruct (C78_document source index nested found_none inside base nodes ps rest Rd Nest E) as (rs' & T & ms & ev & (rs0 & e0 & f0 & S1 & S2 & _) & _ & D'). rewrite D' in D. injection D as -> _.
  assert (Rp : readable_preface source index nodes) by (destruct Rd as (A & B & _ & C & F); repeat (split; [assumption|]); apply Forall_forall; intros t I; rewrite Forall_forall in F; now destruct (F t I)).
  apply (C85_document _ _ _ _ _ _ _ _ Rp E) in R as (ws' & w' & S & X). injection X as <- _. rewrite (settled_subs _ _ _ _ _ S2), (says_subs _ _ _ _ _ _ _ _ _ _ S1), (words_subs _ _ _ _ S). reflexivity.
Qed.
Print Assumptions C85_actions.

(** ** a document with everything: a relation that is none leaves that of before; what is behind it in the item is ignored; an endpoint has its own words *)
Definition worded (source : string) (nodes : list tree) : option (outcome (list resource_words * report)) :=
  match outline calm plain_base nodes with Val (Sec _ ps _, _) => Some (read_words source (bytes (String.length source)) ps) | _ => None end.
Definition no_relation : string := "relation identifier contains illegal characters (only lower case letters, numbers, '-' and '.' allowed)".
Definition told_source : string := "# API" +++ line_feed +++ line_feed +++ "# A [/a]" +++ line_feed +++ line_feed +++ "About a" +++ line_feed +++ line_feed +++ "# GET" +++ line_feed +++ line_feed +++ "Reads a" +++ line_feed +++ line_feed +++ "More" +++ line_feed +++ line_feed +++ "+ Relation: self" +++ line_feed +++ line_feed +++ "+ Response 200" +++ line_feed +++ line_feed +++ "+ Relation: Next" +++ line_feed +++ line_feed +++ "    Why" +++ line_feed +++ line_feed +++ "# PUT" +++ line_feed +++ line_feed +++ "+ Relation: self" +++ line_feed +++ line_feed +++ "+ Response 204" +++ line_feed +++ line_feed +++ "# Group G" +++ line_feed +++ line_feed +++ "# GET /b" +++ line_feed +++ line_feed +++ "Reads b" +++ line_feed +++ line_feed +++ "+ Relation:" +++ line_feed +++ line_feed +++ "+ Response 200" +++ line_feed +++ line_feed.
Definition told_nodes : list tree := [node HeaderNode ("API") 0 6 [];
  node HeaderNode ("A [/a]") 7 9 [];
  node ParagraphNode ("About a") 17 8 [];
  node HeaderNode ("GET") 26 6 [];
  node ParagraphNode ("Reads a") 33 8 [];
  node ParagraphNode ("More") 42 5 [];
  node ItemNode "" 48 18 [node ParagraphNode ("Relation: self") 50 14 []];
  node ItemNode "" 66 16 [node ParagraphNode ("Response 200") 68 12 []];
  node ItemNode "" 82 27 [node ParagraphNode ("Relation: Next") 84 14 []; node ParagraphNode ("Why") 104 4 []];
  node HeaderNode ("PUT") 109 6 [];
  node ItemNode "" 116 18 [node ParagraphNode ("Relation: self") 118 14 []];
  node ItemNode "" 134 16 [node ParagraphNode ("Response 204") 136 12 []];
  node HeaderNode ("Group G") 150 10 [];
  node HeaderNode ("GET /b") 161 9 [];
  node ParagraphNode ("Reads b") 171 8 [];
  node ItemNode "" 180 13 [node ParagraphNode ("Relation:") 182 9 []];
  node ItemNode "" 193 16 [node ParagraphNode ("Response 200") 195 12 []]].
Example C85_told : readable_preface told_source (bytes (String.length told_source)) told_nodes /\ worded told_source told_nodes =
  Some (Val ([ResourceWords "About a" [ActionWords ("Reads a" +++ line_feed +++ line_feed +++ "More") "self"; ActionWords "" "self"]; ResourceWords "" [ActionWords "Reads b" ""]],
    [An [R 84 14] 3 no_relation; An [R 104 4] 5 "ignoring unrecognized block"; An [R 109 6] 2 "relation identifier 'self' already defined for resource '/a'"])).
Proof.
  split; [|vm_compute; reflexivity]. split; [vm_compute; reflexivity|]. split; [reflexivity|]. split.
  - repeat (constructor; [first [exact I|intros H; no_line H]|]). constructor.
  - repeat (constructor; [inside|]). constructor.
Qed.
(** of the document of C78 *)
Example C85_late : readable_document late_source (bytes 145) late_nodes /\ worded late_source late_nodes = Some (Val ([ResourceWords "" [ActionWords "" ""]; ResourceWords "" [ActionWords "" ""]], [])) /\
  map (fun r => List.length (e_actions r)) late_resources = [1; 1].
Proof. split; [exact (proj1 C78_late)|]. split; vm_compute; reflexivity. Qed.
(** ** what is not said *)
(** a relation without a name removes that of before *)
Definition erased_source : string := "# A [/a]" +++ line_feed +++ line_feed +++ "# GET" +++ line_feed +++ line_feed +++ "+ Relation: self" +++ line_feed +++ line_feed +++ "+ Relation:" +++ line_feed +++ line_feed +++ "+ Response 204" +++ line_feed +++ line_feed.
Definition erased_nodes : list tree := [node HeaderNode ("A [/a]") 0 9 [];
  node HeaderNode ("GET") 10 6 [];
  node ItemNode "" 17 18 [node ParagraphNode ("Relation: self") 19 14 []];
  node ItemNode "" 35 13 [node ParagraphNode ("Relation:") 37 9 []];
  node ItemNode "" 48 16 [node ParagraphNode ("Response 204") 50 12 []]].
Theorem C85_erased_refuted : worded erased_source erased_nodes = Some (Val ([ResourceWords "" [ActionWords "" ""]], [])).
Proof. vm_compute. reflexivity. Qed.
(** of two relations the last is kept *)
Definition twice_source : string := "# A [/a]" +++ line_feed +++ line_feed +++ "# GET" +++ line_feed +++ line_feed +++ "+ Relation: self" +++ line_feed +++ line_feed +++ "+ Relation: next" +++ line_feed +++ line_feed +++ "+ Response 204" +++ line_feed +++ line_feed.
Definition twice_nodes : list tree := [node HeaderNode ("A [/a]") 0 9 [];
  node HeaderNode ("GET") 10 6 [];
  node ItemNode "" 17 18 [node ParagraphNode ("Relation: self") 19 14 []];
  node ItemNode "" 35 18 [node ParagraphNode ("Relation: next") 37 14 []];
  node ItemNode "" 53 16 [node ParagraphNode ("Response 204") 55 12 []]].
Theorem C85_twice_refuted : worded twice_source twice_nodes = Some (Val ([ResourceWords "" [ActionWords "" "next"]], [])).
Proof. vm_compute. reflexivity. Qed.
(** the lines below the first are not read *)
Definition lines_source : string := "# A [/a]" +++ line_feed +++ line_feed +++ "# GET" +++ line_feed +++ line_feed +++ "+ Relation: self" +++ line_feed +++ "  next" +++ line_feed +++ line_feed +++ "+ Response 204" +++ line_feed +++ line_feed.
Definition lines_nodes : list tree := [node HeaderNode ("A [/a]") 0 9 [];
  node HeaderNode ("GET") 10 6 [];
  node ItemNode "" 17 25 [node ParagraphNode ("Relation: self" +++ line_feed +++ "next") 19 22 []];
  node ItemNode "" 42 16 [node ParagraphNode ("Response 204") 44 12 []]].
Theorem C85_lines_refuted : worded lines_source lines_nodes = Some (Val ([ResourceWords "" [ActionWords "" "self"]], [])).
Proof. vm_compute. reflexivity. Qed.
