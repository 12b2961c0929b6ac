(** Property C84: what a document says of itself and of its groups *)
From Coq Require Permutation.
From Verif Require Import Base StringUtility StringSpec StringProofs SignatureProofs Regex RegexSpec RegexProofs ByteBuffer ByteSpec ByteProofs Markdown MarkdownSpec MarkdownTree Keywords KeywordsSpec KeywordsProofs KeywordsOrder Prop_Keywords TypeTables Sections SectionsSpec SectionsKeys SectionsLoop SectionsUnique Prop_Sections.
From Verif Require Import Source Headers HeadersSpec HeadersProofs Prop_Headers Payloads PayloadsSpec PayloadsText PayloadsNodes Prop_Payloads Transactions TransactionsSpec Prop_Transactions Preface PrefaceSpec PrefaceText PrefaceWhole PrefaceTotal.
Local Open Scope string_scope.
Local Open Scope list_scope.

(** the nodes lie in the source; no header has two lines *)
Definition readable_preface (source : string) (index : list N) (nodes : list tree) : Prop :=
  (slen source < 2 ^ 63)%N /\ List.length index = String.length source /\ Forall one_line nodes /\ Forall (inside_source source) nodes.
Definition name_error (index : list N) (e : option (list range)) : option annotation := option_map (fun m => An (characters index m) 2 name_expected) e.
Lemma fine_inside : forall source l, Forall (inside_source source) l -> Forall (PayloadsNodes.fine source) l.
Proof. intros source l H. apply Forall_forall. intros t I. rewrite Forall_forall in H. apply H in I. unfold inside_source in I. destruct t as [k x z m cs]. inversion I; subst. assumption. Qed.
(** ** C84: metadata, name, description and elements, the error and the warnings are as specified, and nothing else; for every document that has an outline (C76) *)
Theorem C84_document : forall source index required inside base nodes ps rest r, readable_preface source index nodes -> outline inside base nodes = Val (Sec BlueprintSection ps [], rest) ->
  (read_preface source index required nodes ps = Val r <-> exists f e w, preface_says source required nodes ps f e w /\ r = (f, name_error index e, map (shown index) w)).
Proof.
  intros source index required inside base nodes ps rest r (Small & Indexed & One & Fit) E. destruct (C76_outline _ _ _ _ _ One E) as (_ & En & Ok). cbn [section_nodes] in En. fold (nodes_of ps) in En.
  pose proof (fine_inside source nodes Fit) as Fn. assert (Fp : Forall (PayloadsNodes.fine source) (nodes_of ps)) by now rewrite En. pose proof (metas_are base ps Ok) as M.
  split.
  - intros R. destruct (preface_total source index Small Indexed base required nodes ps Ok Fp) as (f & e & w & S). exists f, e, w. split; [exact S|]. rewrite (preface_ok source index Small Indexed required nodes ps f e w M Fn Fp S) in R. now injection R as <-.
  - intros (f & e & w & S & ->). exact (preface_ok source index Small Indexed required nodes ps f e w M Fn Fp S).
Qed.
Print Assumptions C84_document.
Theorem C84_ends : forall source index required inside base nodes ps rest, readable_preface source index nodes -> outline inside base nodes = Val (Sec BlueprintSection ps [], rest) ->
  exists r, read_preface source index required nodes ps = Val r.
Proof.
  intros source index required inside base nodes ps rest (Small & Indexed & One & Fit) E. destruct (C76_outline _ _ _ _ _ One E) as (_ & En & Ok). cbn [section_nodes] in En. fold (nodes_of ps) in En.
  pose proof (fine_inside source nodes Fit) as Fn. assert (Fp : Forall (PayloadsNodes.fine source) (nodes_of ps)) by now rewrite En.
  destruct (preface_total source index Small Indexed base required nodes ps Ok Fp) as (f & e & w & S). eexists. exact (preface_ok source index Small Indexed required nodes ps f e w (metas_are base ps Ok) Fn Fp S).
Qed.
Print Assumptions C84_ends.

(** ** if names are required, a document without error has one; without error and warnings, a document with a description has one *)
Theorem C84_name : forall source index required inside base nodes ps rest f e w, readable_preface source index nodes -> outline inside base nodes = Val (Sec BlueprintSection ps [], rest) ->
  read_preface source index required nodes ps = Val (f, e, w) -> nodes <> [] ->
  (required = true -> (e = None <-> f_name f <> "")) /\ (required = false -> e = None) /\ (e = None -> w = [] -> f_description f <> "" -> f_name f <> "").
Proof.
  intros source index required inside base nodes ps rest f e w Rd E R Ne. apply (C84_document _ _ _ _ _ _ _ _ _ Rd E) in R as (f' & e' & w' & S & X). injection X as <- -> ->.
  destruct S as [(-> & _)|(m & o & d & r & ms & texts & w1 & w2 & w3 & _ & _ & _ & _ & _ & _ & (t & _ & H) & ->)]; [contradiction|].
  destruct H as [(N & -> & ->)|[(N & -> & -> & ->)|[(N & -> & D & -> & ->)|(N & -> & D & -> & ->)]]]; cbn; repeat split; try tauto; try discriminate; try contradiction.
  intros _ H. rewrite !map_app in H. apply app_eq_nil in H as [_ H]. now apply app_eq_nil in H as [_ H].
Qed.
Print Assumptions C84_name.

(** ** without warnings the names of the groups are different, and so are the keys in each paragraph of metadata, where every line is a pair *)
Definition group_names (l : list element) : list string := flat_map (fun e => match e with Grouped n _ => [n] | _ => [] end) l.
Lemma names_in : forall l n, In n (group_names l) <-> exists es, In (Grouped n es) l.
Proof.
  intros l n. unfold group_names. rewrite in_flat_map. split.
  - intros ([| |m es|] & I & J); try destruct J as [<-|[]]; try destruct J; eauto.
  - intros (es & I). exists (Grouped n es). split; [exact I|now left].
Qed.
Lemma holds_distinct : forall source l ps l' w, document_holds source l ps l' w -> w = [] -> NoDup (group_names l) -> NoDup (group_names l').
Proof.
  intros source l ps l' w H. induction H as [l|l qs ex r l' uri w A H IH|l qs ex r l' name es w1 w2 w G R H IH|l qs ex r l' w H IH|l t r l' w v A H IH]; intros W D.
  - exact D.
  - apply IH; [exact W|]. unfold group_names. rewrite flat_map_app. cbn. now rewrite app_nil_r.
  - apply app_eq_nil in W as [_ W]. apply app_eq_nil in W as [W2 W]. apply IH; [exact W|]. unfold group_names. rewrite flat_map_app. cbn [flat_map app]. fold (group_names l).
    destruct R as [(_ & what & h & r0 & _ & _ & E)|(N & _)]; [congruence|]. apply (Permutation.Permutation_NoDup (Permutation.Permutation_cons_append (group_names l) name)). constructor; [|exact D].
    rewrite names_in. intros (es' & I). exact (N es' I).
  - apply IH; [exact W|]. unfold group_names. rewrite flat_map_app. cbn. now rewrite app_nil_r.
  - apply app_eq_nil in W as [_ W]. now apply IH.
Qed.
Lemma none_repeats : forall l a, repeats a l [] -> (forall k, In k l -> ~ In k a) -> NoDup l.
Proof.
  induction l as [|k r IH]; intros a H N; [constructor|]. inversion H as [| |a0 k0 r0 ks0 O R]; subst. assert (Nr : ~ In k r) by (destruct O as [I|I]; [now elim (N k (or_introl eq_refl))|exact I]).
  constructor; [exact Nr|]. apply (IH (a ++ [k]) R). intros j J. rewrite in_app_iff. intros [K|[<-|[]]]; [exact (N j (or_intror J) K)|contradiction].
Qed.
Theorem C84_no_warnings : forall source index required inside base nodes ps rest f e, readable_preface source index nodes -> outline inside base nodes = Val (Sec BlueprintSection ps [], rest) ->
  read_preface source index required nodes ps = Val (f, e, []) ->
  NoDup (group_names (f_elements f)) /\
  forall t, nodes <> [] -> In (Meta t) ps -> exists ls pairs, lines_of (the_text t) ls /\ Forall (fun l => exists k v, pair_line l k v) ls /\ pairs_in ls pairs /\ NoDup (map fst pairs) /\ incl pairs (f_metadata f).
Proof.
  intros source index required inside base nodes ps rest f e Rd E R. apply (C84_document _ _ _ _ _ _ _ _ _ Rd E) in R as (f' & e' & w' & S & X). injection X as <- -> W. symmetry in W. apply map_eq_nil in W as ->.
  destruct S as [(-> & -> & _)|(m & o & d & r & ms & texts & w1 & w2 & w3 & Ep & Hm & Em & Ho & _ & Hr & _ & W)]; [split; [constructor|now intros t []]|].
  symmetry in W. apply app_eq_nil in W as [-> W]. apply app_eq_nil in W as [-> ->]. split; [apply (holds_distinct _ _ _ _ _ Hr eq_refl); constructor|]. intros t _ I.
  assert (J : In t m).
  { rewrite Ep, !in_app_iff in I. destruct I as [I|[I|[I|I]]].
    - apply in_map_iff in I as (u & U & I). now injection U as ->.
    - destruct Ho as [(-> & _)|[(h & -> & _)|(u & -> & _)]]; [destruct I| |]; destruct I as [I|[]]; discriminate.
    - apply in_map_iff in I as (u & U & I). discriminate.
    - exfalso. clear - Hr I. remember [] as w eqn:Ew in Hr. clear Ew. induction Hr as [| | | |l u r l' w v A H IH]; cbn in I; try destruct I as [I|I]; try discriminate; auto. }
  clear - Hm Em J. rewrite Em. clear Em. remember [] as w eqn:Ew in Hm. induction Hm as [|u m p ms cs1 cs2 S1 H IH]; [destruct J|]. apply app_eq_nil in Ew as [-> ->]. destruct J as [-> |J].
  - destruct S1 as (ls & L & P & [(F & ks & K & M)|(_ & M)]); [|discriminate]. symmetry in M. apply map_eq_nil in M as ->. exists ls, p. repeat split; [exact L|exact F|exact P|now apply (none_repeats _ [] K)|apply incl_appl, incl_refl].
  - destruct (IH eq_refl J) as (ls & q & L & F & P & N & I). exists ls, q. repeat split; [exact L|exact F|exact P|exact N|]. cbn [concat]. now apply incl_appr.
Qed.
Print Assumptions C84_no_warnings.

(** ** the resources that are elements, of the document and of its groups, are the resources of the document (C78), in order *)
Definition paths (l : list element) : list string :=
  flat_map (fun e => match e with Held u => [u] | Grouped _ k => flat_map (fun g => match g with Held u => [u] | _ => [] end) k | _ => [] end) l.
Definition own_paths (l : list element) : list string := flat_map (fun g => match g with Held u => [u] | _ => [] end) l.
Lemma path_of : forall source index nested found_none T qs r T' ev uri, resource_says source index nested found_none T qs r T' ev -> resource_at qs uri -> e_uri r = uri.
Proof.
  intros source index nested found_none T qs r T' ev uri H (t & r0 & -> & A).
  destruct H as [(k & ps & ex & h & a & w & name & u & -> & Hh & Er & _ & _ & -> & _)|(h & d & l & hs & name & u & m & -> & Er & _ & _ & _ & ->)]; destruct A as [A|(k' & ps' & ex' & A)]; try discriminate.
  - injection A as <- -> _ _. cbn in Hh. subst h. rewrite Er. reflexivity.
  - injection A as <- _. rewrite Er. reflexivity.
Qed.
Lemma own_app : forall a b, own_paths (a ++ b) = own_paths a ++ own_paths b.
Proof. intros a b. apply flat_map_app. Qed.
Lemma paths_app : forall a b, paths (a ++ b) = paths a ++ paths b.
Proof. intros a b. apply flat_map_app. Qed.
Definition resources_of_group (l : list part) : list (list part) := flat_map (fun y => match y with Sub (Sec ResourceSection k _) => [k] | _ => [] end) l.
Lemma group_of : forall l ps l' w, group_holds l ps l' w -> exists us, own_paths l' = own_paths l ++ us /\ Forall2 resource_at (resources_of_group ps) us.
Proof.
  intros l ps l' w H. induction H as [l|l qs ex r l' uri w A H (us & E & F)|l t r l' w v A H IH].
  - exists []. split; [now rewrite app_nil_r|constructor].
  - exists (uri :: us). split; [|now constructor]. rewrite E, own_app. cbn. now rewrite <- app_assoc.
  - exact IH.
Qed.
Lemma group_paths : forall source ps name l w, group_says source ps name l w -> Forall2 resource_at (resources_of_group ps) (own_paths l).
Proof.
  intros source ps name l w (h & d & r & -> & _ & H). assert (E : forall k, resources_of_group (map Text k ++ r) = resources_of_group r) by (induction k; [reflexivity|assumption]).
  change (resources_of_group (Head h :: map Text d ++ r)) with (resources_of_group (map Text d ++ r)).
  rewrite E. destruct H as [[_ H]|[_ (x & _ & H)]]; apply group_of in H as (us & -> & F); exact F.
Qed.
Lemma document_paths : forall source l ps l' w, document_holds source l ps l' w -> exists us, paths l' = paths l ++ us /\ Forall2 resource_at (resources_in ps) us.
Proof.
  intros source l ps l' w H. induction H as [l|l qs ex r l' uri w A H (us & E & F)|l qs ex r l' name es w1 w2 w G R H (us & E & F)|l qs ex r l' w H (us & E & F)|l t r l' w v A H IH].
  - exists []. split; [now rewrite app_nil_r|constructor].
  - exists (uri :: us). split; [|now constructor]. rewrite E, paths_app. cbn. now rewrite <- app_assoc.
  - exists (own_paths es ++ us). split; [rewrite E, paths_app; cbn; now rewrite app_nil_r, <- app_assoc|]. unfold resources_in. cbn [flat_map]. apply Forall2_app; [exact (group_paths _ _ _ _ _ G)|exact F].
  - exists us. split; [|exact F]. rewrite E, paths_app. cbn. now rewrite app_nil_r.
  - exact IH.
Qed.
Lemma says_paths : forall source index nested found_none b T l rs T' ev us, resources_say source index nested found_none b T l rs T' ev -> Forall2 resource_at l us -> map e_uri rs = us.
Proof.
  intros source index nested found_none b T l rs T' ev us H. revert us. induction H as [|b T ps l r rs h T1 T2 e w f H1 H2 H3 H IH]; intros us F; inversion F; subst; [reflexivity|]. cbn. f_equal; [eapply path_of; eassumption|now apply IH].
Qed.
Lemma settled_paths : forall found_none T rs0 rs f, each_of (settled_resource found_none T) rs0 rs f -> map e_uri rs = map e_uri rs0.
Proof. intros found_none T rs0 rs f H. induction H as [|x y l r e f (k & _ & ->) H IH]; [reflexivity|]. cbn. now rewrite IH. Qed.
Theorem C84_resources : forall source index nested found_none required inside base nodes ps rest rs st f e w, readable_document source index nodes -> answers nested -> nodes <> [] ->
  outline inside base nodes = Val (Sec BlueprintSection ps [], rest) -> read_document source index nested found_none ps = Val (rs, st) -> read_preface source index required nodes ps = Val (f, e, w) ->
  map e_uri rs = paths (f_elements f).
Proof.
  intros source index nested found_none required inside base nodes ps rest rs st f e w Rd Nest Ne E D R. destruct (C78_document source index nested found_none inside base nodes ps rest Rd Nest E) as (rs' & T & ms & ev & (rs0 & e0 & f0 & S1 & S2 & _) & _ & D'). rewrite D' in D. injection D as -> _.
  assert (Rp : readable_preface source index nodes) by (destruct Rd as (A & B & _ & C & F); repeat (split; [assumption|]); apply Forall_forall; intros t I; rewrite Forall_forall in F; now destruct (F t I)).
  apply (C84_document _ _ _ _ _ _ _ _ _ Rp E) in R as (f' & e' & w' & S & X). injection X as <- _ _. destruct S as [(K & _)|(m & o & d & r & ms' & texts & w1 & w2 & w3 & Ep & _ & _ & Ho & _ & Hr & _)]; [contradiction|].
  rewrite (settled_paths _ _ _ _ _ S2). apply document_paths in Hr as (us & -> & F). cbn [paths flat_map app]. eapply says_paths; [exact S1|]. rewrite Ep. unfold resources_in. rewrite !flat_map_app.
  assert (Em : forall l, flat_map (fun x => match x with Sub (Sec ResourceSection l _) => [l] | Sub (Sec ResourceGroupSection l _) => resources_of_group l | _ => [] end) (map Meta l) = []) by (induction l; [reflexivity|assumption]).
  assert (Et : forall l, flat_map (fun x => match x with Sub (Sec ResourceSection l _) => [l] | Sub (Sec ResourceGroupSection l _) => resources_of_group l | _ => [] end) (map Text l) = []) by (induction l; [reflexivity|assumption]).
  unfold resources_of_group in Em, Et. rewrite Em, Et. replace (flat_map _ o) with (@nil (list part)) by (destruct Ho as [(-> & _)|[(h & -> & _)|(u & -> & _)]]; reflexivity). exact F.
Qed.
Print Assumptions C84_resources.

(** ** a document with everything: a second group of the same name is reported *)
Definition prefaced (required : bool) (source : string) (nodes : list tree) : option (outcome (preface * option annotation * report)) :=
  match outline calm plain_base nodes with Val (Sec _ ps _, _) => Some (read_preface source (bytes (String.length source)) required nodes ps) | _ => None end.
Definition whole_source : string := "FORMAT: 1A" +++ line_feed +++ "HOST: http://x" +++ line_feed +++ line_feed +++ "# API" +++ line_feed +++ line_feed +++ "Some text" +++ line_feed +++ line_feed +++ "More" +++ line_feed +++ line_feed +++ "# Group Users" +++ line_feed +++ line_feed +++ "Of users" +++ line_feed +++ line_feed +++ "# A [/a]" +++ line_feed +++ line_feed +++ "# Group" +++ line_feed +++ line_feed +++ "# B [/b]" +++ line_feed +++ line_feed +++ "# Group Users " +++ line_feed +++ line_feed +++ "# Data Structures" +++ line_feed +++ line_feed.
Definition whole_nodes : list tree := [node ParagraphNode ("FORMAT: 1A" +++ line_feed +++ "HOST: http://x") 0 26 [];
  node HeaderNode ("API") 27 6 [];
  node ParagraphNode ("Some text") 34 10 [];
  node ParagraphNode ("More") 45 5 [];
  node HeaderNode ("Group Users") 51 14 [];
  node ParagraphNode ("Of users") 66 9 [];
  node HeaderNode ("A [/a]") 76 9 [];
  node HeaderNode ("Group") 86 8 [];
  node HeaderNode ("B [/b]") 95 9 [];
  node HeaderNode ("Group Users ") 105 15 [];
  node HeaderNode ("Data Structures") 121 18 []].
Definition whole_preface : preface := Preface [("FORMAT", "1A"); ("HOST", "http://x")] "API" ("Some text" +++ line_feed +++ line_feed +++ "More") [Grouped "Users" [Copy "Of users"; Held "/a"; Held "/b"]; Grouped "Users" []; Structures].
Ltac no_line H := vm_compute in H; repeat (destruct H as [H|H]; [discriminate H|]); destruct H.
Example C84_whole : readable_preface whole_source (bytes (String.length whole_source)) whole_nodes /\ prefaced true whole_source whole_nodes = Some (Val (whole_preface, None, [An [R 105 15] 2 "group 'Users' is already defined"])).
Proof.
  split; [|vm_compute; reflexivity]. split; [vm_compute; reflexivity|]. split; [reflexivity|]. split.
  - repeat (constructor; [first [exact I|intros H; no_line H]|]). constructor.
  - repeat (constructor; [inside|]). constructor.
Qed.
(** of the resources of C78: the same paths, in the same order *)
Example C84_late : readable_document late_source (bytes 145) late_nodes /\ prefaced false late_source late_nodes = Some (Val (Preface [] "" "" [Held "/a"; Held "/user"], None, [])) /\
  map e_uri late_resources = paths [Held "/a"; Held "/user"].
Proof. split; [exact (proj1 C78_late)|]. split; [vm_compute; reflexivity|reflexivity]. Qed.
(** a key twice in a paragraph *)
Definition key_source : string := "K: a" +++ line_feed +++ "K: b" +++ line_feed +++ line_feed +++ "Words" +++ line_feed.
Definition key_nodes : list tree := [node ParagraphNode ("K: a" +++ line_feed +++ "K: b") 0 10 []; node ParagraphNode "Words" 11 6 []].
Example C84_key : prefaced false key_source key_nodes = Some (Val (Preface [("K", "a"); ("K", "b")] "" "Words" [], None, [An [R 0 10] 2 "duplicate definition of 'K'"; An [R 0 10] 1 name_expected])) /\
  prefaced true key_source key_nodes = Some (Val (Preface [("K", "a"); ("K", "b")] "" "Words" [], Some (An [R 0 10] 2 name_expected), [An [R 0 10] 2 "duplicate definition of 'K'"])).
Proof. split; vm_compute; reflexivity. Qed.
(** ** what is not said *)
(** a key in two paragraphs of metadata *)
Definition keys_source : string := "K: a" +++ line_feed +++ line_feed +++ "K: b" +++ line_feed +++ line_feed +++ "# API" +++ line_feed +++ line_feed.
Definition keys_nodes : list tree := [node ParagraphNode ("K: a") 0 5 [];
  node ParagraphNode ("K: b") 6 5 [];
  node HeaderNode ("API") 12 6 []].
Theorem C84_keys_refuted : prefaced true keys_source keys_nodes = Some (Val (Preface [("K", "a"); ("K", "b")] "API" "" [], None, [])).
Proof. vm_compute. reflexivity. Qed.
(** metadata that is said to be ignored is kept, and then of keys given twice nothing is said *)
Definition broken_source : string := "K: a" +++ line_feed +++ "K: b" +++ line_feed +++ "and more" +++ line_feed +++ line_feed +++ "# API" +++ line_feed +++ line_feed.
Definition broken_nodes : list tree := [node ParagraphNode ("K: a" +++ line_feed +++ "K: b" +++ line_feed +++ "and more") 0 19 [];
  node HeaderNode ("API") 20 6 []].
Theorem C84_ignoring_refuted : prefaced true broken_source broken_nodes =
  Some (Val (Preface [("K", "a"); ("K", "b")] "API" "" [], None, [An [R 0 19] 3 "ignoring possible metadata, expected '<key> : <value>', one one per line"])).
Proof. vm_compute. reflexivity. Qed.
(** how to write several actions is said if there is no resource, and of the resource ''; where there is one, it is not said *)
Definition hint_source : string := "# API" +++ line_feed +++ line_feed +++ "# Group G" +++ line_feed +++ line_feed +++ "# GET /a" +++ line_feed +++ line_feed +++ "# POST" +++ line_feed +++ line_feed.
Definition hint_nodes : list tree := [node HeaderNode ("API") 0 6 [];
  node HeaderNode ("Group G") 7 10 [];
  node HeaderNode ("GET /a") 18 9 [];
  node HeaderNode ("POST") 28 7 []].
Definition no_resource_source : string := "# API" +++ line_feed +++ line_feed +++ "# Group G" +++ line_feed +++ line_feed +++ "# GET/a" +++ line_feed +++ line_feed +++ "# POST" +++ line_feed +++ line_feed.
Definition no_resource_nodes : list tree := [node HeaderNode ("API") 0 6 [];
  node HeaderNode ("Group G") 7 10 [];
  node HeaderNode ("GET/a") 18 8 [];
  node HeaderNode ("POST") 27 7 []].
Definition unexpected_header : string := "unexpected header block, expected a group, resource or an action definition, e.g. '# Group <name>', '# <resource name> [<URI>]' or '# <HTTP method> <URI>'".
Theorem C84_hint_refuted : prefaced true hint_source hint_nodes = Some (Val (Preface [] "API" "" [Grouped "G" [Held "/a"]], None, [An [R 28 7] 5 unexpected_header])) /\
  prefaced true no_resource_source no_resource_nodes = Some (Val (Preface [] "API" "" [Grouped "G" []], None, [An [R 18 8] 5 unexpected_header;
    An [R 27 7] 5 "unexpected action 'POST', to define multiple actions for the '' resource omit the HTTP method in its definition, e.g. '# /resource'"])).
Proof. split; vm_compute; reflexivity. Qed.
