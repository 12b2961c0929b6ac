(** Property C78: the requests, the responses and the models of a document *)
From Verif Require Import Base StringUtility StringSpec StringProofs SignatureProofs Regex RegexSpec RegexProofs ByteBuffer ByteSpec ByteProofs Markdown MarkdownSpec MarkdownTree Keywords KeywordsSpec KeywordsProofs KeywordsOrder Prop_Keywords TypeTables Sections SectionsSpec SectionsKeys SectionsLoop SectionsUnique Prop_Sections.
From Verif Require Import Source Headers HeadersSpec HeadersProofs Prop_Headers Payloads PayloadsSpec PayloadsText PayloadsLine PayloadsNodes PayloadsParts PayloadsLoop PayloadsShort PayloadsWhole Prop_Payloads Transactions TransactionsSpec TransactionsBase TransactionsAction TransactionsResource TransactionsDoc TransactionsRefs.
Local Open Scope string_scope.
Local Open Scope list_scope.

(** the nodes lie in the source; no header has two lines; [s]: the outline of the document (C76) *)
Definition readable_document (source : string) (index : list N) (nodes : list tree) : Prop :=
  (slen source < 2 ^ 63)%N /\ List.length index = String.length source /\ ~ StringSpec.has NUL source /\ Forall one_line nodes /\ Forall (node_fits source) nodes.
(** ** C78: the resources, actions and transactions are as specified, for every document that has an outline; the one error kept is the last *)
Theorem C78_document : forall source index nested found_none inside base nodes ps rest,
  readable_document source index nodes -> answers nested -> outline inside base nodes = Val (Sec BlueprintSection ps [], rest) ->
  exists rs T ms ev, document_says source index nested found_none ps rs T ev /\ (forall i, T i = find_model ms i) /\
    read_document source index nested found_none ps = Val (rs, State ms (last_error index ev) (warnings index ev)).
Proof.
  intros source index nested found_none inside base nodes ps rest (Small & Indexed & Nul & One & Fit) Nest E. destruct (C76_outline _ _ _ _ _ One E) as (_ & En & Ok). apply (document_reads source index nested found_none Small Indexed Nul Nest base); [exact Ok|].
  cbn [section_nodes] in En. unfold nodes_of. now rewrite En.
Qed.
(** ** what a reference stands for: if there is no error, everything a request or a response refers to is a model of the document, wherever it is, and the
    payload has its description, parameters and schema; its body is the model's with the texts added, its headers end in the model's *)
Theorem C78_references : forall source index nested found_none inside base nodes ps rest rs st r a e p,
  readable_document source index nodes -> answers nested -> outline inside base nodes = Val (Sec BlueprintSection ps [], rest) ->
  read_document source index nested found_none ps = Val (rs, st) -> s_error st = None ->
  In r rs -> In a (e_actions r) -> In e (a_examples a) -> In p (fst e ++ snd e) -> r_id (q_reference p) <> "" ->
  r_state (q_reference p) = Resolved /\ exists m, find_model (s_models st) (r_id (q_reference p)) = Some m /\ q_description p = q_description m /\ q_parameters p = q_parameters m /\ q_schema p = q_schema m /\
    (exists more, q_body p = (q_body m +++ more)%string) /\ (exists hs, q_headers p = hs ++ q_headers m).
Proof.
  intros source index nested found_none inside base nodes ps rest rs st r a e p Rd Nest Eo Er En I1 I2 I3 I4 Ne. destruct (C78_document source index nested found_none inside base nodes ps rest Rd Nest Eo) as (rs' & T & ms & ev & Sy & Te & E). rewrite E in Er. injection Er as <- <-. cbn [s_error s_models] in *.
  apply errors_none in En. destruct (document_references source index nested found_none ps rs' T ev r a p Sy En I1 I2 (ex_intro _ e (conj I3 I4)) Ne) as (Rs & m & Tm & L). split; [exact Rs|]. exists m. rewrite <- Te. now split.
Qed.
(** ** what the names of models stand for: if there is no error, no two models have the same name, and each name stands for its model *)
Theorem C78_models : forall source index nested found_none inside base nodes ps rest rs st,
  readable_document source index nodes -> answers nested -> outline inside base nodes = Val (Sec BlueprintSection ps [], rest) ->
  read_document source index nested found_none ps = Val (rs, st) -> s_error st = None ->
  NoDup (filter (fun s => negb (String.eqb s "")) (map (fun r => q_name (e_model r)) rs)) /\
  forall r, In r rs -> q_name (e_model r) <> "" -> find_model (s_models st) (q_name (e_model r)) = Some (e_model r).
Proof.
  intros source index nested found_none inside base nodes ps rest rs st Rd Nest Eo Er En. destruct (C78_document source index nested found_none inside base nodes ps rest Rd Nest Eo) as (rs' & T & ms & ev & Sy & Te & E). rewrite E in Er. injection Er as <- <-. cbn [s_error s_models] in *.
  apply errors_none in En. destruct (document_models source index nested found_none ps rs' T ev Sy En) as [A B]. split; [unfold model_names in A; now rewrite map_map in A|]. intros r I1 N. rewrite <- Te. now apply B.
Qed.

(** ** a reference to a model that comes later, and a request with its response *)
Definition late_source : string := "# A [/a]" +++ line_feed +++ line_feed +++ "# GET" +++ line_feed +++ line_feed +++ "+ Response 200" +++ line_feed +++ line_feed +++ "    [User][]" +++ line_feed +++ line_feed +++ "# User [/user]" +++ line_feed +++ line_feed +++ "+ Model (text/plain)" +++ line_feed +++ line_feed +++ "        Ann" +++ line_feed +++ line_feed +++ "# PUT" +++ line_feed +++ line_feed +++ "+ Request" +++ line_feed +++ line_feed +++ "        Bob" +++ line_feed +++ line_feed +++ "+ Response 204" +++ line_feed +++ line_feed.
Definition late_nodes : list tree := [node HeaderNode "A [/a]" 0 9 [];
  node HeaderNode "GET" 10 6 [];
  node ItemNode "" 17 30 [node ParagraphNode "Response 200" 19 12 []; node ParagraphNode "[User][]" 37 8 []];
  node HeaderNode "User [/user]" 47 15 [];
  node ItemNode "" 63 35 [node ParagraphNode "Model (text/plain)" 65 18 []; node CodeNode ("Ann" +++ line_feed) 93 4 []];
  node HeaderNode "PUT" 98 6 [];
  node ItemNode "" 105 24 [node ParagraphNode "Request" 107 7 []; node CodeNode ("Bob" +++ line_feed) 124 4 []];
  node ItemNode "" 129 16 [node ParagraphNode "Response 204" 131 12 []]].
Definition late_parts : list part := Eval vm_compute in match outline calm plain_base late_nodes with Val (Sec _ ps _, _) => ps | _ => [] end.
Definition ann : payload := Load "User" "" [] [("Content-Type", "text/plain")] [] ("Ann" +++ line_feed) "" no_reference.
Definition late_resources : list resource :=
  [Resource "A" "/a" empty_payload [] [Action "" "GET" "" [] [([], [Load "200" "" [] [("Content-Type", "text/plain")] [] ("Ann" +++ line_feed) "" (Ref "User" Resolved [R 37 8])])]];
   Resource "User" "/user" ann [] [Action "" "PUT" "" [] [([Load "" "" [] [] [] ("Bob" +++ line_feed) "" no_reference], [Load "204" "" [] [] [] "" "" no_reference])]]].
Ltac fits_node := split; [inside|]; split;
  [intros _; split; [intros c K Hc; cbn in K; repeat (destruct K as [<-|K]; [no_headers Hc|]); destruct K|]; split; [intros c K; cbn in K; repeat (destruct K as [<-|K]; [too_long|]); destruct K|no_blank]
  |split; [intros K; no_headers K|unwritten]].
Example C78_late : readable_document late_source (bytes 145) late_nodes /\ outline calm plain_base late_nodes = Val (Sec BlueprintSection late_parts [], []) /\
  read_document late_source (bytes 145) silent nothing late_parts = Val (late_resources, State [("User", ann)] None []).
Proof.
  split; [|split; vm_compute; reflexivity]. split; [vm_compute; reflexivity|]. split; [reflexivity|]. split; [intros H; no_nul H|]. split.
  - repeat (constructor; [first [exact I|intros H; no_nul H]|]). constructor.
  - repeat (constructor; [fits_node|]). constructor.
Qed.

(** ** what does not hold *)
(** where the model is makes a difference: a text behind a reference to a model that comes later is lost; the warning only says it should be indented *)
Definition lost_source : string := "# A [/a]" +++ line_feed +++ line_feed +++ "# GET" +++ line_feed +++ line_feed +++ "+ Response 200" +++ line_feed +++ line_feed +++ "    [User][]" +++ line_feed +++ line_feed +++ "    more" +++ line_feed +++ line_feed +++ "# User [/user]" +++ line_feed +++ line_feed +++ "+ Model (text/plain)" +++ line_feed +++ line_feed +++ "        Ann" +++ line_feed +++ line_feed.
Definition lost_nodes : list tree := [node HeaderNode "A [/a]" 0 9 [];
  node HeaderNode "GET" 10 6 [];
  node ItemNode "" 17 30 [node ParagraphNode "Response 200" 19 12 []; node ParagraphNode "[User][]" 37 8 []];
  node CodeNode ("more" +++ line_feed) 51 5 [];
  node HeaderNode "User [/user]" 57 15 [];
  node ItemNode "" 73 35 [node ParagraphNode "Model (text/plain)" 75 18 []; node CodeNode ("Ann" +++ line_feed) 103 4 []]].
Definition early_source : string := "# User [/user]" +++ line_feed +++ line_feed +++ "+ Model (text/plain)" +++ line_feed +++ line_feed +++ "        Ann" +++ line_feed +++ line_feed +++ "# A [/a]" +++ line_feed +++ line_feed +++ "# GET" +++ line_feed +++ line_feed +++ "+ Response 200" +++ line_feed +++ line_feed +++ "    [User][]" +++ line_feed +++ line_feed +++ "    more" +++ line_feed +++ line_feed.
Definition early_nodes : list tree := [node HeaderNode "User [/user]" 0 15 [];
  node ItemNode "" 16 35 [node ParagraphNode "Model (text/plain)" 18 18 []; node CodeNode ("Ann" +++ line_feed) 46 4 []];
  node HeaderNode "A [/a]" 51 9 [];
  node HeaderNode "GET" 61 6 [];
  node ItemNode "" 68 30 [node ParagraphNode "Response 200" 70 12 []; node ParagraphNode "[User][]" 88 8 []];
  node CodeNode ("more" +++ line_feed) 102 5 []].
Definition resources_of (source : string) (n : nat) (nodes : list tree) : option (list resource * option annotation * list N) :=
  match outline calm plain_base nodes with
  | Val (Sec _ ps _, _) => match read_document source (bytes n) silent nothing ps with Val (rs, st) => Some (rs, s_error st, map a_code (s_warnings st)) | _ => None end
  | _ => None
  end.
Definition body_of (r : option (list resource * option annotation * list N)) (n : nat) : option (string * option annotation * list N) :=
  match r with
  | Some (rs, e, w) => match nth_error rs n with Some (Resource _ _ _ _ [Action _ _ _ _ [([], [p])]]) => Some (q_body p, e, w) | _ => None end
  | None => None
  end.
Theorem C78_order_refuted : body_of (resources_of lost_source 108 lost_nodes) 0 = Some ("Ann" +++ line_feed, None, [10%N])%string /\
  body_of (resources_of early_source 108 early_nodes) 1 = Some ("Ann" +++ line_feed +++ "more" +++ line_feed +++ line_feed, None, [10%N])%string.
Proof. split; vm_compute; reflexivity. Qed.
(** of two errors the first is lost *)
Definition twice_source : string := "# User [/user]" +++ line_feed +++ line_feed +++ "+ Model (text/plain)" +++ line_feed +++ line_feed +++ "        Ann" +++ line_feed +++ line_feed +++ "# Other [/other]" +++ line_feed +++ line_feed +++ "+ User Model" +++ line_feed +++ line_feed +++ "        Bob" +++ line_feed +++ line_feed +++ "# GET" +++ line_feed +++ line_feed +++ "+ Response 200" +++ line_feed +++ line_feed +++ "    [Nobody][]" +++ line_feed +++ line_feed.
Definition twice_nodes : list tree := [node HeaderNode "User [/user]" 0 15 [];
  node ItemNode "" 16 35 [node ParagraphNode "Model (text/plain)" 18 18 []; node CodeNode ("Ann" +++ line_feed) 46 4 []];
  node HeaderNode "Other [/other]" 51 17 [];
  node ItemNode "" 69 27 [node ParagraphNode "User Model" 71 10 []; node CodeNode ("Bob" +++ line_feed) 91 4 []];
  node HeaderNode "GET" 96 6 [];
  node ItemNode "" 103 32 [node ParagraphNode "Response 200" 105 12 []; node ParagraphNode "[Nobody][]" 123 10 []]].
Theorem C78_first_error_refuted : exists ps st rs ev, outline calm plain_base twice_nodes = Val (Sec BlueprintSection ps [], []) /\ read_document twice_source (bytes 135) silent nothing ps = Val (rs, st) /\
  s_error st = Some (An [R 123 10] 3 "Undefined resource model Nobody") /\ s_warnings st = [] /\ errors (bytes 135) ev = [An [R 69 27] 3 "symbol 'User' already defined"; An [R 123 10] 3 "Undefined resource model Nobody"] /\
  last_error (bytes 135) ev = s_error st.
Proof.
  do 3 eexists. exists [Fails "symbol 'User' already defined" [R 69 27]; Fails "Undefined resource model Nobody" [R 123 10]]. split; [vm_compute; reflexivity|]. split; [vm_compute; reflexivity|]. split; [vm_compute; reflexivity|]. split; [vm_compute; reflexivity|]. split; vm_compute; reflexivity.
Qed.
(** a model that refers to a later model stays empty, without an error or a warning; and so do those who refer to it *)
Definition chain_source : string := "# A [/a]" +++ line_feed +++ line_feed +++ "+ Model" +++ line_feed +++ line_feed +++ "    [User][]" +++ line_feed +++ line_feed +++ "# GET" +++ line_feed +++ line_feed +++ "+ Response 200" +++ line_feed +++ line_feed +++ "    [A][]" +++ line_feed +++ line_feed +++ "# User [/user]" +++ line_feed +++ line_feed +++ "+ Model (text/plain)" +++ line_feed +++ line_feed +++ "        Ann" +++ line_feed +++ line_feed.
Definition chain_nodes : list tree := [node HeaderNode "A [/a]" 0 9 [];
  node ItemNode "" 10 23 [node ParagraphNode "Model" 12 5 []; node ParagraphNode "[User][]" 23 8 []];
  node HeaderNode "GET" 33 6 [];
  node ItemNode "" 40 27 [node ParagraphNode "Response 200" 42 12 []; node ParagraphNode "[A][]" 60 5 []];
  node HeaderNode "User [/user]" 67 15 [];
  node ItemNode "" 83 35 [node ParagraphNode "Model (text/plain)" 85 18 []; node CodeNode ("Ann" +++ line_feed) 113 4 []]].
Theorem C78_chain_refuted : exists r rest, resources_of chain_source 118 chain_nodes = Some (r :: rest, None, []) /\ r_state (q_reference (e_model r)) = Pending /\ r_id (q_reference (e_model r)) = "User" /\
  q_body (e_model r) = "" /\ exists q, rest = [q] /\ q_name (e_model q) = "User" /\ q_body (e_model q) = ("Ann" +++ line_feed)%string.
Proof. do 2 eexists. split; [vm_compute; reflexivity|]. split; [reflexivity|]. split; [reflexivity|]. split; [reflexivity|]. eexists. now repeat split. Qed.
Print Assumptions C78_document.
Print Assumptions C78_references.
Print Assumptions C78_models.
