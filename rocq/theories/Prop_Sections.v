(** C76: the outline of a document *)
From Verif Require Import Base StringSpec ByteBuffer Markdown MarkdownSpec Keywords KeywordsSpec Prop_Keywords TypeTables Sections SectionsSpec SectionsLoop SectionsFine SectionsParts SectionsDoc SectionsUnique.
Local Open Scope string_scope.

(** Whatever the list items hold ([inside]) and the named types derive from ([base]): a document that is read has an outline as specified,
    made of all its nodes in their order *)
Theorem C76_outline : forall inside base nodes s rest, Forall one_line nodes -> outline inside base nodes = Val (s, rest) ->
  rest = [] /\ section_nodes s = nodes /\ document_ok base s.
Proof. intros inside base nodes s rest O E. pose proof (outline_fine inside base nodes O) as H. rewrite E in H. exact H. Qed.
Print Assumptions C76_outline.

(** and there is only one such outline *)
Theorem C76_only : forall base s s', Forall one_line (section_nodes s) -> document_ok base s -> document_ok base s' -> section_nodes s = section_nodes s' -> s = s'.
Proof. exact document_unique. Qed.
Print Assumptions C76_only.

(** Reading ends, reads no node beyond the last, and throws nothing but what the list items throw, unless the document is refused *)
Theorem C76_ends : forall inside base nodes, Forall one_line nodes -> (forall ty t, In t nodes -> exists u, inside ty t = Val u) -> ~ doc_refused nodes ->
  exists s, outline inside base nodes = Val (s, []) /\ section_nodes s = nodes /\ document_ok base s.
Proof.
  intros inside base nodes O I N. pose proof (outline_fine inside base nodes O) as H.
  assert (X : forall x, (forall u, x <> Val u) -> ~ inside_is inside x nodes) by (intros x Nx (ty & t & In & E); destruct (I ty t In) as (u & Eu); apply (Nx u); congruence).
  destruct (outline inside base nodes) as [[s r]| | |]; cbn in H.
  - destruct H as (E & H). cbn in E. subst r. exists s. now split.
  - elim (X ByteBuffer.Wild); [discriminate|exact H].
  - destruct H as [H|H]; [elim (X Thrown); [discriminate|exact H]|contradiction].
  - elim (X Endless); [discriminate|exact H].
Qed.
Print Assumptions C76_ends.

(** Such a document is read as specified, and only so *)
Theorem C76_iff : forall inside base nodes s, Forall one_line nodes -> (forall ty t, In t nodes -> exists u, inside ty t = Val u) -> ~ doc_refused nodes ->
  (outline inside base nodes = Val (s, []) <-> section_nodes s = nodes /\ document_ok base s).
Proof.
  intros inside base nodes s O I N. split.
  - intros E. exact (proj2 (C76_outline _ _ _ _ _ O E)).
  - intros (E & D). destruct (C76_ends inside base nodes O I N) as (s' & E' & N' & D'). rewrite E'. rewrite (C76_only base s s'); [reflexivity| | | |]; try assumption; congruence.
Qed.
Print Assumptions C76_iff.

(** In general: it goes wrong only as a list item goes wrong, or as the document is refused; a refusal is a thrown error *)
Theorem C76_wrong : forall inside base nodes, Forall one_line nodes ->
  match outline inside base nodes with
  | Val _ => True
  | Thrown => (exists ty t, In t nodes /\ inside ty t = Thrown) \/ doc_refused nodes
  | ByteBuffer.Wild => exists ty t, In t nodes /\ inside ty t = ByteBuffer.Wild
  | Endless => exists ty t, In t nodes /\ inside ty t = Endless
  end.
Proof. intros inside base nodes O. pose proof (outline_fine inside base nodes O) as H. destruct (outline inside base nodes); [exact I|exact H|exact H|exact H]. Qed.
Print Assumptions C76_wrong.

(** ** cases *)
Definition calm : section_type -> tree -> outcome unit := fun _ _ => Val tt.
Definition plain_base : tree -> base_type := fun _ => UndefinedBT.
Definition code (s : string) : tree := Tree CodeNode s 0 [] [].
Definition html (s : string) : tree := Tree HtmlNode s 0 [] [].
Definition res (s : string) (ps : list part) : section := Sec ResourceSection (Head (heading s) :: ps) [].
Definition read (nodes : list tree) : outcome (section * list tree) := outline calm plain_base nodes.
Definition doc (ps : list part) : outcome (section * list tree) := Val (Sec BlueprintSection ps [], []).

(** a document with metadata, a title, a description, a group, a resource, an action, a request and a response with a dangling body, and data structures *)
Definition big : list tree :=
  [paragraph "FORMAT: 1A"; heading "My API"; paragraph "It is mine"; heading "Group Users"; paragraph "Users"; heading "User [/users/{id}]"; paragraph "A user";
   list_item "Parameters" []; heading "Get [GET]"; list_item "Request (text/plain)" []; code "x"; list_item "Response 200" []; paragraph "y"; list_item "Request" []; list_item "Response 404" [];
   heading "Data Structures"; heading "User"; list_item "id" []; heading "Properties"; list_item "name" []].
Example C76_big : read big = doc
  [Meta (paragraph "FORMAT: 1A"); Head (heading "My API"); Text (paragraph "It is mine");
   Sub (Sec ResourceGroupSection [Head (heading "Group Users"); Text (paragraph "Users");
     Sub (Sec ResourceSection [Head (heading "User [/users/{id}]"); Text (paragraph "A user"); Listed ParametersSection (list_item "Parameters" []);
       Sub (Sec ActionSection [Head (heading "Get [GET]"); Listed RequestBodySection (list_item "Request (text/plain)" []); Dangling (code "x");
             Listed ResponseBodySection (list_item "Response 200" []); Dangling (paragraph "y"); Listed RequestBodySection (list_item "Request" []); Listed ResponseBodySection (list_item "Response 404" [])]
           [([Payload RequestBodySection (list_item "Request (text/plain)" []) [code "x"]], [Payload ResponseBodySection (list_item "Response 200" []) [paragraph "y"]]);
            ([Payload RequestBodySection (list_item "Request" []) []], [Payload ResponseBodySection (list_item "Response 404" []) []])])] [])] []);
   Sub (Sec DataStructureGroupSection [Head (heading "Data Structures");
     Sub (Sec MSONNamedTypeSection [Head (heading "User"); Listed MSONPropertyMemberSection (list_item "id" []);
       Sub (Sec MSONPropertyMembersSection [Head (heading "Properties"); Listed MSONPropertyMemberSection (list_item "name" [])] [])] [])] [])].
Proof. vm_compute. reflexivity. Qed.
Lemma headings_one_line : forall l, forallb (fun t => match t with Tree HeaderNode x _ _ _ => negb (existsb (Ascii.eqb "010") (list_ascii_of_string x)) | _ => true end) l = true -> Forall one_line l.
Proof.
  intros l H. apply Forall_forall. intros t I. rewrite forallb_forall in H. specialize (H t I). destruct t as [[] x z m cs]; try exact Logic.I. cbn in *. intros K. apply Bool.negb_true_iff in H.
  assert (existsb (Ascii.eqb "010") (list_ascii_of_string x) = true); [|congruence]. apply existsb_exists. exists "010"%char. split; [|reflexivity]. clear H I. induction x as [|c x IH]; [destruct K|]. cbn in *. destruct K as [K|K]; [left; congruence|right; auto].
Qed.
Example C76_big_met : Forall one_line big /\ (forall ty t, In t big -> exists u, calm ty t = Val u).
Proof. split; [now apply headings_one_line|]. intros; now exists tt. Qed.
(** a check that a document is not refused *)
Definition harmless (t : tree) : bool := match t with Tree HeaderNode _ _ _ _ => true | Tree ItemNode _ _ _ _ => match type_section_type t with UndefinedSection => true | _ => false end | _ => false end.
Fixpoint acceptable (l : list tree) : bool := match l with [] => true | t :: r => match data_structures_type t with UndefinedSection => acceptable r | _ => forallb harmless r end end.
Lemma harmless_spec : forall l, forallb harmless l = true -> ~ refused_in l.
Proof.
  intros l H (t & In & R). rewrite forallb_forall in H. specialize (H t In). unfold harmless in H.
  assert (C : is_header t = true \/ (is_item t = true /\ type_section_type t = UndefinedSection)) by (destruct t as [[] x z m cs]; try discriminate; [now left|right; split; [reflexivity|]; destruct (type_section_type _); congruence]).
  destruct C as [Hd|[It U]].
  - destruct R as [R|[R _]]; [|apply R; now apply header_iff_a]. unfold type_section_item in R. destruct t as [[] x z m cs]; try discriminate. exact R.
  - destruct R as [R|[_ R]]; [now apply (type_item_iff t It) in U|apply R; now apply item_iff].
Qed.
Lemma acceptable_spec : forall l, acceptable l = true -> ~ doc_refused l.
Proof.
  induction l as [|t l IH]; intros H (a & h & b & E & S & R); [destruct a; discriminate|]. cbn in H. destruct a as [|x a]; injection E as -> E.
  - apply (C75_headers h) in S. rewrite S in H. subst l. exact (harmless_spec _ H R).
  - destruct (data_structures_type x) eqn:D; try (apply (harmless_spec _ H); subst l; apply refused_mono; destruct R as (u & I & R); exists u; split; [now right|exact R]).
    apply IH; [exact H|]. now exists a, h, b.
Qed.
Example C76_big_accepted : ~ doc_refused big.
Proof. apply acceptable_spec. vm_compute. reflexivity. Qed.

(** ** what may surprise *)
(** a list item "Sample: ..." among the members of a named type: the whole document is refused *)
Example C76_sample_item : read [heading "Data Structures"; heading "A"; list_item "Sample: x" []] = Thrown.
Proof. vm_compute. reflexivity. Qed.
(** so is a document with a paragraph below "## Properties" *)
Example C76_properties_text : read [heading "Data Structures"; heading "A"; heading "Properties"; paragraph "hello"] = Thrown.
Proof. vm_compute. reflexivity. Qed.
(** a list item behind the description of a named type is description, too: no member *)
Example C76_type_description : read [heading "Data Structures"; heading "A"; paragraph "hello"; list_item "id" []] = doc
  [Sub (Sec DataStructureGroupSection [Head (heading "Data Structures"); Sub (Sec MSONNamedTypeSection [Head (heading "A"); Text (paragraph "hello"); Text (list_item "id" [])] [])] [])].
Proof. vm_compute. reflexivity. Qed.
(** an endpoint below a resource is an action of that resource if it has a name, and ends the resource if it has none *)
Example C76_named_endpoint : read [heading "A [/a]"; heading "B [GET /b]"] = doc [Sub (res "A [/a]" [Sub (Sec ActionSection [Head (heading "B [GET /b]")] [])])].
Proof. vm_compute. reflexivity. Qed.
Example C76_bare_endpoint : read [heading "A [/a]"; heading "GET /b"] = doc [Sub (res "A [/a]" []); Sub (Sec ResourceSection [Sub (Sec ActionSection [Head (heading "GET /b")] [])] [])].
Proof. vm_compute. reflexivity. Qed.
(** a header that says "GET/b" is ignored below a resource *)
Example C76_no_blank : read [heading "A [/a]"; heading "GET/b"] = doc [Sub (res "A [/a]" [Ignored (heading "GET/b")])].
Proof. vm_compute. reflexivity. Qed.
(** a model ends an action; below an endpoint nobody takes it *)
Example C76_model_in_action : read [heading "A [/a]"; heading "GET"; list_item "Model" []; list_item "Response 200" []] = doc
  [Sub (res "A [/a]" [Sub (Sec ActionSection [Head (heading "GET")] []); Listed ModelBodySection (list_item "Model" []); Ignored (list_item "Response 200" [])])].
Proof. vm_compute. reflexivity. Qed.
Example C76_model_in_endpoint : read [heading "GET /a"; list_item "Model" []; list_item "Response 200" []] = doc
  [Sub (Sec ResourceSection [Sub (Sec ActionSection [Head (heading "GET /a")] [])] []); Ignored (list_item "Model" []); Ignored (list_item "Response 200" [])].
Proof. vm_compute. reflexivity. Qed.
(** a paragraph behind a block of HTML behind a response still goes to the response's body *)
Example C76_behind_html : read [heading "GET /a"; list_item "Response 200" []; html "<hr>"; paragraph "x"] = doc
  [Sub (Sec ResourceSection [Sub (Sec ActionSection [Head (heading "GET /a"); Listed ResponseBodySection (list_item "Response 200" []); Ignored (html "<hr>"); Dangling (paragraph "x")]
     [([], [Payload ResponseBodySection (list_item "Response 200" []) [paragraph "x"]])])] [])].
Proof. vm_compute. reflexivity. Qed.
