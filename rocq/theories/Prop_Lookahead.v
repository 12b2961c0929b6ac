(** C83: what a document declares before it is parsed, and that nothing else is declared *)
From Verif Require Import Base StringUtility StringSpec StringProofs ByteBuffer ByteSpec Markdown MarkdownSpec Keywords KeywordsSpec KeywordsProofs SignatureSpec TypeTables TypeTablesSpec TypeTablesProofs SourceMap Mson TypeDefs TypeDefsSpec MembersTree MembersSpec
  Prop_Members MsonTypes MsonTypesSpec MsonTypesWhole Lookahead LookaheadSpec LookaheadKinds LookaheadWhole LookaheadParsed.
From Verif Require SectionsSpec PayloadsSpec Prop_Types Prop_MsonTypes Prop_Keywords.
Import SectionsSpec(a_header, resource_h, structures_h, action_h, type_h, type_section_h).
Import PayloadsSpec(the_text).
Local Open Scope string_scope.

(** ** the whole: what is resolved are the declarations of the document, in order; what is said are the mistakes. [n]: rounds and calls at most *)
Definition as_remark (w : places * string) : places * remark := (fst w, Warns 12 (snd w)).
Lemma as_warned : forall ws, map warned ws = map as_remark ws.
Proof. intros ws. apply map_ext. now intros [m x]. Qed.
Theorem C83_declarations : forall n l t e w, Forall one_line l ->
  (preprocess_nodes n l = Val (t, e, w) <-> exists ds ws, declared [] l ds /\ mistakes l ws /\ preprocess n ds = Some (t, e) /\ w = map as_remark ws).
Proof.
  intros n l t e w O. unfold preprocess_nodes. split.
  - intros H. destruct (look_along l Nowhere _) as [a'| | |] eqn:L; try discriminate. cbn [andthen] in H. apply (look_along_is l [] Nowhere _ _ stands_start O) in L as (ds & ws & D & M & F & N).
    exists ds, ws. split; [exact D|]. split; [exact M|]. unfold preprocess. cbn [a_tables a_error a_notes] in F, N. rewrite F. unfold resolve_tables in H.
    destruct (resolve_deps n _ _) as [d|]; [|discriminate]. destruct (resolve_bases n _ _ _) as [[t1 e1]|]; [|discriminate]. injection H as <- <- <-. split; [reflexivity|]. now rewrite N, <- as_warned.
  - intros (ds & ws & D & M & P & ->). unfold preprocess in P. destruct (fill_all (T [] [] []) None ds) as [t1 e1] eqn:F.
    assert (L : look_along l Nowhere (Ahead (T [] [] []) None []) = Val (Ahead t1 e1 (map warned ws))) by (apply (look_along_is l [] Nowhere _ _ stands_start O); now exists ds, ws).
    rewrite L. cbn [andthen a_tables a_error a_notes]. unfold resolve_tables. destruct (resolve_deps n _ _) as [d|]; [|discriminate]. rewrite P. now rewrite as_warned.
Qed.
Print Assumptions C83_declarations.

(** ** it ends for every document; nothing is thrown. The behaviour is undefined only where that of a signature is *)
Theorem C83_ends : forall l, Forall one_line l ->
  (exists n r, forall m, n <= m -> preprocess_nodes m l = Val r) \/
  ((forall n, preprocess_nodes n l = ByteBuffer.Wild) /\ exists p t q s, l = (p ++ t :: q)%list /\
    (names_a_type p t /\ s = the_text t \/ (exists name, attributes_of p t name) /\ s = first_text t) /\ signed names_shape (the_text t) s None).
Proof.
  intros l O. destruct (look_along_total l [] Nowhere stands_start O) as [[ds D]|[W H]].
  - left. destruct (mistakes_total l) as [ws M]. destruct (Prop_Types.C50_ends ds) as (n & [t e] & P). exists n, (t, e, map as_remark ws). intros m Hm. apply (C83_declarations m l t e _ O). exists ds, ws. repeat split; [exact D|exact M|now apply P].
  - right. split; [|exact H]. intros n. unfold preprocess_nodes. now rewrite W.
Qed.
Print Assumptions C83_ends.
Theorem C83_unique : forall l, Forall one_line l -> (forall ds ds', declared [] l ds -> declared [] l ds' -> ds = ds') /\ (forall ws ws', mistakes l ws -> mistakes l ws' -> ws = ws').
Proof. intros l O. split; intros x x' H H'; [exact (declared_unique l [] Nowhere x stands_start O H x' H')|exact (mistakes_unique l x H x' H')]. Qed.
Print Assumptions C83_unique.

(** ** a document is refused exactly if its declarations make no sense; the tables hold the kind of every type, wherever it is declared *)
Theorem C83_accepted : forall n l t e w ds, Forall one_line l -> preprocess_nodes n l = Val (t, e, w) -> declared [] l ds -> Forall (fun d => d_id d <> "") ds -> (e = None <-> sensible ds).
Proof.
  intros n l t e w ds O H D N. apply (C83_declarations n l t e w O) in H as (ds' & ws & D' & _ & P & _). rewrite (proj1 (C83_unique l O) _ _ D D') in *. exact (Prop_Types.C50_accepted _ _ _ _ N P).
Qed.
Print Assumptions C83_accepted.
Theorem C83_kinds : forall n l t w ds, Forall one_line l -> preprocess_nodes n l = Val (t, None, w) -> declared [] l ds -> Forall (fun d => d_id d <> "") ds ->
  forall a k, m_find (bases t) a = Some k <-> TypeTablesSpec.kind ds a k.
Proof.
  intros n l t w ds O H D N. apply (C83_declarations n l t None w O) in H as (ds' & ws & D' & _ & P & _). rewrite (proj1 (C83_unique l O) _ _ D D') in *. exact (proj1 (Prop_Types.C50_tables _ _ _ N P)).
Qed.
Print Assumptions C83_kinds.
(** a name given twice, to types or attributes at any two places, is refused *)
Theorem C83_twice : forall n l t e w p q r x y dx dy ds, Forall one_line l -> preprocess_nodes n l = Val (t, e, w) -> declared [] l ds -> Forall (fun d => d_id d <> "") ds ->
  l = (p ++ x :: q ++ y :: r)%list -> declares p x dx -> declares (p ++ x :: q) y dy -> d_id dx = d_id dy -> e <> None.
Proof.
  intros n l t e w p q r x y dx dy ds O H D N El Dx Dy E X. subst e. pose proof (proj1 (C83_accepted n l t None w ds O H D N) eq_refl) as (Nd & _).
  subst l.
  destruct (declared_app p [] _ _ D) as (d1 & d2 & -> & _ & D2). cbn [app] in D2. apply Forall_app in O as [Op O2]. destruct (stands_some _ _ _ stands_start Op) as [c1 S1]. cbn [app] in S1. inversion O2 as [|x0 l0 Ox O3]; subst.
  apply Forall_app in O3 as [Oq O4]. inversion O4 as [|y0 l0 Oy _]; subst.
  inversion D2 as [|t0 r0 d3 l3 D3 D4|t0 r0 l3 X Y D4]; subst; [|exact (not_declares p x dx (conj X Y) Dx)]. rewrite (declares_once _ _ _ _ _ S1 Ox D3 Dx) in *.
  destruct (declared_app q (p ++ [x]) _ _ D4) as (d5 & d6 & -> & _ & D6). rewrite <- app_assoc in D6. cbn [app] in D6.
  destruct (stands_some (x :: q) p c1 S1 ltac:(now constructor)) as [c2 S2].
  inversion D6 as [|t0 r0 d7 l7 D7 D8|t0 r0 l7 X Y D8]; subst; [|exact (not_declares (p ++ x :: q) y dy (conj X Y) Dy)]. rewrite (declares_once _ _ _ _ _ S2 Oy D7 Dy) in *.
  rewrite map_app in Nd. cbn [map] in Nd. apply NoDup_remove_2 in Nd. apply Nd. rewrite E. apply in_or_app. right. rewrite map_app. apply in_or_app. right. now left.
Qed.
Print Assumptions C83_twice.

(** ** what is parsed was declared: the same name and type. A header names a type under "Data Structures" *)
Theorem C83_parsed : forall known source p t r id spec x rest e, Forall one_line (p ++ [t]) -> names_a_type p t -> declares p t (Decl id spec) -> named_type_says known source (t :: r) x rest e ->
  td_spec (ds_type x) = spec /\ (s_variable (n_symbol (ds_name x)) = false -> name_of x = id).
Proof.
  intros known source p t r id spec x rest e O N D H. apply Forall_app in O as [Op Ot]. destruct (stands_some _ _ _ stands_start Op) as [c S1]. cbn [app] in S1. inversion Ot; subst. now apply (parsed_is_declared known source p c t r id spec x rest e).
Qed.
Print Assumptions C83_parsed.
(** ... and the structures of a group, if the headers in it are types and their sections *)
Theorem C83_group : forall known source document p g r after x e ds, Forall one_line (p ++ g :: r) -> structures_h g -> Forall under_structures r -> declared [] (p ++ g :: r) ds ->
  structures_say known source document (g :: r ++ after) x after e ->
  Forall (fun s => s_variable (n_symbol (ds_name s)) = false -> In (Decl (name_of s) (td_spec (ds_type s))) ds) x.
Proof.
  intros known source document p g r after x e ds O G U D H. inversion H as [t r0 l rest e0 Hg B]; subst. replace (p ++ g :: r)%list with ((p ++ [g]) ++ r)%list in O, D by (now rewrite <- app_assoc).
  apply Forall_app in O as [Op Or]. destruct (stands_some _ _ _ stands_start Op) as [c S1]. cbn [app] in S1. destruct (declared_app (p ++ [g]) [] r ds D) as (d1 & d2 & -> & _ & D2). cbn [app] in D2.
  assert (I : in_structures (p ++ [g])) by (exists p, g, []; split; [reflexivity|]; split; [exact G|constructor]).
  eapply Forall_impl; [|exact (group_declared _ _ _ _ _ _ _ B _ _ r d2 eq_refl S1 Or U I D2)]. cbn. intros s K V. apply in_or_app. right. now apply K.
Qed.
Print Assumptions C83_group.

(** ** instances *)
Definition head (x : string) (a n : N) : tree := node HeaderNode x a n [].
Definition document : list tree :=
  [head "Users [/users]" 0 15; node ItemNode "" 16 30 [node ParagraphNode "Attributes (array[Admin])" 18 28 []]; head "List [GET users]" 47 19;
   head "Data Structures" 67 18; head "Admin (User)" 86 15; node ItemNode "" 102 7 [node ParagraphNode "level" 104 6 []]; head "Sample" 110 11; head "User (object)" 122 16].
Lemma document_lines : Forall one_line document.
Proof. repeat apply Forall_cons; try apply Forall_nil; cbn; try exact I; intros H; repeat (destruct H as [H|H]; [discriminate H|]); exact H. Qed.
(** "Admin" is an object as "User" is, which is declared behind it; the attributes of "Users" are an array *)
Example C83_document : exists t, preprocess_nodes 9 document = Val (t, None, [(at_place 47 19, Warns 12 "URI path in 'List [GET users]' is not absolute, it should have a leading forward slash")]) /\
  m_find (bases t) "Admin" = Some ObjectBT /\ m_find (bases t) "Users" = Some ValueBT /\ m_find (bases t) "User" = Some ObjectBT.
Proof. eexists. split; [vm_compute; reflexivity|]. repeat split. Qed.
Ltac lines := repeat apply Forall_cons; try apply Forall_nil; cbn; try exact I; let H := fresh in intros H; repeat (destruct H as [H|H]; [discriminate H|]); exact H.
Ltac line := cbn; try exact I; let H := fresh in intros H; repeat (destruct H as [H|H]; [discriminate H|]); exact H.
Ltac look S1 :=
  match type of S1 with stands ?b ?c => match goal with |- declared _ (?t :: _) _ =>
    let c' := eval vm_compute in (next t c) in
    let S2 := fresh "S" in let Q := eval vm_compute in (quiet t c) in
    assert (S2 : stands (b ++ [t]) c') by (apply (stands_next b c); [exact S1|line|vm_compute; reflexivity]); cbn [app] in S2;
    lazymatch Q with
    | true => apply (skip_computed b c); [exact S1|line|vm_compute; reflexivity|]
    | false => apply declared_one; [first [eapply (type_computed b c); [exact S1|line|reflexivity|vm_compute; reflexivity|vm_compute; reflexivity|vm_compute; reflexivity]
        |eapply named_computed; [exact S1|line|reflexivity|vm_compute; reflexivity|vm_compute; discriminate|vm_compute; reflexivity]]|]
    end; cbn [app]; clear S1; rename S2 into S1
  end end.
Ltac look_all := let S1 := fresh "S1" in pose proof stands_start as S1; repeat look S1; apply declared_end.
Example C83_declared : exists ds, declared [] document ds /\ map d_id ds = ["Users"; "Admin"; "User"] /\ Forall (fun d => d_id d <> "") ds /\ sensible ds.
Proof.
  assert (D : exists ds, declared [] document ds /\ map d_id ds = ["Users"; "Admin"; "User"]) by (eexists; split; [unfold document, head, node; look_all|reflexivity]).
  destruct D as (ds & D & E). assert (F : Forall (fun d => d_id d <> "") ds).
  { destruct ds as [|d1 [|d2 [|d3 [|d4 ds]]]]; try discriminate. cbn in E. injection E as E1 E2 E3. repeat apply Forall_cons; try apply Forall_nil; congruence. }
  exists ds. split; [exact D|]. split; [exact E|]. split; [exact F|]. destruct C83_document as (t & H & _). exact (proj1 (C83_accepted _ _ _ _ _ _ document_lines H D F) eq_refl).
Qed.
(** the same name twice *)
Definition twice_document : list tree := [head "Users [/users]" 0 15; node ItemNode "" 16 30 [node ParagraphNode "Attributes" 18 28 []]; head "Data Structures" 67 18; head "Users" 86 15].
Example C83_twice_example : exists t ds, preprocess_nodes 9 twice_document = Val (t, Some (Twice "Users"), []) /\ declared [] twice_document ds /\ map d_id ds = ["Users"; "Users"].
Proof. eexists. eexists. split; [vm_compute; reflexivity|]. split; [unfold twice_document, head, node; look_all|reflexivity]. Qed.
(** a signature whose behaviour is undefined *)
Definition wild_document : list tree := [head "Data Structures" 0 18; head "A ()" 19 5].
Example C83_wild : preprocess_nodes 9 wild_document = ByteBuffer.Wild.
Proof. vm_compute. reflexivity. Qed.

(** ** what does not hold *)
(** a header with a method in a group of structures: the types behind it are parsed but not declared *)
Definition action_document : list tree := [head "Data Structures" 0 18; head "GET" 19 7; head "User" 27 8].
Definition action_source : string := "# Data Structures" +++ line_feed +++ line_feed +++ "## GET" +++ line_feed +++ line_feed +++ "## User" +++ line_feed.
Theorem C83_action_refuted : ~ (forall known source document l x rest e ds, Forall one_line l -> declared [] l ds -> structures_say known source document l x rest e ->
  Forall (fun s => s_variable (n_symbol (ds_name s)) = false -> In (name_of s) (map d_id ds)) x).
Proof.
  intros C. assert (O : Forall one_line action_document) by lines. assert (D : declared [] action_document []) by (unfold action_document, head, node; look_all).
  assert (F : Prop_MsonTypes.fitting action_source 9 action_document).
  { split; [reflexivity|]. repeat apply Forall_cons; try apply Forall_nil; (split; [cbn; lia|inside]). }
  assert (H : exists x s, parse_structures action_source 9 [] action_document fresh = Val (x, [], s) /\ map name_of x = ["User"] /\ map (fun s => s_variable (n_symbol (ds_name s))) x = [false]) by (eexists; eexists; split; [vm_compute; reflexivity|now split]).
  destruct H as (x & s & H & E & V). apply (Prop_MsonTypes.C82_group action_source 9 [] _ fresh _ _ _ F O) in H as (e & H & _). specialize (C _ _ _ _ _ _ _ _ O D H).
  destruct x as [|y [|z x]]; try discriminate. cbn in E, V. injection V as V. inversion C as [|y0 l0 Cy _]; subst. exact (Cy V).
Qed.
Print Assumptions C83_action_refuted.
(** a resource with a name and a method: its attributes are not declared *)
Definition endpoint_document : list tree := [head "User [GET /user]" 0 18; node ItemNode "" 19 13 [node ParagraphNode "Attributes" 21 11 []]].
Theorem C83_endpoint_refuted : exists h t, endpoint_document = [h; t] /\ resource_h h /\ item_says reads_attributes t /\ declared [] endpoint_document [].
Proof.
  eexists. eexists. split; [reflexivity|]. split; [|split].
  - unfold resource_h. apply (proj1 (Prop_Keywords.C75_headers _)). vm_compute. reflexivity.
  - apply (proj1 (proj2 (Prop_Keywords.C75_items _))). vm_compute. reflexivity.
  - unfold endpoint_document, head, node. look_all.
Qed.
Print Assumptions C83_endpoint_refuted.
(** a type in emphasis is declared under the text with the emphasis, and parsed as a variable without *)
Definition emphasis_document : list tree := [head "Data Structures" 0 18; head "*User*" 19 10].
Theorem C83_emphasis_refuted : exists ds x s, declared [] emphasis_document ds /\ map d_id ds = ["*User*"] /\ parse_structures action_source 9 [] emphasis_document fresh = Val (x, [], s) /\ map name_of x = ["User"].
Proof. eexists. eexists. eexists. split; [unfold emphasis_document, head, node; look_all|]. split; [reflexivity|]. split; [vm_compute; reflexivity|reflexivity]. Qed.
Print Assumptions C83_emphasis_refuted.
