(** Property C87: the attributes of resources and actions *)
From Verif Require Import Base StringUtility StringSpec StringProofs ByteBuffer ByteSpec Markdown MarkdownSpec Keywords KeywordsSpec TypeTables SourceMap Mson TypeDefs TypeDefsSpec MembersTree MembersSpec MembersRead MembersLeaves MembersParts MembersWhole MembersEnds Prop_Members
  Given GivenSpec GivenWhole Owned OwnedSpec OwnedWhole.
From Verif Require Sections SectionsSpec Prop_Sections Transactions TransactionsSpec Payloads PayloadsSpec Prop_Given Prop_Preface Prop_Relations Relations RelationsSpec.
Import PayloadsSpec(the_text, place, opens, lines).
Import Sections(part, Head, Text, Listed, Sub, Sec, outline).
Import SectionsSpec(part_nodes).
Import Transactions(resource_header, resource_of).
Import TransactionsSpec(resources_in).
Import Prop_Given(actions_in).
Local Open Scope string_scope.

(** documents: blocks inside the source, nested no deeper than the fuel *)
Definition readable_owned (source : string) (fuel : nat) (nodes : list tree) : Prop :=
  (slen source < 2 ^ 64)%N /\ Forall one_line nodes /\ Forall (fun t => depth t <= S fuel /\ within_source source t) nodes.
Lemma owned_outline : forall source fuel inside base nodes ps rest, readable_owned source fuel nodes -> outline inside base nodes = Val (Sec BlueprintSection ps [], rest) ->
  Forall (fun t => depth t <= S fuel /\ within_source source t) (nodes_of ps).
Proof.
  intros source fuel inside base nodes ps rest (_ & One & F) E. destruct (Prop_Sections.C76_outline _ _ _ _ _ One E) as (_ & En & _). cbn [SectionsSpec.section_nodes] in En. fold (nodes_of ps) in En. now rewrite En.
Qed.
(** ** C87: the attributes of all resources and actions and the remarks about them are as specified, in order; for every document that has an outline (C76), every state before and whatever types exist *)
Theorem C87_document : forall source fuel exists_ inside base nodes ps rest s os s', readable_owned source fuel nodes -> outline inside base nodes = Val (Sec BlueprintSection ps [], rest) ->
  (read_owned source fuel exists_ ps s = Val (os, s') <-> exists e, all_attributes (bases (s_tables s)) source (fun t name => exists_ t name = true) (resources_in ps) os e /\ s' = perform e s).
Proof.
  intros source fuel exists_ inside base nodes ps rest s os s' Rd E. pose proof (owned_outline _ _ _ _ _ _ _ Rd E) as D. destruct Rd as (Small & _).
  exact (all_reads (bases (s_tables s)) source Small fuel exists_ _ (resources_nodes _ _ D) s os s' eq_refl).
Qed.
Print Assumptions C87_document.
(** reading ends *)
Theorem C87_ends : forall source fuel exists_ inside base nodes ps rest s, readable_owned source fuel nodes -> outline inside base nodes = Val (Sec BlueprintSection ps [], rest) -> read_owned source fuel exists_ ps s <> Endless.
Proof.
  intros source fuel exists_ inside base nodes ps rest s Rd E. pose proof (resources_nodes _ _ (owned_outline _ _ _ _ _ _ _ Rd E)) as D. unfold read_owned. apply ends_steps. intros qs os s0 I. apply ends_bind; [|intros [o s1] _; discriminate].
  apply ends_resource. rewrite Forall_forall in D. specialize (D qs I). revert D. apply Forall_impl. now intros t [].
Qed.
Print Assumptions C87_ends.

(** ** whose attributes: each is read from an item of the resource or action itself; an action or resource without items has none, one with an item has them, unless a type with the name of the resource exists *)
Section Laws.
Context (known : list (string * base_type)) (source : string) (taken : tree -> string -> Prop).
Definition action_has (ps : list part) (a : option structure) : Prop :=
  exists h r, ps = Head h :: r /\ match a with None => items r = [] | Some x => exists t e, items r = [t] /\ attributes_say known source "" t x e end.
Definition resource_has (ps : list part) (o : owned) : Prop :=
  (forall h r, ps = Head h :: r -> let name := fst (resource_header h) in
    match o_attributes o with
    | None => Forall (fun t => name <> "" /\ taken t name) (items r)
    | Some y => exists p t x e, items r = (p ++ [t])%list /\ Forall (fun t => name <> "" /\ taken t name) p /\ attributes_say known source name t x e /\ ~ (name <> "" /\ taken t name) /\ called name h x y
    end) /\ ((forall h r, ps <> Head h :: r) -> o_attributes o = None) /\ Forall2 action_has (actions_in ps) (o_actions o).
Lemma action_owner : forall h r a e, action_attributes known source r a e -> action_has (Head h :: r) a.
Proof. intros h r a e H. exists h, r. split; [reflexivity|]. destruct H as [I|t x e I A]; [exact I|eauto]. Qed.
Lemma steps_own : forall name h r o o' e, in_steps (resource_part known source taken name h) r o o' e ->
  (match o_attributes o with
   | Some y => items r = [] /\ o_attributes o' = Some y
   | None => match o_attributes o' with
     | None => Forall (fun t => name <> "" /\ taken t name) (items r)
     | Some y => exists p t x e, items r = (p ++ [t])%list /\ Forall (fun t => name <> "" /\ taken t name) p /\ attributes_say known source name t x e /\ ~ (name <> "" /\ taken t name) /\ called name h x y
     end
   end) /\ exists ls, o_actions o' = (o_actions o ++ ls)%list /\ Forall2 action_has (actions_in r) ls.
Proof.
  intros name h r o o' e H. induction H as [o|x r o o1 o2 e1 e2 S1 H [A (ls & E & F)]].
  - split; [destruct (o_attributes o); [now split|constructor]|]. exists []. rewrite app_nil_r. split; [reflexivity|constructor].
  - destruct S1 as [t a e -> Z Own|k h' q ex a e -> Ac|N1 N2]; cbn [o_attributes o_actions] in A, E.
    + split; [|exists ls; split; [exact E|exact F]]. rewrite Z, items_take. destruct Own as [x y e Say K C|x e Say K T].
      * destruct A as [I ->]. exists [], t, x, e. rewrite I. split; [reflexivity|]. split; [constructor|]. auto.
      * destruct (o_attributes o2) as [y|]; [|now constructor]. destruct A as (p & t' & x' & e' & I & P & R). exists (t :: p), t', x', e'. rewrite I. split; [reflexivity|]. split; [now constructor|exact R].
    + split; [exact A|]. exists (a :: ls). split; [now rewrite E, <- app_assoc|]. constructor; [exact (action_owner _ _ _ _ Ac)|exact F].
    + rewrite items_skip by (intros (t & X); now elim (N1 t)). split; [exact A|]. exists ls. split; [exact E|]. destruct x as [t|t|t|ty t|t|t|s]; try exact F. now elim (N2 s).
Qed.
Lemma resource_owner : forall ps o e, resource_attributes known source taken ps o e -> resource_has ps o.
Proof.
  intros ps o e H. destruct H as [h r o e H|k h q ex a e A].
  - apply steps_own in H as [A (ls & E & F)]. cbn [o_attributes o_actions app] in A, E. split; [intros h' r' X; injection X as <- <-; exact A|]. split; [intros N; now elim (N h r)|]. now rewrite E.
  - split; [intros h' r' X; discriminate|]. split; [reflexivity|]. constructor; [exact (action_owner _ _ _ _ A)|constructor].
Qed.
End Laws.
Theorem C87_defined : forall source fuel exists_ inside base nodes ps rest s os s', readable_owned source fuel nodes -> outline inside base nodes = Val (Sec BlueprintSection ps [], rest) ->
  read_owned source fuel exists_ ps s = Val (os, s') -> Forall2 (resource_has (bases (s_tables s)) source (fun t name => exists_ t name = true)) (resources_in ps) os.
Proof.
  intros source fuel exists_ inside base nodes ps rest s os s' Rd E H. apply (C87_document _ _ _ _ _ _ _ _ _ _ _ Rd E) in H as (e & H & _). clear - H. induction H as [|qs l o os e e' R H IH]; constructor; [|exact IH]. exact (resource_owner _ _ _ _ _ _ R).
Qed.
Print Assumptions C87_defined.

(** ** names: attributes of a resource are named as the resource is, so those of a resource without a name have none; nor have those of actions. None has the name of a type that existed before. None is without a type *)
Definition type_name_of (x : structure) : string := s_literal (n_symbol (ds_name x)).
Theorem C87_named : forall source fuel exists_ inside base nodes ps rest s os s', readable_owned source fuel nodes -> outline inside base nodes = Val (Sec BlueprintSection ps [], rest) ->
  read_owned source fuel exists_ ps s = Val (os, s') ->
  Forall2 (fun qs o =>
    (forall y, o_attributes o = Some y -> td_base (ds_type y) <> UndefinedBT /\ exists h r t, qs = Head h :: r /\ In t (items r) /\ type_name_of y = fst (resource_header h) /\
      (type_name_of y <> "" -> exists_ t (type_name_of y) = false)) /\
    (forall y, In (Some y) (o_actions o) -> td_base (ds_type y) <> UndefinedBT /\ type_name_of y = "")) (resources_in ps) os.
Proof.
  intros source fuel exists_ inside base nodes ps rest s os s' Rd E H. apply (C87_defined _ _ _ _ _ _ _ _ _ _ _ Rd E) in H. clear - H.
  induction H as [|qs o l os (R & Q & A) H IH]; constructor; [|exact IH]. clear IH H.
  assert (Un : forall c t x e, attributes_say (bases (s_tables s)) source c t x e -> type_name_of x = "") by (intros c t x e X; destruct X; reflexivity).
  split.
  - intros y Ey. destruct qs as [|[h|t|t|ty t|t|t|q] r]; try (rewrite Q in Ey by (intros; discriminate); discriminate).
    specialize (R h r eq_refl). cbv zeta in R. rewrite Ey in R. destruct R as (p & t & x & e & I & _ & Say & K & C). split.
    + pose proof (proj2 (C80_typed _ _ _) _ _ _ Say) as T. destruct C; exact T.
    + exists h, r, t. split; [reflexivity|]. split; [rewrite I; apply in_or_app; right; now left|].
      assert (N : type_name_of y = fst (resource_header h)) by (destruct C as [Z|Z]; [now rewrite (Un _ _ _ _ Say), Z|reflexivity]). split; [exact N|]. rewrite N. intros Z. destruct (exists_ t (fst (resource_header h))) eqn:X; [now elim K|reflexivity].
  - clear - A Un. intros y I. induction A as [|qs' a ls ls' (h & r & -> & X) A IH]; [destruct I|]. destruct I as [->|I]; [|exact (IH I)]. destruct X as (t & e & _ & Say). split; [exact (proj2 (C80_typed _ _ _) _ _ _ Say)|exact (Un _ _ _ _ Say)].
Qed.
Print Assumptions C87_named.
(** ** if nothing new is said, no resource has lost its attributes: every resource and action with an item has attributes *)
Definition keeps (qs : list part) (o : owned) : Prop := forall h r, qs = Head h :: r -> items r <> [] -> o_attributes o <> None.
Lemma own_unsaid : forall known source taken name h r o o' e, in_steps (resource_part known source taken name h) r o o' e -> Prop_Given.unsaid e -> (o_attributes o <> None -> o_attributes o' <> None) /\ (items r <> [] -> o_attributes o' <> None).
Proof.
  intros known source taken name h r o o' e H. induction H as [o|x r o o1 o2 e1 e2 S1 H IH]; intros U.
  - split; [auto|]. intros N. now elim N.
  - apply Prop_Given.unsaid_app in U as [U1 U2]. destruct (IH U2) as [K L]. destruct S1 as [t a e -> Z Own|k h' q ex a e -> Ac|N1 N2]; cbn [o_attributes] in K.
    + destruct Own as [x y e Say Kn C|x e Say Kn T].
      * split; intros _; apply K; discriminate.
      * exfalso. apply Prop_Given.unsaid_app in U1 as [_ U1]. exact (U1 (lies t) 2%N _ (or_introl eq_refl)).
    + split; [exact K|exact L].
    + split; [exact K|]. rewrite items_skip by (intros (t & X); now elim (N1 t)). exact L.
Qed.
Theorem C87_kept : forall source fuel exists_ inside base nodes ps rest s os s', readable_owned source fuel nodes -> outline inside base nodes = Val (Sec BlueprintSection ps [], rest) ->
  read_owned source fuel exists_ ps s = Val (os, s') -> s_notes s' = s_notes s -> Forall2 keeps (resources_in ps) os.
Proof.
  intros source fuel exists_ inside base nodes ps rest s os s' Rd E H Q. apply (C87_document _ _ _ _ _ _ _ _ _ _ _ Rd E) in H as (e & H & ->). apply Prop_Given.quiet_unsaid in Q. clear - H Q.
  induction H as [|qs l o os e e' R H IH]; constructor; [|apply IH; now apply Prop_Given.unsaid_app in Q]. apply Prop_Given.unsaid_app in Q as [Q _]. intros h r -> N. inversion R as [h' r' o' e0 St|]; subst. exact (proj2 (own_unsaid _ _ _ _ _ _ _ _ _ St Q) N).
Qed.
Print Assumptions C87_kept.
(** ** these are the resources and actions of C85, and so of C78 and C86 *)
Theorem C87_actions : forall source index fuel exists_ inside base nodes ps rest s os s' ws w, readable_owned source fuel nodes -> Prop_Preface.readable_preface source index nodes -> outline inside base nodes = Val (Sec BlueprintSection ps [], rest) ->
  read_owned source fuel exists_ ps s = Val (os, s') -> Relations.read_words source index ps = Val (ws, w) -> map (fun o => List.length (o_actions o)) os = map (fun r => List.length (Relations.j_actions r)) ws.
Proof.
  intros source index fuel exists_ inside base nodes ps rest s os s' ws w Rd Rp E G W. apply (C87_defined _ _ _ _ _ _ _ _ _ _ _ Rd E) in G.
  apply (Prop_Relations.C85_document _ _ _ _ _ _ _ _ Rp E) in W as (ws' & w' & T & X). injection X as <- _. rewrite (Prop_Relations.words_subs _ _ _ _ T). clear - G.
  induction G as [|qs o l os (_ & _ & A) G IH]; [reflexivity|]. cbn [map]. rewrite IH. f_equal. rewrite <- Prop_Given.actions_subs. clear - A. induction A; cbn; congruence.
Qed.
Print Assumptions C87_actions.

(** ** examples *)
Definition others : st := St (T [("User", ObjectBT); ("Other", ObjectBT)] [] [("User", []); ("Other", [])]) [].
Definition taken_by (exists_ : tree -> string -> bool) (source : string) (nodes : list tree) : option (outcome (list owned * st)) :=
  match outline Prop_Sections.calm Prop_Sections.plain_base nodes with Val (Sec _ ps _, _) => Some (read_owned source 2 exists_ ps others) | _ => None end.
Definition owned_source : string := "# API" +++ line_feed +++ line_feed +++ "# Group G" +++ line_feed +++ line_feed +++ "# User [/u/{id}]" +++ line_feed +++ line_feed +++ "+ Attributes" +++ line_feed +++ "    + name (string)" +++ line_feed +++ "    + friend (User)" +++ line_feed +++ line_feed +++ "# GET" +++ line_feed +++ line_feed +++ "+ Attributes (Other)" +++ line_feed +++ "    + on: 1" +++ line_feed +++ line_feed +++ "+ Response 204" +++ line_feed +++ line_feed +++ "# PUT" +++ line_feed +++ line_feed +++ "+ Response 204" +++ line_feed +++ line_feed +++ "# /b" +++ line_feed +++ line_feed +++ "+ Attributes (array)" +++ line_feed +++ "    + x" +++ line_feed +++ line_feed.
Definition owned_nodes : list tree := [node HeaderNode ("API") 0 6 [];
  node HeaderNode ("Group G") 7 10 [];
  node HeaderNode ("User [/u/{id}]") 18 17 [];
  node ItemNode "" 36 54 [node ParagraphNode ("Attributes") 38 11 []; node ItemNode "" 53 16 [node ParagraphNode ("name (string)") 55 14 []]; node ItemNode "" 73 16 [node ParagraphNode ("friend (User)") 75 14 []]];
  node HeaderNode ("GET") 90 6 [];
  node ItemNode "" 97 34 [node ParagraphNode ("Attributes (Other)") 99 19 []; node ItemNode "" 122 8 [node ParagraphNode ("on: 1") 124 6 []]];
  node ItemNode "" 131 16 [node ParagraphNode ("Response 204") 133 13 []];
  node HeaderNode ("PUT") 147 6 [];
  node ItemNode "" 154 16 [node ParagraphNode ("Response 204") 156 13 []];
  node HeaderNode ("/b") 170 5 [];
  node ItemNode "" 176 30 [node ParagraphNode ("Attributes (array)") 178 19 []; node ItemNode "" 201 4 [node ParagraphNode ("x") 203 2 []]]].
Definition endpoint_source : string := "# N [GET /b/{k}]" +++ line_feed +++ line_feed +++ "+ Attributes" +++ line_feed +++ "    + k (Other)" +++ line_feed +++ line_feed +++ "+ Response 204" +++ line_feed +++ line_feed.
Definition endpoint_nodes : list tree := [node HeaderNode ("N [GET /b/{k}]") 0 17 [];
  node ItemNode "" 18 30 [node ParagraphNode ("Attributes") 20 11 []; node ItemNode "" 35 12 [node ParagraphNode ("k (Other)") 37 10 []]];
  node ItemNode "" 48 16 [node ParagraphNode ("Response 204") 50 13 []]].
Definition none_exists (t : tree) (name : string) : bool := false.
Definition user_exists (t : tree) (name : string) : bool := String.eqb "User" name.
Definition a_member (x : string) (a n : N) (b : base_type) (ty : type_name) : melement := property x a n (VD [] (TD b (TS ty []) 0%N)) "" [].
Definition to_type (x : string) : type_name := TN UndefinedTN (Sym x false).
Definition of_user : structure := Str (to_type "User") (TD ImplicitObjectBT no_spec 0%N)
  [of_members [a_member "name" 55 14 PrimitiveBT (TN StringTN no_symbol); a_member "friend" 75 14 ObjectBT (to_type "User")]] (at_place 38 11) (at_place 18 17) [].
Definition of_get : structure := Str (TN UndefinedTN no_symbol) (TD ObjectBT (TS (to_type "Other") []) 0%N)
  [of_members [property "on" 124 6 (VD [MV "1" false] (TD ImplicitPrimitiveBT no_spec 0%N)) "" []]] (at_place 99 19) [] (at_place 99 19).
Definition of_b : structure := Str (TN UndefinedTN no_symbol) (base ArrayTN ValueBT)
  [of_members [MValue (Mem "" (VD [MV "x" false] (TD ImplicitPrimitiveBT no_spec 0%N)) [] (at_place 203 2) [] (at_place 203 2))]] (at_place 178 19) [] (at_place 178 19).
Definition of_endpoint : structure := Str (TN UndefinedTN no_symbol) (TD ImplicitObjectBT no_spec 0%N) [of_members [a_member "k" 37 10 ObjectBT (to_type "Other")]] (at_place 20 11) [] [].
Definition with_self : tables := T [("User", ObjectBT); ("Other", ObjectBT)] [] [("User", ["User"]); ("Other", [])].
Lemma readable_owned_case : readable_owned owned_source 2 owned_nodes.
Proof.
  split; [reflexivity|]. split.
  - repeat (constructor; [first [exact I|intros H; vm_compute in H; repeat (destruct H as [H|H]; [discriminate H|]); destruct H]|]). constructor.
  - repeat (constructor; [split; [cbn; lia|inside]|]). constructor.
Qed.
(** attributes of a resource with a name, which refer to themselves, of an action, and of a resource without a name; one action has none *)
Example C87_owned : readable_owned owned_source 2 owned_nodes /\
  taken_by none_exists owned_source owned_nodes = Some (Val ([Owned (Some of_user) [Some of_get; None]; Owned (Some of_b) []], St with_self [])).
Proof. split; [exact readable_owned_case|vm_compute; reflexivity]. Qed.
(** an endpoint's attributes are those of its action, which refer to others without a name *)
Example C87_endpoint : taken_by none_exists endpoint_source endpoint_nodes =
  Some (Val ([Owned None [Some of_endpoint]], St (T [("User", ObjectBT); ("Other", ObjectBT)] [] [("", ["Other"]); ("User", []); ("Other", [])]) [])).
Proof. vm_compute. reflexivity. Qed.

(** ** what does not hold *)
(** attributes that are left out, as a type with their name exists, still add dependencies to the type that exists *)
Theorem C87_left_out_refuted : taken_by user_exists owned_source owned_nodes =
  Some (Val ([Owned None [Some of_get; None]; Owned (Some of_b) []], St with_self [(at_place 36 54, Warns 2 "named type with name 'User' already exists")])).
Proof. vm_compute. reflexivity. Qed.
Print Assumptions C87_left_out_refuted.
(** a resource with a name and attributes need not be a type: an endpoint "Name [GET /path]" has a name, and nothing is said *)
Theorem C87_endpoint_refuted : exists h, endpoint_nodes = h :: tl endpoint_nodes /\ fst (resource_header h) = "N" /\
  option_map (fun r => match r with Val (os, s) => Some (map o_attributes os, s_notes s) | _ => None end) (taken_by none_exists endpoint_source endpoint_nodes) = Some (Some ([None], [])).
Proof. eexists. split; [reflexivity|]. split; vm_compute; reflexivity. Qed.
Print Assumptions C87_endpoint_refuted.
