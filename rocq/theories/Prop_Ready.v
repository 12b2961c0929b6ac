(** Properties C48 and C71: generation of bodies and schemas, and the conversion of whole documents, never crash *)
From Coq Require Import Permutation.
From Verif Require Import Base SoValue JsonIo SourceMap Capi Element ElementSpec ElementUtils Extend Registry Expand ExpandSpec ExpandProofs JsonValue JsonSchema GenSpec FuelMono Peg MediaType TypeTables TypeTablesSpec NamedTypes Mson MsonSpec MsonProofs MsonSane MsonTotal MsonMono MsonKinds
  Blueprint Register RegisterSpec RegisterProofs Prop_Expand Prop_Gen Prop_Media Prop_Mson Prop_Register Api ApiSpec ApiProofs ApiTotal ReadySpec ReadyProofs ReadyGen ExpandFit MsonTame FitProofs CrashSpec CrashProofs Prop_Api.
Local Open Scope string_scope.
Local Open Scope list_scope.

(** ** C48: bodies, schemas and sizes exist for every element that is ready *)
Theorem C48_body : forall e, ready e -> exists v, body e v.
Proof.
  intros e R. destruct (C47_body_terminates e) as (x & f & F). destruct (render_safe f) as (S & _). specialize (S e (VO false false) R). specialize (F f (le_n f)) as F'. unfold generate_value in F'. rewrite F' in S.
  destruct x as [v| |]; try contradiction. exists v. now exists f.
Qed.
Theorem C48_schema : forall e, ready e -> exists fs, schema e fs.
Proof.
  intros e R. destruct (C47_schema_terminates e) as (x & f & F). assert (S := generate_schema_safe f e R). rewrite (F f (le_n f)) in S.
  destruct x as [v| |]; try contradiction. exists v. now exists f.
Qed.
Theorem C48_size : forall e inh, ready e -> exists n, computes (fun f => size_of f e inh) (Ok n).
Proof.
  intros e inh R. destruct (C47_size_terminates e inh) as (x & f & F). assert (S := size_safe f e inh R). rewrite (F f (le_n f)) in S.
  destruct x as [v| |]; try contradiction. exists v. now exists f.
Qed.
(** what a decent structure is expanded to is ready *)
Theorem C48_expanded : forall ds, well_declared ds -> none_reserved ds -> maps_apart ds -> (forall s, In s ds -> decent_in ds s) ->
  forall fuel order w r, Permutation ds order -> register fuel ds order = (w, Done r) ->
  forall fuel' s e w' x, decent_in ds s -> structure_to_refract fuel' r s = ret (Some e, w') -> expands r e x -> ready x.
Proof.
  intros ds W R A D fuel order w r P E fuel' s e w' x Ds C (o & (f1 & F1) & ->). destruct (registered_later ds W R fuel order w r P E) as (f & _ & H & K).
  assert (Q : structure_to_refract f r s = ret (Some e, w')).
  { destruct (Nat.le_ge_cases f fuel') as [L|L]; [|exact (structure_below fuel' f L r s _ C)].
    assert (N : structure_to_refract f r s <> None).
    { assert (Z := structure_ends f r (ends_here f ds r K) s). exact Z. }
    destruct (structure_to_refract f r s) as [y|] eqn:Y; [|congruence]. assert (B := structure_below f fuel' L r s y Y). unfold ret in *. congruence. }
  assert (F := structure_fit f ds r W R A H K s e w' Ds Q). assert (G := expand_fit r (registry_fit f ds r W R A H K D) f1 [] e F o (F1 f1 (le_n f1))). exact (proj1 G).
Qed.
Theorem C48_generated : forall ds, well_declared ds -> none_reserved ds -> maps_apart ds -> (forall s, In s ds -> decent_in ds s) ->
  forall fuel order w r, Permutation ds order -> register fuel ds order = (w, Done r) ->
  forall fuel' s e w' x, decent_in ds s -> structure_to_refract fuel' r s = ret (Some e, w') -> expands r e x -> (exists v, body x v) /\ exists fs, schema x fs.
Proof. intros. assert (ready x) by (eapply C48_expanded; eassumption). split; [now apply C48_body|now apply C48_schema]. Qed.

(** ** C71: documents *)
Theorem C71_total : forall b, let ds := find_named_types (bp_elements b) in
  well_declared ds -> none_reserved ds -> maps_apart ds -> classes_known b ->
  (forall s, In s ds \/ has_structure b s -> fine_in ds s /\ decent_in ds s) ->
  forall opts order, Permutation ds order ->
  exists f0 w out, (forall f, f0 <= f -> convert f opts order b = (w, out)) /\ ((exists e, out = Done e) \/ exists m, out = Raises m /\ circular m).
Proof.
  intros b ds W R A C G opts order P. destruct (C69_total b opts order W P) as (f1 & w & out & N & F1). exists f1, w, out. split; [exact F1|].
  destruct (C62_succeeds ds W R) as (f2 & H2). destruct (C62_registered ds W R) as (f3 & H3). set (f := max f1 (max f2 f3)).
  destruct (H2 f ltac:(lia) (fun s r Hs Kr => proj1 (G s (or_introl Hs)) f r Kr) order P) as (w1 & r & E & _). specialize (H3 f ltac:(lia) order P). rewrite E in H3. destruct H3 as (H & K & _).
  assert (B : allowed (blueprint_to_refract f r opts b) (fun _ => True)).
  { apply (blueprint_allowed f opts ds r W R A H K); [intros s Hs; apply (G s); now left|]. intros top Ht x Hx. split; [now apply (C top)|]. split.
    - intros Cx. apply G. right. now apply hs_structure with top.
    - intros Cx. split; [apply G; right; now apply hs_resource with top|]. intros a t Ha Hs. apply G. right. now apply (hs_action b top x a t). }
  specialize (F1 f ltac:(lia)). unfold convert in F1. fold ds in F1. rewrite E in F1. cbn [xbind snd fst] in F1. unfold allowed in B.
  destruct (blueprint_to_refract f r opts b) as [w2 o2]. cbn [snd fst] in *. injection F1 as _ <-.
  destruct o2; try contradiction; [left; now eexists|right; eexists; now split].
Qed.

(** ** Concrete documents *)
(** GET / with a response that has attributes, and the types *)
Definition answering (s : structure) (l : list structure) : blueprint :=
  Blue [] (said "A") no_text (BElem ResourceElement no_text no_text (Res (said "/") no_text no_text no_structure []
    [Act (said "GET") no_text no_text [] no_structure no_text no_text [Exa no_text [] [message_of "200" "application/json" s ""]]]) no_structure [] UndefinedCategory :: map of_structure l).
Definition property (k v : string) : melement := MProperty (Prop_Mson.named k) (mem (lits [v] no_type) "" []).
(** # Badge (object)
    + colour: red
    # Pupil (Human)
    + marks (Marks)
    + Include Badge
    + One Of
        + a: 1
        + Properties
            + b: 2 *)
Definition badge := declare "Badge" (ty ObjectTN [] 0) [property "colour" "red"].
Definition pupil := declare "Pupil" (called "Human") [MProperty (Prop_Mson.named "marks") (mem (lits [] (called "Marks")) "" []); MMixin (called "Badge"); MOneOf [property "a" "1"; MGroup [property "b" "2"]]].
Definition school := [human; marks; badge; pupil].
Definition of_pupil := declare "" (called "Pupil") [].
Lemma school_fine : well_declared school /\ none_reserved school /\ maps_apart school.
Proof.
  assert (R : none_reserved school) by (intros s H; cbn in H; repeat (destruct H as [<-|H]; [reflexivity|]); destruct H).
  assert (W : well_declared school).
  { assert (exists t, preprocess 9 (declarations school) = Some (t, None)) as (t & A) by (eexists; vm_compute; reflexivity).
    apply (C63_accepted _ _ _ A R). intros s H. cbn in H. repeat (destruct H as [<-|H]; [split; [first [left; reflexivity|right; reflexivity]|reflexivity]|]). destruct H. }
  split; [exact W|]. split; [exact R|]. intros k K. exfalso. inversion K as [s a Hs [C _]|s a Hs [C _]|s a Hs [C _]|a p k' (s & Hs & [C _] & _)]; subst; cbn in Hs; repeat (destruct Hs as [<-|Hs]; [discriminate|]); destruct Hs.
Qed.
Lemma school_kinds : forall n, In n [""; "Human"; "Marks"; "Badge"; "Pupil"] -> ~ named_kind school n (Some KEnum).
Proof.
  destruct school_fine as (W & _ & _). intros n Hn H.
  assert (B : forall s, In s school -> base_of s <> UndefinedTN -> type_name_of s <> "" -> ~ In (type_name_of s) (map fst base_types) -> named_kind school (type_name_of s) (Some (kind_of (base_of s)))).
  { intros s Hs Bs Ns Nb. apply nk_type; [exact Nb|]. apply tk_base; auto. now split. }
  assert (N : forall m, In m ["Human"; "Marks"; "Badge"; "Pupil"] -> ~ In m (map fst base_types)) by (intros m Hm X; cbn in Hm, X; repeat (destruct Hm as [<-|Hm]; [intuition discriminate|]); destruct Hm).
  assert (Hh : named_kind school "Human" (Some KObject)) by (apply (B human); [now left|discriminate|discriminate|apply N; now left]).
  cbn in Hn. destruct Hn as [<-|[<-|[<-|[<-|[<-|[]]]]]].
  - inversion H as [n e He|n k Hn K|s Hs Es|]; subst; [cbn in He; intuition discriminate|]. destruct (type_kind_called _ _ _ K) as (s & _ & _ & C). now apply C.
  - assert (Q := named_kind_fun school W _ _ _ H Hh). discriminate.
  - assert (Q := named_kind_fun school W _ _ _ H (B marks ltac:(cbn; auto) ltac:(discriminate) ltac:(discriminate) ltac:(apply N; cbn; auto))). discriminate.
  - assert (Q := named_kind_fun school W _ _ _ H (B badge ltac:(cbn; auto) ltac:(discriminate) ltac:(discriminate) ltac:(apply N; cbn; auto))). discriminate.
  - assert (Q : named_kind school "Pupil" (Some KObject)).
    { apply nk_type; [apply N; cbn; auto 10|]. apply tk_parent with "Human"; [exists pupil; repeat split; try discriminate; cbn; auto 10|]. inversion Hh as [n e He|n k _ K| |]; subst; [cbn in He; intuition discriminate|exact K]. }
    assert (Q' := named_kind_fun school W _ _ _ H Q). discriminate.
Qed.
Lemma not_enum : forall t, n_base (t_name (td_spec t)) <> EnumTN -> In (type_literal t) [""; "Human"; "Marks"; "Badge"; "Pupil"] -> ~ of_enumeration (fun n => named_kind school n (Some KEnum)) t.
Proof. intros t B L [E|E]; [contradiction|]. now apply (school_kinds (type_literal t)). Qed.
Lemma not_enum_here : forall fuel r t, knows fuel school r -> n_base (t_name (td_spec t)) <> EnumTN -> In (type_literal t) [""; "Human"; "Marks"; "Badge"; "Pupil"] -> ~ MsonSpec.enum_type fuel r t.
Proof.
  intros fuel r t K B L [E|(_ & _ & e & F & Ke & _)]; [contradiction|]. destruct (K (type_literal t)) as (o & Fo & No). rewrite F in Fo. injection Fo as <-. cbn in No. rewrite Ke in No. now apply (school_kinds (type_literal t)).
Qed.
Lemma simple_fine : forall fuel r vs t, knows fuel school r -> length vs <= 1 -> n_base (t_name (td_spec t)) <> EnumTN -> In (type_literal t) [""; "Human"; "Marks"; "Badge"; "Pupil"] -> member_fine fuel r (mem (lits vs t) "" []).
Proof.
  intros fuel r vs t K L B Lt. split; [split; [constructor|intros E; exfalso; now apply (not_enum_here fuel r t)]|]. intros _. unfold inline_values. destruct (object_base _); cbn; [lia|]. now rewrite map_length.
Qed.
Lemma property_fine : forall fuel r k vs t, knows fuel school r -> length vs <= 1 -> n_base (t_name (td_spec t)) <> EnumTN -> In (type_literal t) [""; "Human"; "Marks"; "Badge"; "Pupil"] ->
  convertible fuel r (MProperty (Prop_Mson.named k) (mem (lits vs t) "" [])).
Proof. intros. apply cv_property; [discriminate|now apply simple_fine|constructor]. Qed.
Lemma property_decent : forall b k vs t, simple_type t -> decent (fun n => In n (map fst base_types) \/ In n (map type_name_of school)) (fun n => named_kind school n (Some KEnum)) b (MProperty (Prop_Mson.named k) (mem (lits vs t) "" [])).
Proof. intros b k vs t T. apply d_property; [reflexivity|exact T|intros s x []]. Qed.
Lemma no_type_simple : simple_type no_type. Proof. split; [now left|constructor]. Qed.
Lemma called_simple : forall n, simple_type (called n). Proof. intros n. split; [now left|constructor]. Qed.
Lemma base_simple : forall b, simple_type (ty b [] 0). Proof. intros b. split; [now right|constructor]. Qed.
Lemma declared_good : forall n t l, simple_type t -> n_base (t_name (td_spec t)) <> EnumTN -> In (type_literal t) [""; "Human"; "Marks"; "Badge"; "Pupil"] ->
  Forall (decent (fun n => In n (map fst base_types) \/ In n (map type_name_of school)) (fun n => named_kind school n (Some KEnum)) true) l ->
  (forall fuel r, knows fuel school r -> Forall (convertible fuel r) l) -> fine_in school (declare n t l) /\ decent_in school (declare n t l).
Proof.
  intros n t l S B L D F. split.
  - intros fuel r K. split; [split; [constructor; [discriminate|constructor]|intros E; exfalso; now apply (not_enum_here fuel r t)]|]. constructor; [now apply F|constructor].
  - split; [exact S|]. intros c x [<-|[]] Hx. cbn in Hx. exists true. rewrite Forall_forall in D. split; [now apply D|]. intros _. split; [reflexivity|now apply not_enum].
Qed.
Lemma school_good : forall s, In s (of_pupil :: school) -> fine_in school s /\ decent_in school s.
Proof.
  intros s H. cbn in H. destruct H as [<-|[<-|[<-|[<-|[<-|[]]]]]]; (apply declared_good; [first [apply called_simple|apply base_simple|idtac]|discriminate|cbn; auto 10| |]).
  - constructor.
  - constructor.
  - constructor; [apply property_decent, base_simple|constructor].
  - intros f r K. constructor; [apply property_fine; auto; [discriminate|cbn; auto]|constructor].
  - split; [now right|]. constructor; [now right|constructor].
  - constructor.
  - constructor.
  - constructor; [apply property_decent, no_type_simple|constructor].
  - intros f r K. constructor; [apply property_fine; auto; [discriminate|cbn; auto]|constructor].
  - constructor; [apply property_decent, called_simple|]. constructor; [apply d_mixin; right; split; [discriminate|right; cbn; auto]|].
    constructor; [|constructor]. apply d_oneof; [discriminate|]. constructor; [apply property_decent, no_type_simple|]. constructor; [|constructor]. apply d_group. constructor; [apply property_decent, no_type_simple|constructor].
  - intros f r K. constructor; [apply property_fine; auto; [discriminate|cbn; auto]|]. constructor; [apply cv_mixin; reflexivity|]. constructor; [|constructor]. apply cv_one_of.
    constructor; [left; apply property_fine; auto; [discriminate|cbn; auto]|]. constructor; [|constructor]. right. eexists. split; [reflexivity|]. constructor; [apply property_fine; auto; [discriminate|cbn; auto]|constructor].
Qed.
Lemma empty_good : fine_in school no_structure /\ decent_in school no_structure.
Proof. split; [intros f r K; split; [split; constructor|constructor]|]. split; [split; [now left|constructor]|intros c x []]. Qed.
(** the hypotheses of C71 hold of a document with inheritance, a mixin and a one-of, and a body and a schema are generated *)
Example C71_nonvacuous : find_named_types (bp_elements (answering of_pupil school)) = school /\ well_declared school /\ none_reserved school /\ maps_apart school /\ classes_known (answering of_pupil school) /\
  (forall s, In s school \/ has_structure (answering of_pupil school) s -> fine_in school s /\ decent_in school s) /\
  exists w e, convert 20 None school (answering of_pupil school) = (w, Done e) /\
    hd "" (assets 9 e) = serialize_json (VObject [("age", VNumber "0"); ("marks", VArray []); ("colour", VString "red"); ("a", VString "1")]) /\ length (assets 9 e) = 2.
Proof.
  destruct school_fine as (W & R & A). split; [reflexivity|]. split; [exact W|]. split; [exact R|]. split; [exact A|].
  assert (I0 : forall top x, In top (bp_elements (answering of_pupil school)) -> inside top x -> x = top) by (intros top x Ht Hx; cbn in Ht; repeat (destruct Ht as [<-|Ht]; [inversion Hx as [|? c ? C]; subst; [reflexivity|discriminate]|]); destruct Ht).
  split; [|split].
  - intros top x Ht Hx. rewrite (I0 top x Ht Hx). cbn in Ht. repeat (destruct Ht as [<-|Ht]; [cbn; auto 10|]). destruct Ht.
  - intros s [Hs|Hs]; [apply school_good; now right|]. inversion Hs as [top x Ht Hx C|top x Ht Hx C|top x a s' Ht Hx C Ha As]; subst; rewrite (I0 top x Ht Hx) in *; cbn in Ht.
    + destruct Ht as [<-|Ht]; [discriminate|]. repeat (destruct Ht as [<-|Ht]; [apply school_good; cbn; auto 10|]). destruct Ht.
    + destruct Ht as [<-|Ht]; [apply empty_good|]. repeat (destruct Ht as [<-|Ht]; [discriminate|]). destruct Ht.
    + destruct Ht as [<-|Ht]; [|repeat (destruct Ht as [<-|Ht]; [discriminate|]); destruct Ht]. cbn in Ha. destruct Ha as [<-|[]].
      inversion As as [|y z Hy Hz|y z Hy Hz]; subst; [apply empty_good| |]; cbn in Hy; destruct Hy as [<-|[]]; cbn in Hz; [destruct Hz|destruct Hz as [<-|[]]]. apply school_good. now left.
  - do 2 eexists. split; [vm_compute; reflexivity|]. split; vm_compute; reflexivity.
Qed.
Definition school_registry : registry := match register 9 school school with (_, Done r) => r | _ => [] end.
Definition pupil_element : element := match structure_to_refract 9 school_registry of_pupil with Some (Ok (Some e, _)) => e | _ => make_empty KNull end.
Definition whole_pupil : element := match expand 9 school_registry [] pupil_element with Some (Ok (Some x)) => x | _ => make_empty KNull end.
Example C48_nonvacuous : exists w w' v fs, register 9 school school = (w, Done school_registry) /\ structure_to_refract 9 school_registry of_pupil = ret (Some pupil_element, w') /\
  expands school_registry pupil_element whole_pupil /\ ready whole_pupil /\ body whole_pupil v /\ schema whole_pupil fs /\ ekind whole_pupil = KExtend.
Proof.
  destruct school_fine as (W & R & A). assert (Z : forall s, In s school -> decent_in school s) by (intros s Hs; apply school_good; now right).
  assert (exists w, register 9 school school = (w, Done school_registry)) as (w & E) by (eexists; vm_compute; reflexivity).
  assert (exists w', structure_to_refract 9 school_registry of_pupil = ret (Some pupil_element, w')) as (w' & C) by (eexists; vm_compute; reflexivity).
  assert (X0 : expand 9 school_registry [] pupil_element = Some (Ok (Some whole_pupil))) by (vm_compute; reflexivity).
  assert (X : expands school_registry pupil_element whole_pupil) by (exists (Some whole_pupil); split; [|reflexivity]; exists 9; intros f L; exact (expand_below 9 f _ _ _ L _ X0)).
  assert (Rx := C48_expanded school W R A Z 9 school w _ (Permutation_refl _) E 9 of_pupil _ w' _ (proj2 (school_good of_pupil (or_introl eq_refl))) C X).
  destruct (C48_body _ Rx) as (v & Bv). destruct (C48_schema _ Rx) as (fs & Bs). exists w, w', v, fs. split; [exact E|]. split; [exact C|]. split; [exact X|]. split; [exact Rx|]. split; [exact Bv|]. split; [exact Bs|vm_compute; reflexivity].
Qed.
(** a type that includes itself raises the error *)
Definition loop := declare "Loop" (ty ObjectTN [] 0) [MMixin (called "Loop")].
Example C71_circular : exists w, convert 20 None [loop] (answering (declare "" (called "Loop") []) [loop]) = (w, Raises "named type 'Loop' is circularly referencing itself by mixin").
Proof. eexists. vm_compute. reflexivity. Qed.

(** ** What goes wrong without the conditions: the generation of the body is undefined (an assertion fails) *)
(** a mixin in a sample is never expanded:
    + Attributes (object)
        + Sample
            + Include Badge *)
Definition sampled := Str (TN UndefinedTN (Sym "" false)) (ty ObjectTN [] 0) [Sec SampleClass "" "" [MMixin (called "Badge")] [] []] [] [] [].
Theorem C71_sample_refuted : exists s w, (forall fuel r, structure_fine fuel r s) /\ s = sampled /\ convert 20 None [badge] (answering s [badge]) = (w, Breaks).
Proof.
  exists sampled. eexists. split; [|split; [reflexivity|vm_compute; reflexivity]]. intros fuel r. split; [split; [constructor; [discriminate|constructor]|]|].
  - intros _. constructor; [|constructor]. intros m [H|[]]. discriminate.
  - constructor; [|constructor]. constructor; [|constructor]. apply cv_mixin. reflexivity.
Qed.
(** the name of a property has a named type, and the object is inherited:
    # Key (string)
    # Odd (object)
    + *key (Key)*: 1
    + Attributes (Odd)
        + x: 1 *)
Definition key_type := declare "Key" (ty StringTN [] 0) [].
Definition odd := declare "Odd" (ty ObjectTN [] 0) [MProperty (PN "" (VD [MV "key" false] (called "Key")) []) (mem (lits ["1"] no_type) "" [])].
Theorem C71_key_refuted : exists w, convert 20 None [key_type; odd] (answering (declare "" (called "Odd") [property "x" "1"]) [key_type; odd]) = (w, Breaks).
Proof. eexists. vm_compute. reflexivity. Qed.
(** a one-of without alternatives *)
Theorem C71_one_of_refuted : exists w, convert 20 None [] (answering (declare "" (ty ObjectTN [] 0) [MOneOf []]) []) = (w, Breaks).
Proof. eexists. vm_compute. reflexivity. Qed.
(** a mixin of an unknown type *)
Theorem C71_mixin_refuted : exists w, convert 20 None [] (answering (declare "" (ty ObjectTN [] 0) [MMixin (called "Nowhere")]) []) = (w, Breaks).
Proof. eexists. vm_compute. reflexivity. Qed.

Print Assumptions C48_body.
Print Assumptions C48_schema.
Print Assumptions C48_size.
Print Assumptions C48_expanded.
Print Assumptions C48_generated.
Print Assumptions C71_total.
Print Assumptions C71_sample_refuted.
Print Assumptions C71_key_refuted.
Print Assumptions C71_one_of_refuted.
Print Assumptions C71_mixin_refuted.
