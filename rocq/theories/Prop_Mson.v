(** Properties C54 to C61: data structures and attributes written in MSON, as API Elements *)
From Verif Require Import Base Utf8Spec SoValue SoValueSpec JsonIo JsonSpec JsonIoProofs Element ElementSpec ElementProofs InfoProofs MergeSpec SerializeSo SerializeSpec Extend Registry Expand ExpandSpec ExpandClosed
  ElementUtils SourceMap Prop_Serialize Prop_Expand TypeTables StringUtility StringProofs
  Mson MsonSpec MsonProofs MsonSane MsonShape MsonAlike MsonEnum MsonMember MsonTree MsonTotal.
Local Open Scope string_scope.

(** ** C54: literals of numbers and booleans *)
Theorem C54_number : forall s n, literal_of KNumber s = Some (DNumber n) <->
  json_number n = true /\ exists spaces, s = n +++ spaces /\ sforall is_space spaces = true.
Proof.
  intros s n. rewrite <- literal_number_spec. unfold literal_of. destruct (literal_number s) as [x|]; cbn; split; intros H; try discriminate; injection H as <-; reflexivity.
Qed.
Theorem C54_boolean : forall s d, literal_of KBoolean s = Some d <-> (s = "true" /\ d = DBoolean true) \/ (s = "false" /\ d = DBoolean false).
Proof.
  intros s d. unfold literal_of. destruct (String.eqb_spec s "true") as [->|N]; [|destruct (String.eqb_spec s "false") as [->|N']]; split; intros H;
    try (injection H as <-); try (destruct H as [[? ?]|[? ?]]; congruence); auto; discriminate.
Qed.
Theorem C54_string : forall s d, literal_of KString s = Some d <-> s <> "" /\ d = DString s.
Proof. intros s d. unfold literal_of. destruct (String.eqb_spec s ""); split; intros H; [discriminate|now destruct H|injection H as <-; auto|now destruct H as [_ ->]]. Qed.

(** ** C55: what every converted data structure satisfies *)
Lemma sane_numbers : forall e, sane e -> forall x, sub x e -> Forall (fun s => json_number s = true) (own_numbers x).
Proof.
  intros e S x Hx. destruct (S x Hx) as (_ & _ & _ & _ & _ & D). unfold own_numbers. destruct (ehas x); [|constructor].
  destruct (edata x); constructor; auto.
Qed.
Lemma within_sub : forall x e, within x e -> sub x e.
Proof.
  intros x e W. induction W as [e|x c e Hc W IH]; [constructor|]. apply sub_step with c; [|exact IH]. unfold parts in Hc. unfold children.
  apply in_or_app. right. apply in_app_or in Hc as [Hc|Hc].
  - apply in_or_app. right. unfold entries in Hc. now destruct (ehas e).
  - apply in_or_app. left. destruct (edata e); try destruct Hc. apply in_map_iff in Hc as (kv & <- & Hc). apply filter_In in Hc as [Hc _]. now apply in_map.
Qed.
Lemma sub_trans : forall x y e, sub x y -> sub y e -> sub x e.
Proof. intros x y e H W. induction W as [e|y c e Hc W IH]; [exact H|]. apply sub_step with c; [exact Hc|now apply IH]. Qed.
Lemma sane_shaped : forall e, sane e -> well_shaped e.
Proof.
  intros e S x W. apply within_sub in W. assert (Sx := S x W). destruct Sx as (_ & _ & _ & _ & A & D). unfold shape_ok.
  destruct (edata x) as [|o|s|s|b|l|k v|l|o|s|l|l|l] eqn:Ed; try exact I; try tauto.
  - split; [intros H; destruct (D H) as (v & ->); discriminate|]. intros y Hy. apply A in Hy. unfold ekind in Hy. rewrite Ed in Hy. cbn [dsd_kind] in Hy.
    unfold attribute_ok, entries_of in Hy. cbn in Hy. destruct Hy as [Hy|[Hy|[Hy|[Hy|[Hy|[Hy|Hy]]]]]]; try (decompose [and] Hy; discriminate).
    destruct Hy as (_ & _ & H & l & Hl & _). split; [exact H|]. unfold ekind. now rewrite Hl.
  - destruct D as [N F]. rewrite N. split; [now right|]. rewrite Forall_forall in F. intros y Hy. split; [now apply F|].
    assert (Sy : sane_piece y).
    { apply S. apply (sub_trans y x e); [|exact W]. apply sub_step with y; [|constructor]. unfold children. rewrite Ed. apply in_or_app. right. apply in_or_app. now right. }
    destruct Sy as (_ & _ & _ & _ & _ & Dy). assert (Ky := F y Hy). unfold ekind in Ky. destruct (edata y); try discriminate. destruct Dy as [-> _]. reflexivity.
Qed.
Theorem C55_sane : forall fuel r s e w, structure_to_refract fuel r s = ret (Some e, w) -> sane e.
Proof. exact structure_sane. Qed.
(** so it can be written, and the text reads back as it is *)
Theorem C55_text : forall fuel r s e w sm, structure_to_refract fuel r s = ret (Some e, w) ->
  exists v, render_so e sm = Some v /\ unique_keys v /\ read_json (serialize_json v) = Some v.
Proof.
  intros fuel r s e w sm H. apply structure_sane in H. assert (N := sane_no_null e H).
  assert (U : keys_unique e) by (intros x Hx; destruct (H x Hx) as (_ & U1 & U2 & _); now split).
  destruct (C15_text_reads_back e sm N U (sane_numbers e H)) as (v & V & R & _). exists v. split; [exact V|]. split; [|exact R].
  now apply (C15_unique_members e sm v N U).
Qed.
(** and its expansion, with types that were converted too, is never undefined *)
Theorem C55_expansion : forall fuel r s e w, structure_to_refract fuel r s = ret (Some e, w) ->
  forall types, (forall n p, rfind types n = Some p -> In (n, p) base_types \/ sane p) -> forall f, expand f types [] e <> Some Undefined.
Proof.
  intros fuel r s e w H types T f. apply structure_sane in H. apply C23_defined; [|now apply sane_shaped]. intros n p E. destruct (T n p E) as [B|B]; [|now apply sane_shaped].
  cbn in B. intros x W. repeat (destruct B as [B|B]; [injection B as <- <-; inversion W as [|? c ? Hc]; subst; [cbn; repeat split; intros; try discriminate; contradiction|destruct Hc]|]). destruct B.
Qed.

(** ** C57: what members and data structures become *)
Theorem C57_value : forall fuel r d m o w, to_apie fuel r (MValue m) d = ret (o, w) ->
  exists e k w', o = Some e /\ w = (clash_warnings m ++ w')%list /\ member_kind fuel r d m k /\ ekind e = k /\ ename e = label (vd_type (m_value m)) k /\
    value_body fuel r k m e w' /\
    attr e "typeAttributes" = type_attribute_of (vd_type (m_value m)) /\ only_attributes value_attributes e /\
    described_as e (value_description m) /\ (forall x, x <> "description" -> meta e x = None).
Proof. exact value_member. Qed.
Theorem C57_property : forall fuel r d n m o w, to_apie fuel r (MProperty n m) d = ret (o, w) ->
  (def_empty (vd_type (p_variable n)) = false -> string_typed fuel r (vd_type (p_variable n))) /\
  match o with
  | None => keyless n = true /\ w = (clash_warnings m ++ key_warnings n)%list
  | Some e =>
    keyless n = false /\ ename e = "member" /\ ehas e = true /\
    attr e "typeAttributes" = type_attribute_of (vd_type (m_value m)) /\
    attr e "variable" = (if value_empty (p_variable n) then None else Some (make_element (DBoolean true))) /\
    only_attributes ["typeAttributes"; "variable"] e /\
    described_as e (property_description m) /\ (forall x, x <> "description" -> meta e x = None) /\
    exists key v k w', edata e = DMember (Some key) (Some v) /\ w = (clash_warnings m ++ key_warnings n ++ w')%list /\
      key_of n key /\ member_kind fuel r d m k /\ ekind v = k /\ ename v = label (vd_type (m_value m)) k /\
      value_body fuel r k m v w' /\ emeta v = [] /\ only_attributes ["samples"; "default"; "enumerations"; "sourceMap"] v
  end.
Proof. exact property_member. Qed.
Theorem C57_structure : forall fuel r s o w, structure_to_refract fuel r s = ret (o, w) ->
  match o with
  | None => structure_empty s = true /\ w = []
  | Some e => structure_empty s = false /\
    exists k, structure_kind fuel r (ds_type s) k /\ ekind e = k /\ ename e = label (ds_type s) k /\ structure_body fuel r k s e w /\
      attr e "typeAttributes" = type_attribute_of (ds_type s) /\ only_attributes value_attributes e /\
      meta e "id" = id_element s /\ described_as e (joined (blocks (ds_sections s))) /\ (forall x, ~ In x ["id"; "description"] -> meta e x = None)
  end.
Proof. exact structure_shape. Qed.
(** the kind of a member is settled *)
Lemma known_once : forall fuel r n k k', known fuel r n k -> known fuel r n k' -> k = k'.
Proof. intros fuel r n k k' (e & E & <- & _) (e' & E' & <- & _). congruence. Qed.
Theorem C57_kind_settled : forall fuel r d (m : mmember melement) k k', member_kind fuel r d m k -> member_kind fuel r d m k' -> k = k'.
Proof.
  intros fuel r d m k k' H H'.
  destruct H as [b B N|k B L K|[B U] L|[B U] L T|[B U] L T M], H' as [b' B' N'|k' B' L' K'|[B' U'] L'|[B' U'] L' T'|[B' U'] L' T' M'];
    try congruence; try lia; try (now apply (known_once fuel r (type_literal (vd_type (m_value m))))); try (destruct T as [T|T]; congruence); try (destruct T' as [T'|T']; congruence).
  all: try (destruct U as [U|U]; [congruence|now destruct (U k')]); try (destruct U' as [U'|U']; [congruence|now destruct (U' k)]); try (destruct T; congruence); try (destruct T'; congruence).
Qed.

(** ** C56: arrays and objects *)
Theorem C56_member : forall fuel r d m e w, to_apie fuel r (MValue m) d = ret (Some e, w) -> ekind e = KArray \/ ekind e = KObject ->
  exists hs vs ss dd wh ws,
    let t := vd_type (m_value m) in
    let items := map (item (entry_kind t)) (inline_values (m_value m)) in
    let u := use_of false (m_value m) in
    w = (clash_warnings m ++ missing_warnings m ++ wh ++ ws)%list /\ sections_report fuel r (nested_default t) (m_sections m) ws /\
    member_hints fuel r (m_value m) hs wh /\
    Forall2 (section_gives fuel r (nested_default t)) (members (m_sections m)) vs /\
    Forall2 (section_gives fuel r (nested_default t)) (sample_sections (m_sections m)) ss /\
    Forall2 (section_gives fuel r (nested_default t)) (default_sections (m_sections m)) dd /\
    holds (ekind e) (hs ++ if_use AsValue u items ++ concat vs) e /\
    attr e "samples" = list_attribute (map (collected (ekind e)) (if_use AsSample u [items] ++ ss)) /\
    attr e "default" = option_map (collected (ekind e)) (last_of (if_use AsDefault u [items] ++ dd)).
Proof.
  intros fuel r d m e w H K. apply value_member in H as (e' & k & w' & E & -> & _ & Ek & _ & B & _). injection E as <-.
  assert (L : exists hs wh ws, w' = (missing_warnings m ++ wh ++ ws)%list /\ member_hints fuel r (m_value m) hs wh /\
    sections_report fuel r (nested_default (vd_type (m_value m))) (m_sections m) ws /\
    list_body fuel r k (vd_type (m_value m)) hs (use_of false (m_value m)) (map (item (entry_kind (vd_type (m_value m)))) (inline_values (m_value m))) (m_sections m) e).
  { destruct K as [K|K]; rewrite K in Ek; subst k; destruct B as (hs & wh & ws & B0 & B1 & Br & B2 & _); now exists hs, wh, ws. }
  destruct L as (hs & wh & ws & -> & L1 & Lr & vs & ss & dd & P1 & P2 & P3 & P4 & P5 & P6 & _). exists hs, vs, ss, dd, wh, ws. cbv zeta. rewrite Ek. split; [reflexivity|]. repeat (split; [assumption|]). assumption.
Qed.
Theorem C56_structure : forall fuel r s e w, structure_to_refract fuel r s = ret (Some e, w) -> ekind e = KArray \/ ekind e = KObject ->
  exists hs vs ss dd wh ws, w = (wh ++ ws)%list /\ sections_report fuel r (nested_default (ds_type s)) (ds_sections s) ws /\
    nested_hints fuel r (ds_type s) (ds_type_map s) hs wh /\
    Forall2 (section_gives fuel r (nested_default (ds_type s))) (members (ds_sections s)) vs /\
    Forall2 (section_gives fuel r (nested_default (ds_type s))) (sample_sections (ds_sections s)) ss /\
    Forall2 (section_gives fuel r (nested_default (ds_type s))) (default_sections (ds_sections s)) dd /\
    holds (ekind e) (hs ++ concat vs) e /\
    attr e "samples" = list_attribute (map (collected (ekind e)) ss) /\
    attr e "default" = option_map (collected (ekind e)) (last_of dd).
Proof.
  intros fuel r s e w H K. apply structure_shape in H as (_ & k & _ & Ek & _ & B & _).
  assert (L : exists hs wh ws, w = (wh ++ ws)%list /\ nested_hints fuel r (ds_type s) (ds_type_map s) hs wh /\ sections_report fuel r (nested_default (ds_type s)) (ds_sections s) ws /\ list_body fuel r k (ds_type s) hs NoUse [] (ds_sections s) e).
  { destruct K as [K|K]; rewrite K in Ek; subst k; destruct B as (hs & wh & ws & B0 & B1 & Br & B2 & _); now exists hs, wh, ws. }
  destruct L as (hs & wh & ws & -> & L1 & Lr & vs & ss & dd & P1 & P2 & P3 & P4 & P5 & P6 & _). exists hs, vs, ss, dd, wh, ws. rewrite Ek. split; [reflexivity|]. repeat (split; [assumption|]). assumption.
Qed.
(** the members of an object: the last of those with one key, in the order of the document *)
Theorem C56_last_per_key : forall l,
  subsequence (last_per_key l) l /\ NoDup (member_keys (last_per_key l)) /\
  (forall x, In x l -> string_key x = None -> In x (last_per_key l)) /\
  (forall a x b s, l = (a ++ x :: b)%list -> string_key x = Some s -> (forall y, In y b -> string_key y <> Some s) -> In x (last_per_key l)).
Proof.
  assert (HK : forall s x, has_key s x = true <-> string_key x = Some s) by (intros s x; apply has_key_spec).
  assert (Sub : forall l, subsequence (last_per_key l) l).
  { induction l as [|x l IH]; cbn; [constructor|]. destruct (string_key x) as [s|]; [destruct (existsb (has_key s) l)|]; constructor; exact IH. }
  assert (Inc : forall (l l' : list element), subsequence l l' -> incl l l').
  { intros l l' H. induction H as [|x l l' H IH|x l l' H IH]; intros y Hy; [destruct Hy| |right; auto]. destruct Hy as [<-|Hy]; [now left|right; auto]. }
  intros l. split; [apply Sub|]. split; [|split].
  - induction l as [|x l IH]; cbn [last_per_key]; [constructor|]. destruct (string_key x) as [s|] eqn:K.
    + destruct (existsb (has_key s) l) eqn:Ex; [exact IH|]. unfold member_keys in *. cbn [flat_map]. rewrite K. cbn [app]. constructor; [|exact IH].
      intros Hs. apply in_flat_map in Hs as (y & Hy & Hs). destruct (string_key y) as [t|] eqn:Ky; [|destruct Hs]. destruct Hs as [->|[]].
      assert (Y : existsb (has_key s) l = true) by (apply existsb_exists; exists y; split; [now apply (Inc _ _ (Sub l))|now apply HK]). congruence.
    + unfold member_keys in *. cbn [flat_map]. rewrite K. exact IH.
  - induction l as [|y l IH]; intros x Hx K; [destruct Hx|]. cbn. destruct Hx as [->|Hx]; [rewrite K; now left|].
    destruct (string_key y) as [s|]; [destruct (existsb (has_key s) l)|]; try right; now apply IH.
  - induction l as [|y l IH]; intros a x b s E K Nb; [now destruct a|]. destruct a as [|z a]; injection E as -> ->.
    + cbn. rewrite K. destruct (existsb (has_key s) b) eqn:Ex; [|now left]. apply existsb_exists in Ex as (y & Hy & Hk). apply HK in Hk. now destruct (Nb y Hy).
    + cbn. assert (G := IH a x b s eq_refl K Nb). destruct (string_key z) as [t|]; [destruct (existsb (has_key t) _)|]; try right; exact G.
Qed.

(** ** C58: primitive values *)
Theorem C58_member : forall fuel r d m e w, to_apie fuel r (MValue m) d = ret (Some e, w) -> In (ekind e) [KBoolean; KNumber; KString] ->
  List.length (inline_values (m_value m)) <= 1 /\
  exists w', w = (clash_warnings m ++ missing_warnings m ++ w')%list /\
    text_body (ekind e) (use_of true (m_value m)) (inline_texts m) (m_sections m) (m_map m) e w'.
Proof.
  intros fuel r d m e w H K. apply value_member in H as (e' & k & w' & E & -> & _ & Ek & _ & B & _). injection E as <-. rewrite Ek in *.
  assert (P : List.length (inline_values (m_value m)) <= 1 /\ exists w0, w' = (missing_warnings m ++ w0)%list /\ text_body k (use_of true (m_value m)) (inline_texts m) (m_sections m) (m_map m) e w0).
  { destruct K as [<-|[<-|[<-|[]]]]; exact B. }
  destruct P as (P1 & w0 & -> & P2). split; [exact P1|]. now exists w0.
Qed.
Theorem C58_structure : forall fuel r s e w, structure_to_refract fuel r s = ret (Some e, w) -> In (ekind e) [KBoolean; KNumber; KString] ->
  text_body (ekind e) NoUse [] (ds_sections s) (ds_map s) e w.
Proof.
  intros fuel r s e w H K. apply structure_shape in H as (_ & k & _ & Ek & _ & B & _). rewrite Ek in *. destruct K as [<-|[<-|[<-|[]]]]; exact B.
Qed.

(** ** C59: enumerations *)
Theorem C59_member : forall fuel r d m e w, to_apie fuel r (MValue m) d = ret (Some e, w) -> ekind e = KEnum ->
  exists hs its wh ws wl, w = (clash_warnings m ++ missing_warnings m ++ wh ++ ws ++ wl)%list /\ member_hints fuel r (m_value m) hs wh /\
    sections_report fuel r (nested_default (vd_type (m_value m))) (m_sections m) ws /\
    Forall2 fixed_version (map (fun x => literal_element (entry_kind (vd_type (m_value m))) (v_literal x)) (inline_values (m_value m))) its /\
    enum_body fuel r (vd_type (m_value m)) hs (use_of true (m_value m)) its (m_sections m) e wl.
Proof.
  intros fuel r d m e w H K. apply value_member in H as (e' & k & w' & E & -> & _ & Ek & _ & B & _). injection E as <-. rewrite K in Ek. subst k.
  destruct B as (hs & its & wh & ws & wl & -> & B1 & Br & B2 & B3 & _). exists hs, its, wh, ws, wl. now repeat split.
Qed.
Theorem C59_structure : forall fuel r s e w, structure_to_refract fuel r s = ret (Some e, w) -> ekind e = KEnum ->
  exists hs wh ws wl, w = (wh ++ ws ++ wl)%list /\ nested_hints fuel r (ds_type s) (ds_type_map s) hs wh /\
    sections_report fuel r (nested_default (ds_type s)) (ds_sections s) ws /\ enum_body fuel r (ds_type s) hs NoUse [] (ds_sections s) e wl.
Proof.
  intros fuel r s e w H K. apply structure_shape in H as (_ & k & _ & Ek & _ & B & _). rewrite K in Ek. subst k. destruct B as (hs & wh & ws & wl & B0 & B1 & Br & B2 & _). now exists hs, wh, ws, wl.
Qed.

(** ** C60: one-of, mixins and groups *)
Theorem C60_one_of : forall fuel r d l o w, to_apie fuel r (MOneOf l) d = ret (o, w) ->
  exists rs, Forall2 (fun x y => alternative fuel r x (fst y) (snd y)) l rs /\ o = Some (select_element (map fst rs)) /\ w = concat (map snd rs).
Proof. exact one_of_member. Qed.
Theorem C60_mixin : forall fuel r d t o w, to_apie fuel r (MMixin t) d = ret (o, w) -> w = [] /\ o = Some (reference (mixin_name t)).
Proof. exact mixin_member. Qed.
Theorem C60_group : forall fuel r d l, to_apie fuel r (MGroup l) d = throw "unable to handle element group".
Proof. exact group_member. Qed.

(** ** C61: conversion ends and fails on nothing but what is listed *)
Theorem C61_total : forall r, (forall n, rooted r n) ->
  exists f0, forall fuel, f0 <= fuel -> forall s, structure_fine fuel r s -> exists o w, structure_to_refract fuel r s = ret (o, w).
Proof.
  intros r H. destruct (ancestors_of r H) as (f0 & F). exists f0. intros fuel L s S. destruct (structure_ok fuel r (F fuel L) s S) as (o & w & E). now exists o, w.
Qed.

(** ** Concrete data structures *)
Definition types : registry := base_types.
Definition ty (b : base_name) (nested : list type_name) (ta : N) : type_def := TD (parse_base b) (TS (TN b (Sym "" false)) nested) ta.
Definition called (s : string) : type_def := TD ImplicitObjectBT (TS (TN UndefinedTN (Sym s false)) []) 0.
Definition no_type : type_def := TD ImplicitPrimitiveBT (TS (TN UndefinedTN (Sym "" false)) []) 0.
Definition lits (l : list string) (t : type_def) : value_def := VD (map (fun s => MV s false) l) t.
Definition mem (v : value_def) (desc : string) (secs : list (msection melement)) : mmember melement := Mem desc v secs [Range 1 2] [] [].
Definition named (s : string) : prop_name := PN s (VD [] (TD UndefinedBT (TS (TN UndefinedTN (Sym "" false)) []) 0)) [].
Definition items_section (l : list melement) : msection melement := Sec MemberTypeClass "" "" l [] [].
Definition sample_section (s : string) : msection melement := Sec SampleClass "" s [] [] [].
Definition text_section (s : string) : msection melement := Sec BlockDescriptionClass s "" [] [] [].
(** ## Person
    A person.
    + name: Ann (required) - the name
    + age: 4x (number)
        + Sample: 7
    + marks: 1, 2 (array[number])
    + colour (enum)
        + red
        + blue
        + red
    + Include Base
    + One Of
        + x: 1.50 (number, fixed)
        + Properties: + y, + z
    + name: Eve *)
Definition person : structure :=
  Str (TN UndefinedTN (Sym "Person" false)) (TD ObjectBT (TS (TN ObjectTN (Sym "" false)) []) 0)
    [text_section "A person.";
     items_section
       [MProperty (named "name") (mem (lits ["Ann"] (ty StringTN [] 1)) "the name" []);
        MProperty (named "age") (mem (lits ["4x"] (ty NumberTN [] 0)) "" [sample_section "7"]);
        MProperty (named "marks") (mem (lits ["1"; "2"] (ty ArrayTN [TN NumberTN (Sym "" false)] 0)) "" []);
        MProperty (named "colour") (mem (lits [] (ty EnumTN [] 0)) ""
          [items_section [MValue (mem (lits ["red"] no_type) "" []); MValue (mem (lits ["blue"] no_type) "" []); MValue (mem (lits ["red"] no_type) "" [])]]);
        MMixin (called "Base");
        MOneOf [MProperty (named "x") (mem (lits ["1.50"] (ty NumberTN [] 4)) "" []);
                MGroup [MProperty (named "y") (mem (lits [] no_type) "" []); MProperty (named "z") (mem (lits [] no_type) "" [])]];
        MProperty (named "name") (mem (lits ["Eve"] no_type) "" [])]] [] [] [].
Definition pair_of (e : element) : option (element * element) := match edata e with DMember (Some k) (Some v) => Some (k, v) | _ => None end.

Example C55_C61_nonvacuous : exists e w, structure_to_refract 5 types person = ret (Some e, w) /\
  sane e /\ ename e = "object" /\ described_as e "A person." /\ List.length w = 2 /\
  map a_message w = ["invalid value format for 'number' type. please check mson specification for valid format"; "duplicit value in enumeration"] /\
  exists age marks colour ref sel name,
    edata e = DObject [age; marks; colour; ref; sel; name] /\
    option_map (fun p => edata (snd p)) (pair_of age) = Some (DNumber "0") /\
    option_map (fun p => attr (snd p) "samples") (pair_of age) = Some (Some (make_element (DArray [make_element (DNumber "7")]))) /\
    option_map (fun p => edata (snd p)) (pair_of marks) = Some (DArray [make_element (DNumber "1"); make_element (DNumber "2")]) /\
    option_map (fun p => option_map (fun l => map edata match edata l with DArray l => l | _ => [] end) (attr (snd p) "enumerations")) (pair_of colour)
      = Some (Some [DString "red"; DString "blue"]) /\
    ref = reference "Base" /\
    (exists a b, edata sel = DSelect [a; b] /\ (exists x, edata a = DOption [x] /\ option_map (fun p => edata (snd p)) (pair_of x) = Some (DNumber "1.50")) /\
       exists y z, edata b = DOption [y; z]) /\
    option_map (fun p => edata (snd p)) (pair_of name) = Some (DString "Eve").
Proof.
  eexists. eexists. split; [vm_compute; reflexivity|]. split.
  { eapply (structure_sane 5 types person). vm_compute. reflexivity. }
  split; [reflexivity|]. split; [repeat split; discriminate|]. split; [reflexivity|]. split; [reflexivity|].
  do 6 eexists. split; [reflexivity|]. repeat (split; [reflexivity|]). split; [|reflexivity].
  do 2 eexists. split; [reflexivity|]. split; [eexists; split; reflexivity|]. do 2 eexists. reflexivity.
Qed.
(** person meets the hypotheses of C61 *)
Example C61_nonvacuous : (forall n, rooted types n) /\ forall f, structure_fine f types person.
Proof.
  split.
  - intros n. destruct (rfind types n) as [p|] eqn:E; [|now apply rooted_unknown]. apply rooted_reserved with p; [exact E|]. unfold rfind in E. apply ifind_In in E. cbn in E.
    repeat (destruct E as [E|E]; [injection E as <- <-; reflexivity|]). destruct E.
  - intros f. assert (F : forall b ns ta v, member_fine f types (mem (lits v (ty b ns ta)) "" []) -> True) by (intros; exact I). clear F.
    assert (NoEnum : forall t ns ta, t <> EnumTN -> ~ enum_type f types (ty t ns ta)).
    { intros t ns ta N [E|(_ & E & _)]; [now apply N|now apply E]. }
    assert (NoE : ~ enum_type f types no_type) by (intros [E|(_ & E & _)]; [discriminate|now apply E]).
    assert (Simple : forall t ns ta vs desc secs, t <> EnumTN -> Forall (fun s => sc_class s <> UndefinedClass) secs -> (In t [BooleanTN; NumberTN; StringTN] -> List.length vs <= 1) -> (t = UndefinedTN -> False) ->
      member_fine f types (mem (lits vs (ty t ns ta)) desc secs)).
    { intros t ns ta vs desc secs N C V U. split; [split; [exact C|intros E; now destruct (NoEnum t ns ta N)]|]. intros [P|(P & _)]; [|now destruct (U P)].
      unfold inline_values. destruct (object_base _); cbn; [lia|]. rewrite map_length. now apply V. }
    assert (Plain : forall vs desc, List.length vs <= 1 -> member_fine f types (mem (lits vs no_type) desc [])).
    { intros vs desc L. split; [split; [constructor|intros E; now destruct NoE]|]. intros _. cbn. now rewrite map_length. }
    assert (Cp : forall s m, member_fine f types m -> Forall (fun s => Forall (convertible f types) (sc_elements s)) (m_sections m) -> convertible f types (MProperty (named s) m)).
    { intros s m H1 H2. apply cv_property; [discriminate|exact H1|exact H2]. }
    assert (Cv : forall s, convertible f types (MValue (mem (lits [s] no_type) "" []))) by (intros s; apply cv_value; [now apply Plain|constructor]).
    split; [split|].
    + repeat constructor; discriminate.
    + intros [E|(E & _)]; discriminate.
    + constructor; [constructor|]. constructor; [|constructor].
      apply Forall_cons; [apply Cp; [apply Simple; first [discriminate|solve [repeat constructor; discriminate]|cbn; intros X; repeat (destruct X as [X|X]; [try discriminate; lia|]); destruct X]|constructor]|].
      apply Forall_cons; [apply Cp; [apply Simple; first [discriminate|solve [repeat constructor; discriminate]|cbn; intros X; repeat (destruct X as [X|X]; [try discriminate; lia|]); destruct X]|repeat constructor]|].
      apply Forall_cons; [apply Cp; [apply Simple; first [discriminate|solve [repeat constructor; discriminate]|cbn; intros X; repeat (destruct X as [X|X]; [try discriminate; lia|]); destruct X]|constructor]|].
      apply Forall_cons.
      { apply Cp; [|constructor; [|constructor]; repeat (apply Forall_cons; [apply Cv|]); constructor].
        split; [split|].
        - repeat constructor; discriminate.
        - intros _. constructor; [|constructor]. intros m Hm. left. cbn in Hm. repeat (destruct Hm as [Hm|Hm]; [injection Hm as <-; reflexivity|]). destruct Hm.
        - intros _. cbn. lia. }
      apply Forall_cons; [now apply cv_mixin|].
      apply Forall_cons.
      { apply cv_one_of. apply Forall_cons; [left; apply Cp; [apply Simple; first [discriminate|solve [repeat constructor; discriminate]|cbn; intros X; repeat (destruct X as [X|X]; [try discriminate; lia|]); destruct X]|constructor]|]. apply Forall_cons; [|constructor].
        right. eexists. split; [reflexivity|]. repeat (apply Forall_cons; [apply Cp; [apply Plain; cbn; lia|constructor]|]). constructor. }
      apply Forall_cons; [apply Cp; [now apply Plain|constructor]|constructor].
Qed.

(** ** What goes wrong *)
(** + 1, 2 (number): a declared primitive with several values *)
Theorem C61_values_refuted : exists m msg, forall fuel d, to_apie fuel types (MValue m) d = throw msg.
Proof. exists (mem (lits ["1"; "2"] (ty NumberTN [] 0)) "" []). eexists. intros fuel d. reflexivity. Qed.
(** entries of an enumeration of one type name and two kinds: one of them is read as the other *)
Definition star (s : string) : type_def := TD ImplicitObjectBT (TS (TN UndefinedTN (Sym s true)) []) 0.
Definition star_value (l : list string) : melement := MValue (Mem "" (VD (map (fun s => MV s false) l) (TD ImplicitValueBT (td_spec (star "T")) 0)) [] [] [] []).
Theorem C61_enumeration_refuted : exists m, forall fuel d, to_apie fuel types (MValue m) d = undefined.
Proof.
  exists (mem (lits [] (ty EnumTN [] 0)) "" [items_section [star_value ["a"]; star_value ["b"; "c"]]]). intros fuel d.
  destruct fuel; vm_compute; reflexivity.
Qed.
(** the description beside a value that is an object is lost *)
Theorem C57_description_refuted : exists m e w, to_apie 1 types (MValue m) StringTN = ret (Some e, w) /\ m_description m <> "" /\ meta e "description" = None.
Proof.
  exists (mem (lits [] (ty ObjectTN [] 0)) "lost" []). do 2 eexists. split; [vm_compute; reflexivity|]. now split.
Qed.

Example C54_examples : literal_of KNumber "-1.50e+3  " = Some (DNumber "-1.50e+3") /\ literal_of KNumber "01" = None /\ literal_of KNumber " 1" = None /\
  literal_of KBoolean "True" = None /\ literal_of KNumber "1." = None.
Proof. vm_compute. repeat split. Qed.
Example C56_example : exists e w, to_apie 2 types (MValue (mem (VD [MV "1" false; MV "x" true] (ty ArrayTN [TN NumberTN (Sym "" false)] 0)) "" [items_section [MValue (mem (lits ["3"] no_type) "" [])]])) StringTN = ret (Some e, w) /\
  ekind e = KArray /\ exists a b c, edata e = DArray [a; b; c] /\ edata a = DNumber "1" /\ ehas b = false /\ edata c = DNumber "3".
Proof. do 2 eexists. split; [vm_compute; reflexivity|]. split; [reflexivity|]. do 3 eexists. split; [reflexivity|]. repeat split. Qed.
Example C58_example : exists e w, to_apie 2 types (MValue (mem (lits ["maybe"] (ty BooleanTN [] 16)) "" [])) StringTN = ret (Some e, w) /\
  ekind e = KBoolean /\ ehas e = false /\ attr e "default" = Some (make_empty KBoolean) /\
  map a_message w = ["invalid value for 'boolean' type. allowed values are 'true' or 'false'"].
Proof. do 2 eexists. split; [vm_compute; reflexivity|]. repeat split. Qed.
Example C59_example : exists e w, to_apie 2 types (MValue (mem (lits ["a"] (ty EnumTN [] 8)) "" [items_section [MValue (mem (lits ["a"] no_type) "" []); MValue (mem (lits ["b"] no_type) "" [])]])) StringTN = ret (Some e, w) /\
  ekind e = KEnum /\ ehas e = false /\ w = [] /\
  option_map (fun l => map edata match edata l with DArray l => l | _ => [] end) (attr e "enumerations") = Some [DString "a"; DString "b"].
Proof. do 2 eexists. split; [vm_compute; reflexivity|]. repeat split. Qed.
Example C60_example : exists w, to_apie 1 types (MOneOf [MMixin (called "A"); MMixin (ty ObjectTN [] 0)]) StringTN =
  ret (Some (make_element (DSelect [make_element (DOption [reference "A"]); make_element (DOption [reference "object"])])), w).
Proof. eexists. vm_compute. reflexivity. Qed.

Print Assumptions C54_number.
Print Assumptions C54_boolean.
Print Assumptions C54_string.
Print Assumptions C55_sane.
Print Assumptions C55_text.
Print Assumptions C55_expansion.
Print Assumptions C56_member.
Print Assumptions C56_structure.
Print Assumptions C56_last_per_key.
Print Assumptions C57_value.
Print Assumptions C57_property.
Print Assumptions C57_structure.
Print Assumptions C57_kind_settled.
Print Assumptions C57_description_refuted.
Print Assumptions C58_member.
Print Assumptions C58_structure.
Print Assumptions C59_member.
Print Assumptions C59_structure.
Print Assumptions C60_one_of.
Print Assumptions C60_mixin.
Print Assumptions C60_group.
Print Assumptions C61_total.
Print Assumptions C61_values_refuted.
Print Assumptions C61_enumeration_refuted.
