(** Properties C14, C15: serialization of API elements (packages/drafter/src/refract/SerializeSo.cc). *)
From Verif Require Import Base Utf8Spec SoValue SoValueSpec JsonIo JsonSpec JsonIoProofs YamlIo YamlSpec YamlIoProofs
  Element ElementSpec ElementProofs SerializeSo SerializeSpec SerializeProofs DenoteProofs Prop_Element Prop_Json Prop_Yaml.
Local Open Scope string_scope.

(** C14: not asking for source maps is the same as asking for them on the element stripped of
    its source maps (those in the attributes of annotations are kept). *)
Theorem C14_source_maps_filtered : forall e, render_so e false = render_so (strip e) true.
Proof. exact strip_render. Qed.

(** C14: and stripping is idempotent and does nothing to an element without source maps outside
    annotations. *)
Theorem C14_strip_only_maps : forall e,
  (forall x, sub x e -> ~ In "sourceMap" (map fst (emeta x)) /\ ~ In "sourceMap" (map fst (eattrs x))) ->
  strip e = e /\ render_so e false = render_so e true.
Proof.
  intros e H. assert (S : strip e = e).
  { induction e as [e IH] using element_ind'.
    assert (C : forall c, In c (children e) -> strip c = c).
    { intros c Hc. apply IH; [exact Hc|]. intros x Hx. apply H. now apply sub_step with c. }
    destruct (H e (sub_refl e)) as [A B]. destruct e as [n m a h d]. cbn [strip]. cbn [emeta eattrs] in A, B.
    assert (D : forall l : info, ~ In "sourceMap" (map fst l) -> drop_maps l = l).
    { intros l Hl. unfold drop_maps. apply InfoProofs.filter_id. intros [k x] Hx. cbn.
      destruct (String.eqb_spec k "sourceMap") as [->|]; [|reflexivity].
      exfalso. apply Hl. now apply (in_map fst) in Hx. }
    rewrite (map_fst_snd_id strip m), (map_fst_snd_id strip a), (dsd_map_id _ strip d).
    - rewrite (D m A), (D a B). now destruct (String.eqb n "annotation").
    - intros x Hx. apply C. now apply in_data_child.
    - intros k x Hx. apply C. now apply in_attr_child with k.
    - intros k x Hx. apply C. now apply in_meta_child with k. }
  split; [exact S|]. unfold render_so. now rewrite strip_render, S.
Qed.

Example C14_nonvacuous :
  let sm := make_element (DArray []) in
  let ann := Elem "annotation" [("sourceMap", sm)] [("sourceMap", sm); ("code", make_element (DNumber "2"))] true (DString "x") in
  let e := Elem "parseResult" [] [("sourceMap", sm)] true (DArray [ann]) in
  strip e <> e /\ render_so e false <> render_so e true /\
  strip e = Elem "parseResult" [] [] true (DArray [Elem "annotation" [] (eattrs ann) true (DString "x")]).
Proof. cbn. repeat split; discriminate. Qed.

(** C15: serialization of an element without null mandatory pointers is defined and follows the
    API Elements layout at every level: element, meta, attributes, content, in this order; meta
    and attributes are present iff an entry survives the source map filter, content iff the
    element holds a value. *)
Theorem C15_layout : forall e sm, no_null e ->
  exists v, render_so e sm = Some v /\ layout v /\
    (let shown k := (sm || negb (String.eqb k "sourceMap"))%bool in
     let shown_attr k := (sm || String.eqb (ename e) "annotation" || negb (String.eqb k "sourceMap"))%bool in
     member_names v =
       (["element"] ++ (if existsb shown (map fst (emeta e)) then ["meta"] else [])
                    ++ (if existsb shown_attr (map fst (eattrs e)) then ["attributes"] else [])
                    ++ (if ehas e then ["content"] else []))%list) /\
    exists ms, v = VObject (("element", VString (ename e)) :: ms).
Proof.
  intros e sm N. destruct (serialize_rendered e N sm) as (v & E & R). exists v. split; [exact E|].
  split; [exact (rendered_layout e N sm v E)|]. exact (rendered_names sm e v R).
Qed.

(** C15: if no meta or attributes container holds a name twice, no object of the output does. *)
Theorem C15_unique_members : forall e sm v, no_null e -> keys_unique e -> render_so e sm = Some v ->
  unique_keys v.
Proof.
  intros e sm v N U E.
  apply (traverse unique_keys (fun _ => True) (fun _ => True) (fun _ => True)) with (e := e) (sm := sm); auto; try exact I.
  - exact unique_keys_arr.
  - intros l ND H. apply unique_keys_obj; [exact ND|]. intros k w Hw. now apply (H k).
  - intros x Hx. destruct (U x Hx). repeat split; auto; apply Forall_forall; auto.
Qed.

(** C15, exactly: rendering computes the API Elements meaning of the element, and is undefined
    only when there is none (a null mandatory pointer) *)
Theorem C15_denotation : forall e sm v, render_so e sm = Some v <-> denotes sm e v.
Proof. exact render_denotes. Qed.

Example C15_denotation_nonvacuous : exists v,
  denotes false (Elem "member" [("sourceMap", make_element DNull); ("title", make_element (DString "t"))] [] true
     (DMember (Some (make_element (DString "k"))) (Some (make_element (DArray [make_element (DBoolean true); make_element (DNumber "1")]))))) v.
Proof. eexists. apply C15_denotation. vm_compute. reflexivity. Qed.

(** C15, end to end: the JSON text of an element whose number literals are JSON numbers reads
    back as its API Elements value; so does the YAML text when the strings are UTF-8 and no key
    is a bare keyword. *)
Theorem C15_text_reads_back : forall e sm, no_null e -> keys_unique e ->
  (forall x, sub x e -> Forall (fun s => json_number s = true) (own_numbers x)) ->
  exists v, render_so e sm = Some v /\ read_json (serialize_json v) = Some v /\
   ((forall x, sub x e -> Forall key_ok (own_keys x) /\ Forall wf_utf8 (own_strings x)) ->
    exists t, serialize_yaml v = Some t /\ read_yaml t = Some v).
Proof.
  intros e sm N U Hn. destruct (serialize_rendered e N sm) as (v & E & _). exists v. split; [exact E|]. split.
  - apply C01_json_lossless.
    apply (traverse (fun v => numbers_ok v = true) (fun _ => True) (fun _ => True) (fun s => json_number s = true)) with (e := e) (sm := sm); auto.
    + exact numbers_ok_arr.
    + intros l _ H. apply numbers_ok_obj. intros k w Hw. now apply (H k).
    + intros x Hx. destruct (U x Hx). repeat split; auto; apply Forall_forall; auto.
  - intros Hs. apply C08_yaml_lossless.
    apply (traverse yaml_ok key_ok wf_utf8 (fun s => json_number s = true)) with (e := e) (sm := sm); auto; try exact I.
    + exact yaml_ok_arr.
    + intros l _ H. now apply yaml_ok_obj.
    + assert (A : forall s, sforall (fun a => byte a <? 128)%N s = true -> wf_utf8 s) by exact JsonIoProofs.wf_ascii.
      intros k Hk. cbn in Hk. repeat (destruct Hk as [<-|Hk]; [split; [apply A; reflexivity|reflexivity]|]). destruct Hk.
    + intros x Hx. destruct (U x Hx). destruct (Hs x Hx). repeat split; auto.
Qed.

Example C15_nonvacuous : no_null demo /\ keys_unique demo /\
  render_so demo false = Some (VObject
    [("element", VString "Person");
     ("meta", VObject [("id", VObject [("element", VString "string"); ("content", VString "A")]);
                       ("title", VObject [("element", VString "string"); ("content", VString "T")])]);
     ("content", VArray
       [VObject [("element", VString "member");
                 ("meta", VObject [("description", VObject [("element", VString "string"); ("content", VString "the name")])]);
                 ("attributes", VObject [("typeAttributes", VObject [("element", VString "array");
                     ("content", VArray [VObject [("element", VString "string"); ("content", VString "required")]])])]);
                 ("content", VObject [("key", VObject [("element", VString "string"); ("content", VString "name")]);
                                      ("value", VObject [("element", VString "number"); ("content", VNumber "42")])])];
        VObject [("element", VString "select")]])]).
Proof.
  split; [apply no_nullb_sound; reflexivity|]. split; [|reflexivity].
  intros x Hx.
  repeat (inversion Hx as [|? ? ? Hc Hs]; subst; clear Hx;
    [cbn; split; repeat constructor; cbn; intuition discriminate|];
    cbn in Hc; repeat (destruct Hc as [<-|Hc]; [|]); try tauto;
    match goal with H : sub _ _ |- _ => rename H into Hx end).
  all: repeat (inversion Hx as [|? ? ? Hc Hs]; subst; clear Hx;
    [cbn; split; repeat constructor; cbn; intuition discriminate|];
    cbn in Hc; repeat (destruct Hc as [<-|Hc]; [|]); try tauto;
    match goal with H : sub _ _ |- _ => rename H into Hx end).
Qed.

Print Assumptions C14_source_maps_filtered.
Print Assumptions C14_strip_only_maps.
Print Assumptions C15_layout.
Print Assumptions C15_unique_members.
Print Assumptions C15_text_reads_back.
Print Assumptions C15_denotation.
