(** C55: every element made by the conversion is sane *)
From Verif Require Import Base Element ElementSpec ElementProofs InfoProofs Extend Registry Expand ElementUtils SourceMap SourceMapProofs
  DecProofs JsonSpec SerializeSpec TypeTables StringUtility Mson MsonSpec MsonProofs.

Definition sane_info (l : info) : Prop := NoDup (map fst l) /\ Forall (fun kv => sane (snd kv)) l.
Lemma sane_elem : forall n m a h d, sane (Elem n m a h d) <->
  sane_piece (Elem n m a h d) /\ Forall (fun kv => sane (snd kv)) m /\ Forall (fun kv => sane (snd kv)) a /\ Forall sane (dsd_children d).
Proof.
  intros n m a h d. set (e := Elem n m a h d). split.
  - intros S. assert (C : forall c, In c (children e) -> sane c) by (intros c Hc x Hx; apply S; now apply sub_step with c).
    split; [apply S; constructor|]. repeat apply conj; apply Forall_forall.
    + intros [k v] H. apply C. now apply in_meta_child with k.
    + intros [k v] H. apply C. now apply in_attr_child with k.
    + intros x H. apply C. now apply in_data_child.
  - intros (P & Hm & Ha & Hd) x Hx. inversion Hx as [|? c ? Hc Hs]; subst; [exact P|].
    unfold children in Hc. cbn [emeta eattrs edata] in Hc. rewrite !in_app_iff, !in_map_iff in Hc.
    destruct Hc as [([k v] & <- & H)|[([k v] & <- & H)|H]].
    + rewrite Forall_forall in Hm. now apply (Hm _ H).
    + rewrite Forall_forall in Ha. now apply (Ha _ H).
    + rewrite Forall_forall in Hd. now apply (Hd _ H).
Qed.
Lemma iset_all : forall (P : element -> Prop) (l : info) k v, P v -> Forall (fun kv => P (snd kv)) l -> Forall (fun kv => P (snd kv)) (iset l k v).
Proof.
  intros P l k v Hv F. induction F as [|[k' v'] l Hx F IH]; cbn; [now repeat constructor|]. destruct (String.eqb k' k); constructor; auto.
Qed.
Lemma iset_nodup : forall A (l : list (string * A)) k v, NoDup (map fst l) -> NoDup (map fst (iset l k v)).
Proof.
  intros A l k v N. rewrite iset_keys. destruct (existsb (String.eqb k) (map fst l)) eqn:E; [exact N|].
  apply NoDup_snoc; [exact N|]. intros H. apply existsb_In in H. congruence.
Qed.
Lemma iset_in : forall A (l : list (string * A)) k v k' v', In (k', v') (iset l k v) -> (k' = k /\ v' = v) \/ In (k', v') l.
Proof.
  intros A l k v k' v'. induction l as [|[k0 v0] l IH]; cbn.
  - intros [E|[]]. injection E as <- <-. now left.
  - destruct (String.eqb_spec k0 k) as [->|N]; cbn; intros [E|H]; auto.
    + injection E as <- <-. now left.
    + destruct (IH H); auto.
Qed.
Lemma sane_attr : forall e k v, sane e -> sane v -> attribute_ok (ekind e) k v -> sane (set_attrs e (iset (eattrs e) k v)).
Proof.
  intros [n m a h d] k v S V O. apply sane_elem in S as ((P0 & P1 & P2 & Pm & Pa & P3) & Hm & Ha & Hd). apply sane_elem. cbn [eattrs].
  split; [|split; [exact Hm|split; [now apply iset_all|exact Hd]]].
  split; [exact P0|]. split; [exact P1|]. split; [now apply iset_nodup|]. split; [exact Pm|]. split; [|exact P3].
  cbn [eattrs set_attrs]. intros k' v' H. apply iset_in in H as [[-> ->]|H]; [exact O|now apply Pa].
Qed.
Lemma sane_meta : forall e k v, sane e -> sane v -> meta_ok k v -> sane (set_meta e (iset (emeta e) k v)).
Proof.
  intros [n m a h d] k v S V O. apply sane_elem in S as ((P0 & P1 & P2 & Pm & Pa & P3) & Hm & Ha & Hd). apply sane_elem. cbn [emeta].
  split; [|split; [now apply iset_all|split; [exact Ha|exact Hd]]].
  split; [exact P0|]. split; [now apply iset_nodup|]. split; [exact P2|]. split; [|split; [exact Pa|exact P3]].
  cbn [emeta set_meta]. intros k' v' H. apply iset_in in H as [[-> ->]|H]; [exact O|now apply Pm].
Qed.
Definition free_name (k : kind) : Prop := match k with KMember | KSelect | KRef | KOption => False | _ => True end.
Lemma sane_name : forall e n, n <> ""%string -> free_name (ekind e) -> sane e -> sane (set_name e n).
Proof.
  intros [n m a h d] n' N F S. apply sane_elem in S as ((P0 & P1 & P2 & P3 & P4 & P) & H). apply sane_elem. split; [|exact H].
  split; [split; [exact N|exact (proj2 P0)]|]. split; [exact P1|]. split; [exact P2|]. split; [exact P3|]. split; [exact P4|]. cbn in *. unfold ekind in F. cbn in F. destruct d; try exact P; destruct F.
Qed.
Lemma sane_set : forall e d, sane e -> sane (make_element d) -> dsd_kind d = ekind e -> sane (eset e d).
Proof.
  intros [n m a h d'] d S V K. apply sane_elem in S as ((P0 & P1 & P2 & Pm & Pa & P3) & Hm & Ha & Hd).
  unfold make_element in V. apply sane_elem in V as ((_ & _ & _ & _ & _ & Q3) & Vm & Va & Vd).
  cbn. apply sane_elem. split; [|split; [exact Hm|split; [exact Ha|exact Vd]]].
  split; [split; [exact (proj1 P0)|discriminate]|]. split; [exact P1|split; [exact P2|]]. split; [exact Pm|]. split.
  - cbn [eattrs]. unfold ekind in *. cbn [edata] in *. rewrite K. exact Pa.
  - unfold ekind in K. cbn in *. destruct d, d'; try discriminate; try exact Q3; try (destruct P3 as [P3 _]; destruct Q3 as [_ Q3]; now split).
Qed.
Lemma sane_make : forall d, Forall sane (dsd_children d) -> sane_piece (make_element d) -> sane (make_element d).
Proof. intros d H P. apply sane_elem. split; [exact P|]. now repeat split. Qed.
Lemma piece_make : forall d, match d with
  | DNumber n => json_number n = true | DObject l => NoDup (member_keys l)
  | DMember k v => (exists key, k = Some key /\ ekind key = KString) /\ (exists value, v = Some value)
  | DEnum o => exists value, o = Some value
  | DSelect l => Forall (fun o => ekind o = KOption) l
  | DNull | DHolder _ | DExtend _ => False
  | _ => True end -> sane_piece (make_element d).
Proof.
  intros d H. split; [split; [destruct d; try discriminate; contradiction|discriminate]|]. split; [constructor|split; [constructor|]].
  split; [intros ? ? []|]. split; [intros ? ? []|]. cbn. destruct d; auto.
Qed.
Lemma sane_empty : forall k, match k with KNull | KHolder | KExtend | KMember | KRef | KOption => False | _ => True end -> sane (make_empty k).
Proof.
  intros k H. apply sane_elem. cbn. split; [|split; [constructor|split; [constructor|]]].
  - split; [split; [now destruct k|intros _; now destruct k]|]. split; [constructor|split; [constructor|]]. split; [intros ? ? []|]. split; [intros ? ? []|].
    destruct k; cbn in *; try exact I; try contradiction; try reflexivity; try (constructor; fail); try discriminate; split; [reflexivity|constructor].
  - destruct k; cbn; constructor.
Qed.
Lemma sane_str : forall s, sane (str_elem s).
Proof. intros s. apply sane_make; [constructor|]. now apply piece_make. Qed.
Lemma sane_array : forall l, Forall sane l -> sane (make_element (DArray l)).
Proof. intros l H. apply sane_make; [exact H|]. now apply piece_make. Qed.
Lemma sane_map : forall p, sane (SourceMapToRefract p).
Proof.
  intros p. apply sane_array. constructor; [|constructor]. apply sane_name; [discriminate|exact I|]. apply sane_array,  Forall_map, Forall_forall. intros x _.
  apply sane_array. constructor; [|constructor; [|constructor]]; (apply sane_make; [constructor|apply piece_make, dec_json_number]).
Qed.
Lemma map_ok : forall k p, attribute_ok k "sourceMap" (SourceMapToRefract p).
Proof.
  intros k p. unfold attribute_ok. do 4 right. left. split; [reflexivity|]. split; [reflexivity|]. eexists. split; [reflexivity|].
  constructor; [|constructor]. split; [reflexivity|]. split; [reflexivity|]. eexists. split; [reflexivity|].
  apply Forall_map, Forall_forall. intros x _. split; [reflexivity|]. eexists. split; [reflexivity|]. now repeat constructor.
Qed.
Lemma sane_attach : forall e p, sane e -> sane (attach e p).
Proof. intros e [|x p] S; [exact S|]. apply sane_attr; [exact S|apply sane_map|apply map_ok]. Qed.
Lemma sane_literal : forall k s, sane (make_element (snd (literal_to k s))).
Proof.
  intros k s. assert (T : forall s, sane (make_element (DString s))) by exact sane_str.
  assert (B : forall b, sane (make_element (DBoolean b))) by (intros b; apply sane_make; [constructor|now apply piece_make]).
  destruct k; cbn; auto.
  - destruct (literal_number s) as [n|] eqn:E; cbn; (apply sane_make; [constructor|apply piece_make]); [|reflexivity].
    now apply literal_number_spec in E.
  - destruct (literal_boolean s); cbn; auto.
Qed.
Lemma literal_kind : forall k s, is_primitive k = true -> dsd_kind (snd (literal_to k s)) = k.
Proof. intros [] s; cbn; try discriminate; intros _; [reflexivity| |]; [destruct (literal_number s)|destruct (literal_boolean s)]; reflexivity. Qed.
Lemma empty_kind : forall k, ekind (make_empty k) = k.
Proof. now intros []. Qed.
Lemma samples_ok : forall k l, Forall (fun s => ekind s = k) l -> attribute_ok k "samples" (make_element (DArray l)).
Proof. intros k l F. unfold attribute_ok. right. left. split; [reflexivity|]. now exists l. Qed.
Lemma sane_create : forall b s m, sane (create b s m).
Proof.
  intros b s m. unfold create. assert (L := fun k => sane_literal k s). assert (LK := fun k => literal_kind k s).
  assert (E : forall k, match k with KNull | KHolder | KExtend | KMember | KRef | KOption => False | _ => True end -> sane (make_empty k)) by exact sane_empty.
  destruct (is_primitive (kind_of b)) eqn:P.
  - unfold create_primitive. destruct (String.eqb_spec s "") as [->|N]; [destruct b; now apply E|].
    destruct m.
    + specialize (L (kind_of b)). destruct (literal_to (kind_of b) s) as [[|] v]; [exact L|destruct b; now apply E].
    + apply (sane_attr (make_empty (kind_of b))); [destruct b; now apply E| |];
        specialize (L (kind_of b)); specialize (LK (kind_of b) P); destruct (literal_to (kind_of b) s) as [[|] v];
        [apply sane_array; constructor; [exact L|constructor]|now apply E| |].
      * rewrite empty_kind. apply samples_ok. constructor; [exact LK|constructor].
      * right. left. split; [reflexivity|]. exists []. split; [reflexivity|constructor].
    + apply sane_name; [exact N|now destruct b|]. destruct b; now apply E.
  - unfold create_complex. destruct m; [|apply sane_name; [discriminate|exact I|apply sane_str]|];
      (destruct (String.eqb_spec s "") as [->|N]; [|apply sane_name; [exact N|now destruct b|]]); destruct b; now apply E.
Qed.
Lemma sane_text_element : forall k i, is_primitive k = true -> sane (text_element k i) /\ ekind (text_element k i) = k.
Proof.
  intros k i P. unfold text_element. assert (L := sane_literal k (fst i)). assert (K := literal_kind k (fst i) P).
  destruct (literal_to k (fst i)) as [[|] v]; [now split|]. split; [|apply empty_kind].
  apply sane_empty. now destruct k.
Qed.

(** objects: push_back keeps the keys unique *)
Lemma push_back_nodup : forall l x, NoDup (member_keys l) -> NoDup (member_keys (obj_push_back l x)).
Proof.
  intros l x N. unfold obj_push_back. destruct l as [|y l]; [cbn; destruct (string_key x); repeat constructor; easy|].
  set (L := y :: l) in *. destruct (string_key x) as [s|] eqn:K; rewrite member_keys_app; cbn; rewrite K; cbn.
  - destruct (remove_key s L N) as (N' & A). now apply NoDup_snoc.
  - now rewrite app_nil_r.
Qed.
Lemma push_all_nodup : forall l acc, NoDup (member_keys acc) -> NoDup (member_keys (fold_left obj_push_back l acc)).
Proof. induction l as [|x l IH]; intros acc N; cbn; [exact N|]. now apply IH, push_back_nodup. Qed.
Lemma sane_content : forall k l, Forall sane l -> sane (make_element (content_of k l)).
Proof.
  intros k l F. unfold content_of. destruct k; try now apply sane_array.
  apply sane_make; [|apply piece_make; apply push_all_nodup; constructor].
  cbn. apply Forall_forall. intros x Hx. rewrite Forall_forall in F. apply F.
  assert (T : In x [] \/ In x l); [|destruct T as [[]|T]; exact T]. revert Hx. generalize (@nil element). clear.
  induction l as [|y l IH]; intros acc H; cbn in H; [now left|]. apply IH in H as [H|H]; [|now right; right].
  assert (T : In x acc \/ x = y); [|destruct T as [T| ->]; [now left|right; now left]]. revert H. unfold obj_push_back.
  destruct acc as [|z acc]; [intros [<-|[]]; now right|]. destruct (string_key y) as [s|]; rewrite in_app_iff; intros [H|[<-|[]]]; auto.
  left. revert H. generalize (z :: acc). clear. intros acc. induction acc as [|z acc IH]; cbn; [easy|]. destruct (has_key s z); [now right|].
  intros [<-|H]; [now left|right; auto].
Qed.

Lemma content_kind : forall k l, k = KArray \/ k = KObject -> dsd_kind (content_of k l) = k.
Proof. intros k l [->| ->]; reflexivity. Qed.

(** * Fixed literals *)
Lemma sane_ifind : forall e k v, sane e -> ifind (eattrs e) k = Some v -> sane v /\ attribute_ok (ekind e) k v.
Proof.
  intros [n m a h d] k v S H. apply sane_elem in S as ((_ & _ & _ & _ & Pa & _) & _ & Ha & _). cbn [eattrs] in H. apply ifind_In in H.
  rewrite Forall_forall in Ha. split; [exact (Ha _ H)|exact (Pa _ _ H)].
Qed.
Lemma type_attributes_ok : forall k v, attribute_ok k "typeAttributes" v -> entries_of v (text_in type_attribute_names).
Proof. intros k v [[_ H]|[[H _]|[[H _]|[[H _]|[[H _]|[[H _]|[H _]]]]]]]; [exact H|discriminate..]. Qed.
Lemma ok_type_attributes : forall k v, entries_of v (text_in type_attribute_names) -> attribute_ok k "typeAttributes" v.
Proof. intros k v H. now left. Qed.
Lemma text_in_str : forall s l, In s l -> text_in l (str_elem s).
Proof. intros s l H. split; [reflexivity|]. now exists s. Qed.
Lemma any_string_ok : forall s l, Forall (text_in type_attribute_names) l -> exists b, any_string s l = Some b.
Proof.
  intros s l F. induction F as [|x l (Hh & t & Hd & _) F (b & IH)]; [now exists false|]. cbn. rewrite Hd, Hh.
  destruct (String.eqb t s); [now exists true|now exists b].
Qed.
Lemma has_type_attribute_ok : forall e s, sane e -> exists b, has_type_attribute e s = Some b.
Proof.
  intros e s S. unfold has_type_attribute. destruct (ifind (eattrs e) "typeAttributes") as [v|] eqn:E; [|now exists false].
  apply sane_ifind in E as [_ O]; [|exact S]. apply type_attributes_ok in O as (Hh & l & Hd & F).
  destruct v as [n m a h d]. cbn in Hh, Hd. subst. now apply any_string_ok.
Qed.
Lemma is_literal_ok : forall e, sane e -> exists b, is_literal e = Some b.
Proof.
  intros e S. unfold is_literal. destruct (has_type_attribute_ok e "fixed" S) as [b E]. rewrite E.
  destruct (ekind e); try (now exists b); try (now exists false); destruct (ehas e); try (now exists true); now exists b.
Qed.
Lemma sane_fixed_entries : forall e n m a l, sane e -> sane (Elem n m a true (DArray l)) -> Forall (text_in type_attribute_names) l ->
  sane (set_attrs e (iset (eattrs e) "typeAttributes" (Elem n m a true (DArray (l ++ [str_elem "fixed"]))))).
Proof.
  intros e n m a l S V F. apply sane_attr; [exact S| |].
  - apply sane_elem in V as ((P0 & P1 & P2 & Pm & Pa & P3) & Hm & Ha & Hd). apply sane_elem.
    split; [now repeat (split; [assumption|])|]. split; [exact Hm|]. split; [exact Ha|]. cbn. apply Forall_app. split; [exact Hd|].
    constructor; [apply sane_str|constructor].
  - apply ok_type_attributes. split; [reflexivity|]. eexists. split; [reflexivity|]. apply Forall_app. split; [exact F|].
    constructor; [apply text_in_str; cbn; tauto|constructor].
Qed.
Lemma sane_fixed_new : forall e, sane e -> sane (set_attrs e (iset (eattrs e) "typeAttributes" (make_element (DArray [str_elem "fixed"])))).
Proof.
  intros e S. apply (sane_fixed_entries e "array" [] [] [] S); [|constructor]. apply sane_array. constructor.
Qed.
Lemma set_fixed_ok : forall e, sane e -> exists e', set_fixed e = Some e' /\ sane e' /\ ekind e' = ekind e.
Proof.
  intros e S. unfold set_fixed. destruct (ifind (eattrs e) "typeAttributes") as [v|] eqn:E.
  - apply sane_ifind in E as [V O]; [|exact S]. apply type_attributes_ok in O as (Hh & l & Hd & F).
    destruct v as [n m a h d]. cbn in Hh, Hd. subst. destruct (existsb _ l); [now exists e|].
    eexists. split; [reflexivity|]. split; [now apply sane_fixed_entries|now destruct e].
  - eexists. split; [reflexivity|]. split; [now apply sane_fixed_new|now destruct e].
Qed.
Lemma append_fixed_ok : forall e, sane e -> exists e', append_fixed e = Some e' /\ sane e' /\ ekind e' = ekind e.
Proof.
  intros e S. unfold append_fixed. destruct (ifind (eattrs e) "typeAttributes") as [v|] eqn:E.
  - apply sane_ifind in E as [V O]; [|exact S]. apply type_attributes_ok in O as (Hh & l & Hd & F).
    destruct v as [n m a h d]. cbn in Hh, Hd. subst. destruct (any_string_ok "fixed" l F) as [[|] ->]; [now exists e|].
    eexists. split; [reflexivity|]. split; [now apply sane_fixed_entries|now destruct e].
  - eexists. split; [reflexivity|]. split; [now apply sane_fixed_new|now destruct e].
Qed.
Lemma fix_literal_ok : forall e, sane e -> exists e', fix_literal e = ret e' /\ sane e' /\ ekind e' = ekind e.
Proof.
  intros e S. unfold fix_literal. destruct (is_literal_ok e S) as [[|] ->]; [|now exists e].
  destruct (set_fixed_ok e S) as (e' & E & S'). exists e'. cbn. now rewrite E.
Qed.
Lemma fix_entry_ok : forall e, sane e -> exists e', fix_entry e = ret e' /\ sane e' /\ ekind e' = ekind e.
Proof.
  intros e S. unfold fix_entry. destruct (is_literal_ok e S) as [[|] ->]; [|now exists e].
  destruct (append_fixed_ok e S) as (e' & E & S'). exists e'. cbn. now rewrite E.
Qed.
Lemma mapR_sane : forall f l, (forall e, sane e -> exists e', f e = ret e' /\ sane e' /\ ekind e' = ekind e) -> Forall sane l ->
  exists l', mapR f l = ret l' /\ Forall sane l'.
Proof.
  intros f l Hf F. induction F as [|x l Hx F (l' & E & F')]; [now exists []|]. cbn. destruct (Hf _ Hx) as (y & Ey & Sy & _).
  exists (y :: l'). rewrite Ey, E. split; [reflexivity|now constructor].
Qed.

(** * Data gathered from sections *)
Definition sane_data (d : data (list element)) : Prop :=
  let ok l := Forall (fun i : list element * places => Forall sane (fst i)) l in
  ok (inlines d) /\ ok (values d) /\ ok (defaults d) /\ ok (samples d) /\ ok (hints d).
Lemma no_data_sane : sane_data no_data.
Proof. repeat split; constructor. Qed.
Lemma snoc_all : forall (l : list (list element * places)) x, Forall (fun i => Forall sane (fst i)) l -> Forall sane (fst x) -> Forall (fun i => Forall sane (fst i)) (l ++ [x]).
Proof. intros l x F H. apply Forall_app. now split; [|constructor]. Qed.
Lemma merge_sane : forall l, Forall (fun i : list element * places => Forall sane (fst i)) l -> Forall sane (fst (merge_infos l)).
Proof.
  intros l F. unfold merge_infos. assert (H : Forall sane (fst (@nil element, @nil range))) by constructor. revert H. generalize (@nil element, @nil range).
  induction F as [|x l Hx F IH]; intros acc H; cbn; [exact H|]. apply IH. cbn. now apply Forall_app.
Qed.
Definition conv_sane (c : conv) : Prop := forall d o w, c d = ret (Some o, w) -> sane o.
Definition section_sane (s : msection conv) : Prop := Forall conv_sane (sc_elements s).
Lemma sections_sane : forall d l es w, Forall conv_sane l -> sections_to_apie d l = ret (es, w) -> Forall sane es.
Proof.
  intros d l es w F H. unfold sections_to_apie in H. minv H. minv H. subst. apply mapM_ret in H0 as (rs & R & -> & _).
  induction R as [|c [o w] l rs E R IH]; [constructor|]. inversion F as [|? ? Fc Fl]; subst. cbn. apply Forall_app. split; [|now apply IH].
  destruct o as [e|]; [|constructor]. constructor; [|constructor]. now apply (Fc d e w).
Qed.
Lemma fetch_elements_sane : forall d s es w, section_sane s -> fetch_elements d s = ret (es, w) -> Forall sane es.
Proof. intros d s es w S H. now apply (sections_sane d _ _ w S). Qed.
Lemma fetch_enum_sane : forall d s es w, section_sane s -> fetch_enum d s = ret (es, w) -> Forall sane es.
Proof.
  intros d s es w S H. unfold fetch_enum in H. minv H. minv H. subst. apply sections_sane in H0; [|exact S].
  destruct (mapR_sane fix_literal _ fix_literal_ok H0) as (l' & E & F). rewrite E in H. injection H as <-. exact F.
Qed.
Lemma extract_section_sane : forall primitive fetch d s d' w,
  (forall es w, fetch s = ret (es, w) -> Forall sane es) -> sane_data d ->
  extract_section primitive fetch d s = ret (d', w) -> sane_data d'.
Proof.
  intros primitive fetch d s d' w Hf (S1 & S2 & S3 & S4 & S5) H. unfold extract_section in H.
  destruct (sc_class s); [discriminate| | | |].
  - minv H. subst. now repeat split.
  - destruct primitive; [minv H; subst; now repeat split|]. minv H. minv H. subst. apply Hf in H0. repeat split; try assumption. now apply snoc_all.
  - destruct (has_content s); [|minv H; subst; now repeat split]. minv H. minv H. subst. apply Hf in H0. repeat split; try assumption. now apply snoc_all.
  - destruct (has_content s); [|minv H; subst; now repeat split]. minv H. minv H. subst. apply Hf in H0. repeat split; try assumption. now apply snoc_all.
Qed.
Lemma extract_sections_sane : forall primitive fetch l d d' w,
  Forall section_sane l -> (forall s es w, section_sane s -> fetch s = ret (es, w) -> Forall sane es) -> sane_data d ->
  foldW (extract_section primitive fetch) d l = ret (d', w) -> sane_data d'.
Proof.
  intros primitive fetch l d d' w F Hf S H. apply (foldW_ind _ _ _ sane_data _ _ _ _ H S). intros a x a' w' Hx Sa E.
  apply (extract_section_sane primitive fetch a x a' w'); [|exact Sa|exact E]. intros es w2. apply Hf. rewrite Forall_forall in F. now apply F.
Qed.
Section WithRegistry.
  Context (fuel : nat) (r : registry).
  Lemma nested_type_sane : forall p n es w, nested_type fuel r p n = ret (es, w) -> Forall sane es.
  Proof.
    intros p n es w H. unfold nested_type in H. assert (C : forall b m s, Forall sane [create b s m]) by (intros; constructor; [apply sane_create|constructor]).
    destruct (n_base n); try (minv H; subst; apply C). destruct (String.eqb _ ""); [minv H; subst; apply C|].
    minv H. destruct a, (s_variable (n_symbol n)); try (minv H; subst; apply C). minv H. minv H. subst. constructor.
  Qed.
  Lemma extract_definition_sane : forall t p d d' w, sane_data d -> extract_definition fuel r t p d = ret (d', w) -> sane_data d'.
  Proof.
    intros t p d d' w (S1 & S2 & S3 & S4 & S5) H. unfold extract_definition in H. minv H. minv H. subst. apply mapM_ret in H0 as (rs & R & -> & _).
    repeat split; try assumption. apply snoc_all; [exact S5|]. cbn. induction R as [|n [es w] l rs E R IH]; [constructor|]. cbn. apply Forall_app. split; [|exact IH].
    now apply nested_type_sane in E.
  Qed.
  Lemma value_elements_sane : forall m es w, value_elements m = ret (es, w) -> Forall sane es.
  Proof.
    intros m es w H. unfold value_elements in H. minv H. subst. apply Forall_map, Forall_forall. intros x _. apply sane_create.
  Qed.
  Lemma value_enum_sane : forall m es w, value_enum m = ret (es, w) -> Forall sane es.
  Proof.
    intros m es w H. unfold value_enum in H. minv H. apply mapR_ret in H. induction H as [|x e l es Ex R IH]; [constructor|]. constructor; [|exact IH].
    destruct (fix_literal_ok _ (sane_create (nested_of m) (v_literal x) eValue)) as (e' & E' & S & _). rewrite E' in Ex. injection Ex as <-. exact S.
  Qed.
  Lemma extract_value_sane : forall vc fetch definition m d w,
    (forall es w, fetch m = ret (es, w) -> Forall sane es) -> (forall d d' w, sane_data d -> definition d = ret (d', w) -> sane_data d') ->
    extract_value vc fetch definition m = ret (d, w) -> sane_data d.
  Proof.
    intros vc fetch definition m d w Hf Hd H. unfold extract_value in H.
    assert (T : forall d0 d w, sane_data d0 ->
      (let d1 := if String.eqb (m_description m) "" then d0 else add_description d0 (m_description m, m_description_map m) in
       match vd_values (m_value m), t_nested (td_spec (vd_type (m_value m))) with
       | [], _ | _, _ :: _ :: _ => definition d1 | _, _ => mret d1 end) = ret (d, w) -> sane_data d).
    { intros d0 d2 w' S0 E. cbn zeta in E. set (d1 := if String.eqb (m_description m) "" then d0 else add_description d0 (m_description m, m_description_map m)) in *.
      assert (S1 : sane_data d1) by (unfold d1; destruct (String.eqb _ ""); [exact S0|now destruct S0 as (? & ? & ? & ? & ?); repeat split]).
      destruct (vd_values (m_value m)); [now apply (Hd d1 _ w')|]. destruct (t_nested _) as [|? [|? ?]]; [minv E; now subst|minv E; now subst|now apply (Hd d1 _ w')]. }
    destruct (td_base (vd_type (m_value m))); try (minv H; subst; apply no_data_sane);
    (minv H; apply T in H; [exact H|]; clear H T;
     destruct (vd_values (m_value m)); [minv H0; minv H0; minv H0; subst; apply no_data_sane|];
     destruct (N.testbit _ DefaultTA); [|destruct (_ || _)%bool]; minv H0; minv H0; subst; apply Hf in H; repeat split; try constructor; try assumption; constructor).
  Qed.

  (** * The finished elements *)
  Definition is_of (k : kind) (e : element) : Prop := sane e /\ ekind e = k.
  Lemma attrs_of : forall k e n v, is_of k e -> sane v -> attribute_ok k n v -> is_of k (set_attrs e (iset (eattrs e) n v)).
  Proof. intros k e n v [S K] V O. split; [apply sane_attr; [exact S|exact V|now rewrite K]|now destruct e]. Qed.
  Lemma attach_of : forall k e p, is_of k e -> is_of k (attach e p).
  Proof. intros k e p [S K]. split; [now apply sane_attach|]. now destruct e, p. Qed.
  Lemma set_of : forall k e d, is_of k e -> sane (make_element d) -> dsd_kind d = k -> is_of k (eset e d).
  Proof. intros k e d [S K] V D. split; [apply sane_set; [exact S|exact V|congruence]|now destruct e]. Qed.
  Lemma empty_of : forall k, match k with KNull | KHolder | KExtend | KMember | KRef | KOption => False | _ => True end -> is_of k (make_empty k).
  Proof. intros k H. split; [now apply sane_empty|apply empty_kind]. Qed.
  Lemma element_type_of : forall k e t, free_name k -> is_of k e -> is_of k (set_element_type e t).
  Proof.
    intros k e t F [S K]. unfold set_element_type. destruct (String.eqb_spec (s_literal (n_symbol (t_name (td_spec t)))) ""); [now split|].
    split; [apply sane_name; [assumption|now rewrite K|exact S]|now destruct e].
  Qed.
  Lemma samples_of : forall k e l, is_of k e -> Forall sane l -> Forall (fun s => ekind s = k) l -> is_of k (set_samples l e).
  Proof. intros k e [|x l] H S F; [exact H|]. apply attrs_of; [exact H|now apply sane_array|now apply samples_ok]. Qed.
  Lemma default_of : forall k e v, is_of k e -> is_of k v -> is_of k (set_attrs e (iset (eattrs e) "default" v)).
  Proof. intros k e v H [S K]. apply attrs_of; [exact H|exact S|]. right. right. left. now split. Qed.
  Lemma description_of : forall k e l, is_of k e -> is_of k (set_description e (description_to_refract l)).
  Proof.
    intros k e l [S K]. destruct l as [|x l]; [now split|]. unfold description_to_refract. destruct (join_descriptions (x :: l)) as [t p].
    destruct (String.eqb_spec t "") as [|N]; [now split|]. cbn [set_description]. split; [|now destruct e].
    apply sane_meta; [exact S|apply sane_attach, sane_str|]. split; [now right|]. destruct p; (split; [reflexivity|]); now exists t.
  Qed.
  Lemma type_attributes_of : forall k e ta, is_of k e -> is_of k (set_type_attributes e ta).
  Proof.
    intros k e ta H. unfold set_type_attributes, attributes_to_refract. destruct (attribute_names ta) as [|x l] eqn:E; [exact H|].
    apply attrs_of; [exact H|apply sane_array; apply Forall_map, Forall_forall; intros; apply sane_str|].
    apply ok_type_attributes. split; [reflexivity|]. eexists. split; [reflexivity|]. apply Forall_map, Forall_forall. intros s Hs. apply text_in_str.
    rewrite <- E in Hs. unfold attribute_names in Hs. apply in_map_iff in Hs as ([b n] & <- & Hs). apply filter_In in Hs as [Hs _].
    cbn in Hs. cbn [snd]. unfold type_attribute_names. destruct Hs as [Hs|[Hs|[Hs|[Hs|[Hs|[]]]]]]; injection Hs as _ <-; cbn; tauto.
  Qed.
  Lemma save_text_of : forall k d e, is_primitive k = true -> is_of k e -> is_of k (save_text k d e).
  Proof.
    intros k d e P H. unfold save_text.
    assert (G : forall v p, is_of k (attach (eset e (snd (literal_to k v))) p)).
    { intros v p. apply attach_of, set_of; [exact H|apply sane_literal|now apply literal_kind]. }
    destruct (inlines d) as [|[v p] l]; [destruct (values d); [exact H|apply (G ""%string [])]|apply G].
  Qed.
  Lemma finish_text_of : forall k d e e' w, is_primitive k = true -> is_of k e -> finish_text k d e = ret (e', w) -> is_of k e'.
  Proof.
    intros k d e e' w P H E. unfold finish_text in E. minv E. minv E. subst.
    assert (G : is_of k (set_samples (map (text_element k) (samples d)) (save_text k d e))).
    { apply samples_of; [now apply save_text_of| |]; apply Forall_map, Forall_forall; intros i _; now apply sane_text_element. }
    unfold set_last_default. destruct (rev (defaults d)) as [|i l]; [exact G|]. apply default_of; [exact G|]. now apply sane_text_element.
  Qed.
  Lemma save_list_of : forall k d e, k = KArray \/ k = KObject -> sane_data d -> is_of k e -> is_of k (save_list k d e).
  Proof.
    intros k d e K (S1 & S2 & S3 & S4 & S5) H. unfold save_list. apply merge_sane in S1, S2, S5.
    set (l := (fst (merge_infos (hints d)) ++ fst (merge_infos (inlines d)) ++ fst (merge_infos (values d)))%list).
    assert (Hl : Forall sane l) by (unfold l; rewrite !Forall_app; tauto). destruct l as [|x l]; [exact H|]. destruct (eempty e); [|exact H].
    apply set_of; [exact H|now apply sane_content|now apply content_kind].
  Qed.
  Lemma list_element_of : forall k i, k = KArray \/ k = KObject -> Forall sane (fst i) -> is_of k (list_element k i).
  Proof. intros k i K F. split; [now apply sane_content|]. now apply content_kind. Qed.
  Lemma finish_list_of : forall k d e e' w, k = KArray \/ k = KObject -> sane_data d -> is_of k e -> finish_list k d e = ret (e', w) -> is_of k e'.
  Proof.
    intros k d e e' w K S H E. unfold finish_list in E. minv E. subst. assert (S' := S). destruct S' as (S1 & S2 & S3 & S4 & S5).
    rewrite Forall_forall in S3, S4.
    assert (G : is_of k (set_samples (map (list_element k) (samples d)) (save_list k d e))).
    { apply samples_of; [now apply save_list_of| |]; apply Forall_map, Forall_forall; intros i Hi; now apply (list_element_of k i K), S4. }
    unfold set_last_default. destruct (rev (defaults d)) as [|i l] eqn:R; [exact G|]. apply default_of; [exact G|].
    apply list_element_of; [exact K|]. apply S3. apply in_rev. rewrite R. now left.
  Qed.
  Lemma single_sane : forall l x, Forall (fun i : list element * places => Forall sane (fst i)) l -> single l = Some x -> sane x.
  Proof.
    intros l0 x F H. destruct l0 as [|[[|y [|z t]] p] l]; try discriminate. cbn in H. destruct (eempty y); [discriminate|]. injection H as <-. rewrite clone_all_id.
    inversion F as [|? ? Fy _]; subst. now inversion Fy.
  Qed.
  Lemma enum_value_of : forall x, sane x -> is_of KEnum (enum_of x).
  Proof. intros x S. split; [|reflexivity]. apply sane_make; [cbn; constructor; [exact S|constructor]|]. apply piece_make. now exists x. Qed.
  Lemma map_clone : forall l, map clone_all l = l.
  Proof. intros l. induction l as [|x l IH]; [reflexivity|]. cbn. now rewrite clone_all_id, IH. Qed.
  Lemma map_clone_infos : forall l : list (list element * places), map (fun i => (map clone_all (fst i), snd i)) l = l.
  Proof. intros l. induction l as [|[x p] l IH]; [reflexivity|]. cbn. now rewrite map_clone, IH. Qed.
  Lemma filterO_incl : forall p l l', filterO p l = Some l' -> incl l' l.
  Proof.
    intros p l. induction l as [|x l IH]; intros l' H; cbn in H; [injection H as <-; easy|]. destruct (p x) as [b|]; [|discriminate].
    destruct (filterO p l) as [t|]; [|discriminate]. injection H as <-. specialize (IH t eq_refl).
    destruct b; [intros y [<-|Hy]; [now left|right; auto]|intros y Hy; right; auto].
  Qed.
  Lemma add_sane : forall p b l enums es w, Forall sane enums -> Forall sane l -> foldW (add_to_enumerations p b) enums l = ret (es, w) -> Forall sane es.
  Proof.
    intros p b l enums es w S F H. apply (foldW_ind _ _ _ (Forall sane) _ _ _ _ H S). intros a x a' w' Hx Sa E.
    unfold add_to_enumerations in E. minv E. destruct a0; [minv E; minv E; now subst|]. minv E. subst. apply Forall_app. split; [exact Sa|].
    constructor; [|constructor]. rewrite Forall_forall in F. now apply F.
  Qed.
  Lemma save_enum_of : forall d e e' w, sane_data d -> is_of KEnum e -> save_enum d e = ret (e', w) -> is_of KEnum e'.
  Proof.
    intros d e e' w (S1 & S2 & S3 & S4 & S5) H E. unfold save_enum in E. rewrite !map_clone_infos in E.
    set (e0 := match single (inlines d) with Some x => _ | None => _ end) in E.
    assert (H0 : is_of KEnum e0).
    { unfold e0. destruct (single (inlines d)) as [x|] eqn:E1; [|destruct (single (values d)) as [x|] eqn:E2; [|exact H]];
      (apply set_of; [exact H|apply enum_value_of|reflexivity]); [now apply (single_sane (inlines d))|now apply (single_sane (values d))]. }
    clearbody e0. apply merge_sane in S1, S2, S3, S4, S5.
    destruct (merge_infos (inlines d)) as [il ip], (merge_infos (values d)) as [vl vp], (merge_infos (hints d)) as [hl hp],
      (merge_infos (samples d)) as [sl sp], (merge_infos (defaults d)) as [dl dp]. cbn [fst] in *.
    minv E. minv H1. minv H1. assert (A0 : Forall sane a). { apply Forall_forall. intros x Hx. rewrite Forall_forall in S1. apply S1. now apply (filterO_incl _ _ _ H1). }
    minv E. apply add_sane in H2; [|constructor|exact A0]. minv E. apply add_sane in H3; [|assumption..]. minv E. apply add_sane in H4; [|assumption..].
    minv E. apply add_sane in H5; [|assumption..]. minv E. apply add_sane in H6; [|assumption..].
    destruct a4 as [|x l]; [minv E; now subst|]. minv E. minv E. minv H7. subst.
    destruct (mapR_sane fix_entry _ fix_entry_ok H6) as (l' & L & F). rewrite L in H7. injection H7 as <-. rewrite map_clone.
    apply attrs_of; [exact H0|now apply sane_array|]. do 3 right. left. split; [reflexivity|]. split; [reflexivity|]. split; [reflexivity|]. exists l'. split; [reflexivity|].
    now apply Forall_forall.
  Qed.
  Lemma set_enum_default_of : forall l e e' w, Forall (fun i : list element * places => Forall sane (fst i)) l -> is_of KEnum e ->
    set_enum_default l e = ret (e', w) -> is_of KEnum e'.
  Proof.
    intros l e e' w F H E. unfold set_enum_default in E. destruct l as [|[v p] l]; [minv E; now subst|]. minv E. minv E. subst.
    apply default_of; [exact H|]. apply merge_sane in F. rewrite Forall_forall in F.
    destruct (rev (fst (merge_infos ((v, p) :: l)))) as [|x t] eqn:R; [now apply empty_of|]. apply enum_value_of. apply F. apply in_rev. rewrite R. now left.
  Qed.
  Lemma finish_enum_of : forall d e e' w, sane_data d -> is_of KEnum e -> finish_enum d e = ret (e', w) -> is_of KEnum e'.
  Proof.
    intros d e e' w S H E. unfold finish_enum in E. minv E. apply save_enum_of in H0; [|exact S|exact H]. destruct S as (S1 & S2 & S3 & S4 & S5).
    apply set_enum_default_of in E; [exact E|exact S3|]. apply merge_sane in S4. rewrite Forall_forall in S4.
    apply samples_of; [exact H0| |]; apply Forall_map, Forall_forall; intros x Hx; now apply enum_value_of, S4.
  Qed.

  (** * Members *)
  Definition member_sane (m : mmember conv) : Prop := Forall section_sane (m_sections m).
  Lemma start_value_of : forall k m, match k with KNull | KHolder | KExtend | KMember | KRef | KOption | KSelect => False | _ => True end -> is_of k (start_value k m).
  Proof. intros k m H. apply attach_of, element_type_of; [now destruct k|]. apply empty_of. now destruct k. Qed.
  Definition value_kind (k : kind) : Prop := In k [KBoolean; KNumber; KString; KArray; KEnum; KObject].
  Lemma element_from_value_of : forall k m v w, value_kind k -> member_sane m -> element_from_value fuel r k m = ret (v, w) -> is_of k (fst v).
  Proof.
    intros k m v w V S H.
    assert (T : is_primitive k = true -> element_from_value fuel r k m = value_of_text k m) by (destruct k; now cbn).
    assert (K : match k with KNull | KHolder | KExtend | KMember | KRef | KOption | KSelect => False | _ => True end) by (destruct V as [<-|[<-|[<-|[<-|[<-|[<-|[]]]]]]]; exact I).
    assert (C : is_primitive k = true \/ k = KEnum \/ (k = KArray \/ k = KObject)) by (destruct V as [<-|[<-|[<-|[<-|[<-|[<-|[]]]]]]]; tauto).
    destruct C as [P|[->|L]].
    - rewrite (T P) in H. unfold value_of_text in H. minv H. minv H. minv H. minv H. subst. cbn [fst].
      apply finish_text_of in H2; [exact H2|exact P|]. now apply start_value_of.
    - cbn [element_from_value] in H. unfold value_of_enum in H. minv H. minv H. minv H. minv H. subst. cbn [fst].
      apply finish_enum_of in H2; [exact H2| |now apply start_value_of].
      apply extract_sections_sane in H1; [exact H1|exact S|intros; eapply fetch_enum_sane; eassumption|].
      apply extract_value_sane in H0; [exact H0|apply value_enum_sane|apply extract_definition_sane].
    - replace (element_from_value fuel r k m) with (value_of_list fuel r k m) in H by (destruct L as [->| ->]; reflexivity).
      unfold value_of_list in H. minv H. minv H. minv H. minv H. subst. cbn [fst].
      apply finish_list_of in H2; [exact H2|exact L| |now apply start_value_of].
      apply extract_sections_sane in H1; [exact H1|exact S|intros; eapply fetch_elements_sane; eassumption|].
      apply extract_value_sane in H0; [exact H0|apply value_elements_sane|apply extract_definition_sane].
  Qed.
  Lemma property_key_of : forall n key w, property_key fuel r n = ret (key, w) -> is_of KString key.
  Proof.
    intros n key w H. unfold property_key in H. minv H. minv H. subst.
    assert (G : is_of KString a).
    { destruct (value_empty (p_variable n)); [minv H0; subst; now apply empty_of|]. minv H0. minv H0.
      assert (A : is_of KString a1).
      { destruct (def_empty _); [minv H1; subst; now apply empty_of|]. minv H1. destruct a2; [|discriminate]. minv H1. subst. apply element_type_of; [exact I|]. now apply empty_of. }
      minv H0. subst. destruct (vd_values (p_variable n)); [exact A|]. apply set_of; [exact A|apply sane_str|reflexivity]. }
    apply attach_of. destruct (String.eqb (p_literal n) ""); [exact G|]. apply set_of; [exact G|apply sane_str|reflexivity].
  Qed.
  Lemma element_from_property_of : forall k n m o w, value_kind k -> member_sane m -> element_from_property fuel r k n m = ret (Some o, w) -> is_of KMember o.
  Proof.
    intros k n m o w V S H. unfold element_from_property in H. minv H. apply property_key_of in H0. minv H. minv H1. minv H1.
    destruct a0; [|minv H; discriminate]. minv H. apply element_from_value_of in H2; [|exact V|exact S]. minv H. injection H as <-.
    apply description_of, type_attributes_of. destruct H0 as [K1 K2], H2 as [V1 V2].
    assert (G : is_of KMember (make_element (DMember (Some a) (Some (fst a0))))).
    { split; [|reflexivity]. apply sane_make; [cbn; constructor; [assumption|constructor; [assumption|constructor]]|]. apply piece_make. split; [now exists a|now exists (fst a0)]. }
    destruct (value_empty _); [exact G|]. apply (attrs_of KMember _ "variable" (make_element (DBoolean true)) G); [apply sane_make; [constructor|now apply piece_make]|].
    do 5 right. left. now repeat split.
  Qed.
  Lemma element_of_value_of : forall k m o w, value_kind k -> member_sane m -> element_of_value fuel r k m = ret (Some o, w) -> is_of k o.
  Proof.
    intros k m o w V S H. unfold element_of_value in H. minv H. minv H. injection H as <-. apply description_of, type_attributes_of.
    now apply element_from_value_of in H0.
  Qed.
  Lemma kind_of_value : forall b, value_kind (kind_of b).
  Proof. intros []; cbn; tauto. Qed.
  Lemma choose_kind_value : forall name d m, value_kind (choose_kind name d m).
  Proof.
    intros name d m. unfold choose_kind. destruct name; try apply kind_of_value. destruct (1 <? _)%nat; [cbn; tauto|]. destruct (_ || _)%bool; [cbn; tauto|].
    destruct d; try apply kind_of_value. cbn. tauto.
  Qed.
  Lemma member_to_refract_sane : forall d m invoke o w, (forall k o w, value_kind k -> invoke k = ret (Some o, w) -> sane o) ->
    member_to_refract fuel r d m invoke = ret (Some o, w) -> sane o.
  Proof.
    intros d m invoke o w I H. unfold member_to_refract in H. minv H. minv H. apply I in H; [exact H|apply choose_kind_value].
  Qed.
  Lemma mixin_sane : forall t o w, mixin_to_apie t = ret (Some o, w) -> is_of KRef o.
  Proof.
    intros t o w H. unfold mixin_to_apie in H. minv H. minv H. injection H as <-.
    apply (attrs_of KRef (make_element (DRef a))); [split; [apply sane_make; [constructor|now apply piece_make]|reflexivity]|apply sane_str|].
    do 6 right. split; [reflexivity|]. split; [reflexivity|]. apply text_in_str. now left.
  Qed.
  Lemma option_of_sane : forall o, (forall e, o = Some e -> sane e) -> is_of KOption (option_of o) /\ ehas (option_of o) = true.
  Proof.
    intros o H. split; [|reflexivity]. split; [|reflexivity]. apply sane_make; [|now apply piece_make]. destruct o as [e|]; cbn; constructor; auto.
  Qed.

  Section Induction.
    Context (P : melement -> Prop).
    Definition all_sections (l : list (msection melement)) : Prop := Forall (fun s => Forall P (sc_elements s)) l.
    Context (H0 : P MEmpty)
      (H1 : forall n m, all_sections (m_sections m) -> P (MProperty n m))
      (H2 : forall m, all_sections (m_sections m) -> P (MValue m))
      (H3 : forall t, P (MMixin t))
      (H4 : forall l, Forall P l -> P (MOneOf l))
      (H5 : forall l, Forall P l -> P (MGroup l)).
    Fixpoint melement_ind' (e : melement) : P e :=
      let all := fix all (l : list melement) : Forall P l :=
        match l with [] => Forall_nil _ | x :: t => Forall_cons _ (melement_ind' x) (all t) end in
      let secs := fix secs (l : list (msection melement)) : all_sections l :=
        match l with [] => Forall_nil _
                   | Sec c d v es dm vm :: t => Forall_cons (Sec c d v es dm vm) (all es) (secs t) end in
      match e with
      | MEmpty => H0
      | MProperty n (Mem d v s p pd pv) => H1 n (Mem d v s p pd pv) (secs s)
      | MValue (Mem d v s p pd pv) => H2 (Mem d v s p pd pv) (secs s)
      | MMixin t => H3 t
      | MOneOf l => H4 l (all l)
      | MGroup l => H5 l (all l)
      end.
  End Induction.

  Definition converts_sane (e : melement) : Prop :=
    conv_sane (fst (convert fuel r e)) /\ (forall o w, snd (convert fuel r e) = ret (o, w) -> is_of KOption o /\ ehas o = true).
  Lemma member_map_sane : forall (m : mmember melement), all_sections converts_sane (m_sections m) ->
    member_sane (member_map (fun x => fst (convert fuel r x)) m).
  Proof.
    intros m H. unfold member_sane, member_map. cbn [m_sections]. apply Forall_map. unfold all_sections in H. eapply Forall_impl; [|exact H].
    intros s Hs. unfold section_sane, section_map. cbn [sc_elements]. apply Forall_map. eapply Forall_impl; [|exact Hs]. now intros x [Hx _].
  Qed.
  Lemma as_option : forall (c : M (option element)), (forall o w, c = ret (Some o, w) -> sane o) ->
    forall o w, mbind c (fun o => mret (option_of o)) = ret (o, w) -> is_of KOption o /\ ehas o = true.
  Proof.
    intros c Hc o w H. minv H. minv H. subst. apply option_of_sane. intros e ->. now apply (Hc e w0).
  Qed.
  Lemma select_sane : forall l es w, Forall converts_sane l -> mapM (fun x => snd (convert fuel r x)) l = ret (es, w) -> sane (select_of es).
  Proof.
    intros l es w F H. apply mapM_ret in H as (rs & R & -> & _).
    assert (G : Forall (fun e => is_of KOption e /\ ehas e = true) (map fst rs)).
    { induction R as [|x [e w'] l rs E R IH]; [constructor|]. inversion F as [|? ? [_ Fx] Fl]; subst. cbn. constructor; [now apply (Fx e w')|now apply IH]. }
    assert (A : Forall sane (map fst rs)) by (eapply Forall_impl; [|exact G]; now intros e [[? ?] ?]).
    assert (B : Forall (fun e => ekind e = KOption) (map fst rs)) by (eapply Forall_impl; [|exact G]; now intros e [[? ?] ?]).
    destruct (map fst rs) as [|x t]; [now apply sane_empty|]. unfold select_of. apply sane_make; [exact A|now apply piece_make].
  Qed.
  Theorem convert_sane : forall e, converts_sane e.
  Proof.
    apply melement_ind'.
    - split; [intros d o w H|intros o w H]; discriminate.
    - intros n m S. apply member_map_sane in S.
      assert (C : conv_sane (fst (convert fuel r (MProperty n m)))).
      { intros d o w H. cbn [convert fst] in H. apply member_to_refract_sane in H; [exact H|]. intros k o' w' V E.
        now apply element_from_property_of in E as [E _]. }
      split; [exact C|]. cbn [convert snd]. apply as_option. intros o w. apply (C StringTN).
    - intros m S. apply member_map_sane in S.
      assert (C : conv_sane (fst (convert fuel r (MValue m)))).
      { intros d o w H. cbn [convert fst] in H. apply member_to_refract_sane in H; [exact H|]. intros k o' w' V E.
        now apply element_of_value_of in E as [E _]. }
      split; [exact C|]. cbn [convert snd]. apply as_option. intros o w. apply (C StringTN).
    - intros t. assert (C : conv_sane (fst (convert fuel r (MMixin t)))) by (intros d o w H; now apply mixin_sane in H as [H _]).
      split; [exact C|]. cbn [convert snd]. apply as_option. intros o w. apply (C StringTN).
    - intros l F. unfold converts_sane. cbn [convert]. cbv zeta. cbn [fst snd]. split.
      + intros d o w H. cbv beta in H. minv H. minv H0. minv H0. minv H. injection H as <-. subst. now apply (select_sane l a0 w2).
      + intros o w H. minv H. minv H0. minv H0. minv H. subst. apply option_of_sane. intros e E. injection E as <-. now apply (select_sane l a0 w2).
    - intros l F. unfold converts_sane. cbn [convert fst snd]. split; [discriminate|].
      intros o w H. minv H. minv H. subst. split; [|reflexivity]. split; [|reflexivity]. apply sections_sane in H0.
      + apply sane_make; [exact H0|now apply piece_make].
      + apply Forall_map. eapply Forall_impl; [|exact F]. now intros x [Hx _].
  Qed.

  (** * Data structures *)
  Lemma start_structure_of : forall k s, match k with KNull | KHolder | KExtend | KMember | KRef | KOption | KSelect => False | _ => True end -> is_of k (start_structure k s).
  Proof.
    intros k s H. unfold start_structure. apply type_attributes_of, attach_of.
    assert (G : is_of k (set_element_type (make_empty k) (ds_type s))) by (apply element_type_of; [now destruct k|]; apply empty_of; now destruct k). destruct (String.eqb_spec (s_literal (n_symbol (ds_name s))) ""); [exact G|].
    destruct G as [S K]. split; [|now destruct (set_element_type _ _)]. apply sane_meta; [exact S|apply sane_attach, sane_str|].
    split; [now left|]. destruct (append_places _ _); (split; [reflexivity|]); now exists (s_literal (n_symbol (ds_name s))).
  Qed.
  Theorem structure_sane : forall s e w, structure_to_refract fuel r s = ret (Some e, w) -> sane e.
  Proof.
    intros s e w H. unfold structure_to_refract in H. destruct (structure_empty s); [discriminate|].
    minv H. minv H0. minv H. minv H. injection H as <-. rename a0 into e.
    assert (S : Forall section_sane (map (section_map (to_apie fuel r)) (ds_sections s))).
    { apply Forall_map, Forall_forall. intros x _. unfold section_sane. cbn. apply Forall_map, Forall_forall. intros y _. apply convert_sane. }
    assert (V := kind_of_value a).
    assert (B : forall k l, value_kind k -> is_of k (set_description (start_structure k s) (description_to_refract l))).
    { intros k l Hk. apply description_of, start_structure_of. destruct Hk as [<-|[<-|[<-|[<-|[<-|[<-|[]]]]]]]; exact I. }
    assert (D : forall fetch d d' w, (forall s es w, section_sane s -> fetch s = ret (es, w) -> Forall sane es) ->
      forall d0 w0, extract_definition fuel r (ds_type s) (ds_type_map s) no_data = ret (d0, w0) -> d = d0 ->
      foldW (extract_section false fetch) d (map (section_map (to_apie fuel r)) (ds_sections s)) = ret (d', w) -> sane_data d').
    { intros fetch d d' w' Hf d0 w9 E9 -> G. apply extract_sections_sane in G; [exact G|exact S|exact Hf|].
      apply extract_definition_sane in E9; [exact E9|apply no_data_sane]. }
    destruct (kind_of a) eqn:K; try (destruct a; discriminate).
    all: unfold structure_of in H1; minv H1; minv H1.
    1,2,3: apply finish_text_of in H1; [now destruct H1|reflexivity|now apply B].
    - apply finish_list_of in H1; [now destruct H1|now left| |now apply B]. eapply (D (fetch_elements _)); [|eassumption|reflexivity|eassumption]. apply fetch_elements_sane.
    - apply finish_list_of in H1; [now destruct H1|now right| |now apply B]. eapply (D (fetch_elements _)); [|eassumption|reflexivity|eassumption]. apply fetch_elements_sane.
    - apply finish_enum_of in H1; [now destruct H1| |now apply B]. eapply (D (fetch_enum _)); [|eassumption|reflexivity|eassumption]. apply fetch_enum_sane.
  Qed.
End WithRegistry.
