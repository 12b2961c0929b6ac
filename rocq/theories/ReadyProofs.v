(** Lemmas for C48: merging and generating from elements that are ready *)
From Verif Require Import Base SoValue Element ElementSpec ElementProofs InfoProofs Extend Registry Expand ElementUtils EnumMergeProofs ExpandClosed JsonValue JsonSchema MsonSane ReadySpec.

Lemma every_elem : forall (P : element -> Prop) n m a h d, everywhere P (Elem n m a h d) <->
  P (Elem n m a h d) /\ Forall (fun kv => everywhere P (snd kv)) m /\ Forall (fun kv => everywhere P (snd kv)) a /\ Forall (everywhere P) (dsd_children d).
Proof.
  intros P n m a h d. set (e := Elem n m a h d). split.
  - intros S. assert (C : forall c, In c (children e) -> everywhere P c) by (intros c Hc x Hx; apply S; now apply sub_step with c).
    split; [apply S; constructor|]. repeat apply conj; apply Forall_forall.
    + intros [k v] H. apply C. now apply in_meta_child with k.
    + intros [k v] H. apply C. now apply in_attr_child with k.
    + intros x H. apply C. now apply in_data_child.
  - intros (H0 & Hm & Ha & Hd) x Hx. inversion Hx as [|? c ? Hc Hs]; subst; [exact H0|].
    unfold children in Hc. cbn [emeta eattrs edata] in Hc. rewrite !in_app_iff, !in_map_iff in Hc.
    destruct Hc as [([k v] & <- & H)|[([k v] & <- & H)|H]].
    + rewrite Forall_forall in Hm. now apply (Hm _ H).
    + rewrite Forall_forall in Ha. now apply (Ha _ H).
    + rewrite Forall_forall in Hd. now apply (Hd _ H).
Qed.
Lemma every_here : forall P e, everywhere P e -> P e.
Proof. intros P e H. apply H. constructor. Qed.
Lemma every_data : forall P e c, everywhere P e -> In c (dsd_children (edata e)) -> everywhere P c.
Proof. intros P e c H Hc x Hx. apply H. apply sub_step with c; [now apply in_data_child|exact Hx]. Qed.
Lemma every_attr : forall P e k v, everywhere P e -> In (k, v) (eattrs e) -> everywhere P v.
Proof. intros P e k v H Hv x Hx. apply H. apply sub_step with v; [now apply in_attr_child with k|exact Hx]. Qed.
Lemma every_found : forall P e k v, everywhere P e -> ifind (eattrs e) k = Some v -> everywhere P v.
Proof. intros P e k v H F. apply ifind_In in F. now apply (every_attr P e k). Qed.

(** * Merging *)
Lemma ready_no_null : forall e, ready e -> no_null e.
Proof.
  intros e H x Hx Eh. destruct (H x Hx) as [_ D]. destruct (edata x) as [|[]| | | | |[] | |[] | | | |]; auto.
  - now apply D.
  - destruct D as (_ & (key & s & E & _) & _). discriminate.
  - destruct D as [D _]. now apply D.
Qed.
Lemma ready_eset : forall e d, ready e -> dsd_kind d = ekind e -> mergeable (ekind e) -> Forall ready (dsd_children d) -> match d with DEnum None => False | _ => True end -> ready (eset e d).
Proof.
  intros [n m a h d0] d R K M C N. apply every_elem in R as ((T & D) & Rm & Ra & _). apply every_elem. split; [|now repeat split]. split; [exact T|]. cbn [edata eset set_attrs eattrs] in *.
  unfold ekind in *. cbn [edata] in *. destruct d as [|o|s|s|b|l|k v|l|o|s|l|l|l], d0; try discriminate; auto; try (exfalso; cbn in M; intuition discriminate).
  split; [|apply D]. intros _. now destruct o.
Qed.
Lemma info_merge_in : forall skip l t k v, In (k, v) (info_merge skip t l) -> In (k, v) t \/ exists w, In (k, w) l /\ v = clone cAll w.
Proof.
  intros skip l. unfold info_merge. induction l as [|[k0 v0] l IH]; intros t k v H; cbn in H; [now left|]. apply IH in H as [H|(w & Hw & ->)].
  - destruct (skip k0); [now left|]. cbn in H. apply iset_in in H as [[-> ->]|H]; [right; exists v0; split; [now left|reflexivity]|now left].
  - right. exists w. split; [now right|reflexivity].
Qed.
Lemma clone_same : forall e, clone cAll e = e.
Proof. intros [n m a h d]. rewrite clone_unfold. reflexivity. Qed.
Lemma ready_info : forall skip t l, Forall (fun kv => ready (snd kv)) t -> Forall (fun kv => ready (snd kv)) l -> Forall (fun kv => ready (snd kv)) (info_merge skip t l).
Proof.
  intros skip t l T L. rewrite Forall_forall in *. intros [k v] H. apply info_merge_in in H as [H|(w & H & ->)]; [now apply (T _ H)|]. cbn. rewrite clone_same. now apply (L _ H).
Qed.
Lemma ready_with_meta : forall e m, ready e -> Forall (fun kv => ready (snd kv)) m -> ready (set_meta e m).
Proof. intros [n m0 a h d] m R H. apply every_elem in R as (P & _ & Ra & Rd). apply every_elem. now repeat split; try apply P. Qed.
Lemma ready_parts : forall e, ready e -> ready_piece e /\ Forall (fun kv => ready (snd kv)) (emeta e) /\ Forall (fun kv => ready (snd kv)) (eattrs e) /\ Forall ready (dsd_children (edata e)).
Proof. intros [n m a h d] R. now apply every_elem in R. Qed.
Lemma ready_with_attrs : forall e a, ready e -> mergeable (ekind e) -> Forall (fun kv => ready (snd kv)) a ->
  (forall v, In ("typeAttributes"%string, v) a -> ehas v = true) ->
  (ekind e = KEnum -> forall v, In ("enumerations"%string, v) a -> ehas v = true /\ ekind v = KArray) -> ready (set_attrs e a).
Proof.
  intros [n m a0 h d] a R M H T E. apply every_elem in R as ((_ & P) & Rm & _ & Rd). apply every_elem. split; [|now repeat split]. split; [exact T|].
  unfold ekind in *. cbn [edata set_attrs eattrs ehas] in *. destruct d; auto; try (exfalso; cbn in M; intuition discriminate). split; [apply P|now apply E].
Qed.
Lemma set_meta_kind : forall e m, ekind (set_meta e m) = ekind e. Proof. now intros []. Qed.
Lemma set_attrs_kind : forall e m, ekind (set_attrs e m) = ekind e. Proof. now intros []. Qed.
Lemma set_attrs_attrs : forall e m, eattrs (set_attrs e m) = m. Proof. now intros []. Qed.
Lemma set_meta_attrs : forall e m, eattrs (set_meta e m) = eattrs e. Proof. now intros []. Qed.
Lemma eset_kind : forall e d, ekind (eset e d) = dsd_kind d. Proof. now intros []. Qed.

Lemma ready_key : forall m, ready m -> ekind m = KMember -> exists s, asserted_key m = Some s.
Proof.
  intros m R K. destruct (every_here _ _ R) as [_ D]. unfold ekind in K. unfold asserted_key, eget. destruct (edata m) eqn:E; try discriminate.
  destruct D as (-> & (key & s & -> & Hk & Ek) & _). unfold eget. rewrite Hk, Ek. now exists s.
Qed.
Lemma any_match_total : forall A (p : A -> option bool) l, (forall x, In x l -> exists b, p x = Some b) -> exists b, any_match p l = Some b.
Proof.
  intros A p l. induction l as [|x l IH]; intros H; cbn; [eauto|]. destruct (H x (or_introl eq_refl)) as ([|] & ->); [eauto|]. apply IH. intros y Hy. apply H. now right.
Qed.
Lemma ready_match : forall k e, ready e -> exists b, member_match k e = Some b.
Proof.
  intros k e R. unfold member_match. destruct (ekind e) eqn:K; eauto.
  - destruct (ready_key e R K) as (s & ->). cbn. eauto.
  - assert (C := every_data ready_piece e). destruct (every_here _ _ R) as [_ D]. unfold ekind in K. unfold eget. destruct (edata e) as [| | | | | | | | | | | |l] eqn:E; try discriminate. destruct D as (-> & F).
    apply any_match_total. intros o Ho. rewrite Forall_forall in F. destruct (F o Ho) as [Ko Hh]. assert (Ro := C o R Ho). unfold ekind in Ko. rewrite Hh. destruct (edata o) as [| | | | | | | | | | |es|] eqn:Eo; try discriminate.
    apply any_match_total. intros x Hx. destruct (ekind x) eqn:Kx; eauto. destruct (ready_key x) as (s & ->); [|exact Kx|cbn; eauto]. apply (every_data ready_piece o); [exact Ro|]. now rewrite Eo.
Qed.
Lemma ready_ref : forall s e, ready e -> exists b, ref_match s e = Some b.
Proof.
  intros s e R. unfold ref_match. destruct (ekind e) eqn:K; eauto. destruct (every_here _ _ R) as [_ D]. unfold ekind in K. unfold ref_symbol, eget. destruct (edata e); try discriminate. destruct D as [-> _]. cbn. eauto.
Qed.
Lemma splice_total : forall p m l, (forall x, In x l -> exists b, p x = Some b) -> Forall ready l -> ready m ->
  exists o, splice p m l = Some o /\ forall l', o = Some l' -> Forall ready l'.
Proof.
  intros p m l. induction l as [|x l IH]; intros H L M; cbn; [exists None; split; [reflexivity|discriminate]|]. inversion L; subst. destruct (H x (or_introl eq_refl)) as ([|] & ->).
  - exists (Some (m :: l)). split; [reflexivity|]. intros l' E. injection E as <-. now constructor.
  - destruct IH as (o & -> & Ho); [intros y Hy; apply H; now right|assumption|assumption|]. eexists. split; [reflexivity|]. intros l' E. destruct o as [l1|]; [|discriminate]. injection E as <-. constructor; [assumption|now apply Ho].
Qed.
Lemma push_back_ready : forall l m, Forall ready l -> ready m -> Forall ready (obj_push_back l m).
Proof. intros l m L M. rewrite Forall_forall in *. intros x Hx. apply ExpandClosed.push_back_In in Hx as [Hx| ->]; auto. Qed.
Lemma merge_entry_ready : forall l m, Forall ready l -> ready m -> exists l', merge_entry l m = Some l' /\ Forall ready l'.
Proof.
  intros l m L M. unfold merge_entry. assert (Z : exists l', Some (obj_push_back l (clone cAll m)) = Some l' /\ Forall ready l') by (rewrite clone_same; eexists; split; [reflexivity|now apply push_back_ready]).
  assert (W : forall p, (forall x, In x l -> exists b, p x = Some b) -> exists l', match splice p (clone cAll m) l with None => None | Some (Some l) => Some l | Some None => Some (obj_push_back l (clone cAll m)) end = Some l' /\ Forall ready l').
  { intros p Hp. rewrite clone_same in *. destruct (splice_total p m l Hp L M) as (o & -> & Ho). destruct o as [l1|]; [exists l1; split; [reflexivity|now apply Ho]|exact Z]. }
  rewrite Forall_forall in L. destruct (ekind m) eqn:K; try exact Z.
  - destruct (ready_key m M K) as (s & ->). apply W. intros x Hx. now apply ready_match, L.
  - destruct (every_here _ _ M) as [_ D]. unfold ekind in K. unfold ref_symbol, eget. destruct (edata m) eqn:E; try discriminate. destruct D as [-> _]. apply W. intros x Hx. now apply ready_ref, L.
Qed.
Lemma merge_entries_ready : forall la lt, Forall ready lt -> Forall ready la -> exists l', foldM merge_entry lt la = Some l' /\ Forall ready l'.
Proof.
  induction la as [|m la IH]; intros lt L A; cbn; [eauto|]. inversion A; subst. destruct (merge_entry_ready lt m L) as (l1 & -> & L1); [assumption|]. now apply IH.
Qed.
Lemma value_merge_ready : forall t a, ready t -> ready a -> ekind a = ekind t -> mergeable (ekind t) -> ehas a = true -> exists t', value_merge t a = Some t' /\ ready t' /\ ekind t' = ekind t.
Proof.
  intros t a T A K M H. unfold value_merge. assert (Ct := every_data ready_piece t). assert (Ca := every_data ready_piece a). unfold ekind in *.
  assert (Set_ : forall d, dsd_kind d = dsd_kind (edata t) -> Forall ready (dsd_children d) -> match d with DEnum None => False | _ => True end -> exists t', Some (eset t d) = Some t' /\ ready t' /\ dsd_kind (edata t') = dsd_kind (edata t)).
  { intros d Hk Hd N. eexists. split; [reflexivity|]. split; [now apply ready_eset|]. assert (X := eset_kind t d). unfold ekind in X. now rewrite X. }
  destruct (edata t) as [|ot|st|st|bt|lt|kt vt|lt|ot|st|lt|lt|lt] eqn:Et; destruct (edata a) as [|oa|sa|sa|ba|la|ka va|la|oa|sa|la|la|la] eqn:Ea; try discriminate; try (exfalso; cbn in M; intuition discriminate).
  - apply Set_; cbn; auto.
  - apply Set_; cbn; auto.
  - apply Set_; cbn; auto.
  - destruct (ehas t); [|exists t; rewrite Et; split; [reflexivity|split; [exact T|reflexivity]]]. apply Set_; [reflexivity| |exact I]. cbn. apply Forall_forall. intros x Hx. apply in_app_or in Hx as [Hx|Hx]; [now apply Ct|].
    apply in_map_iff in Hx as (y & <- & Hy). rewrite clone_same. now apply Ca.
  - destruct la as [|x la]; [exists t; rewrite Et; split; [reflexivity|split; [exact T|reflexivity]]|]. assert (La : Forall ready (x :: la)) by (apply Forall_forall; intros; now apply Ca).
    assert (G : forall t' lt', ready t' -> edata t' = DObject lt' -> Forall ready lt' -> exists r, option_map (fun l => eset t' (DObject l)) (foldM merge_entry lt' (x :: la)) = Some r /\ ready r /\ dsd_kind (edata r) = KObject).
    { intros t' lt' R E F. destruct (merge_entries_ready (x :: la) lt' F La) as (l' & -> & Fl). cbn. eexists. split; [reflexivity|]. split; [|now destruct t'].
      apply ready_eset; [exact R|unfold ekind; now rewrite E|unfold ekind; rewrite E; cbn; auto 10|exact Fl|exact I]. }
    cbv zeta. destruct (ehas t).
    + rewrite Et. apply (G t lt T Et). apply Forall_forall. intros; now apply Ct.
    + assert (E0 : edata (eset t (DObject [])) = DObject []) by now destruct t. rewrite E0. apply G; [|exact E0|constructor]. apply ready_eset; [exact T|unfold ekind; now rewrite Et|unfold ekind; rewrite Et; exact M|constructor|exact I].
  - apply Set_; [reflexivity| |].
    + destruct oa as [v|]; cbn; constructor; [|constructor]. rewrite clone_all_id. apply Ca; [exact A|]. now left.
    + destruct (every_here _ _ A) as [_ D]. rewrite Ea in D. destruct D as [D _]. specialize (D H). now destruct oa.
Qed.
Lemma element_merge_ready : forall t a, ready t -> ready a -> ekind a = ekind t -> mergeable (ekind t) -> ekind t <> KEnum -> exists t', element_merge t a = Some t' /\ ready t' /\ ekind t' = ekind t.
Proof.
  intros t a T A K M N. unfold element_merge. cbv zeta. destruct (ready_parts t T) as ((Tt & _) & Tm & Ta & _). destruct (ready_parts a A) as ((Aa & _) & Am & Aattr & _).
  set (t1 := set_meta t _). assert (R1 : ready t1) by (apply ready_with_meta; [exact T|now apply ready_info]). assert (K1 : ekind t1 = ekind t) by apply set_meta_kind.
  assert (E1 : eattrs t1 = eattrs t) by apply set_meta_attrs. rewrite E1. set (t2 := set_attrs t1 _). assert (K2 : ekind t2 = ekind t) by (unfold t2; now rewrite set_attrs_kind).
  assert (R2 : ready t2).
  { apply ready_with_attrs; [exact R1|now rewrite K1|now apply ready_info| |congruence]. intros v Hv. apply info_merge_in in Hv as [Hv|(w & Hv & ->)]; [now apply Tt|]. rewrite clone_same. now apply Aa. }
  destruct (ehas a) eqn:H; [|exists t2; split; [reflexivity|split; [exact R2|exact K2]]]. destruct (value_merge_ready t2 a R2 A ltac:(congruence) ltac:(now rewrite K2) H) as (t' & E & R' & K'). exists t'. split; [assumption|split; [assumption|congruence]].
Qed.
Lemma drop_equal_total : forall x l, no_null x -> Forall no_null l -> exists l', drop_equal x l = Some l' /\ incl l' l.
Proof.
  intros x l Nx. induction l as [|y l IH]; intros L; cbn; [exists []; split; [reflexivity|apply incl_refl]|]. inversion L; subst. rewrite eqv_total by assumption. destruct (eqv x y); [exists l; split; [reflexivity|apply incl_tl, incl_refl]|].
  destruct IH as (l' & -> & I); [assumption|]. eexists. split; [reflexivity|]. intros z [->|Hz]; [now left|right; now apply I].
Qed.
Lemma add_enumerations_ready : forall la lt, Forall ready lt -> Forall ready la -> exists l', foldM add_enumeration lt la = Some l' /\ Forall ready l'.
Proof.
  induction la as [|x la IH]; intros lt L A; cbn [foldM]; [eauto|]. inversion A as [|? ? Hx Ha]; subst. unfold add_enumeration at 1.
  destruct (drop_equal_total x lt) as (l1 & -> & I); [now apply ready_no_null|eapply Forall_impl; [|exact L]; intros; now apply ready_no_null|]. cbn [option_map].
  apply IH; [|exact Ha]. rewrite clone_same. apply Forall_app. split; [|constructor; [exact Hx|constructor]]. rewrite Forall_forall in *. auto.
Qed.
Lemma enumerations_ready : forall t a, Forall (fun kv => ready (snd kv)) t -> Forall (fun kv => ready (snd kv)) a ->
  (forall v, In ("enumerations"%string, v) t -> ehas v = true /\ ekind v = KArray) -> (forall v, In ("enumerations"%string, v) a -> ehas v = true /\ ekind v = KArray) ->
  exists t', enumerations_merge t a = Some t' /\ Forall (fun kv => ready (snd kv)) t' /\ (forall v, In ("enumerations"%string, v) t' -> ehas v = true /\ ekind v = KArray) /\
    forall k v, k <> "enumerations"%string -> In (k, v) t' -> In (k, v) t.
Proof.
  intros t a T A Te Ae. unfold enumerations_merge. assert (Z : exists t', Some t = Some t' /\ Forall (fun kv => ready (snd kv)) t' /\ (forall v, In ("enumerations"%string, v) t' -> ehas v = true /\ ekind v = KArray) /\ forall k v, k <> "enumerations"%string -> In (k, v) t' -> In (k, v) t) by (exists t; auto).
  destruct (ifind a "enumerations") as [ae|] eqn:Fa; [|exact Z]. apply ifind_In in Fa. destruct (Ae ae Fa) as [Ha Ka]. rewrite Forall_forall in A, T. assert (Ra := A _ Fa). cbn in Ra. unfold eget. rewrite Ha. unfold ekind in Ka. destruct (edata ae) as [| | | | |la| | | | | | |] eqn:Ea; try discriminate.
  destruct la as [|x la]; [exact Z|]. assert (La : Forall ready (x :: la)) by (apply Forall_forall; intros y Hy; apply (every_data ready_piece ae); [exact Ra|now rewrite Ea]).
  assert (G : forall v0, ready v0 -> ehas v0 = true -> ekind v0 = KArray -> exists t', Some (iset t "enumerations" v0) = Some t' /\ Forall (fun kv => ready (snd kv)) t' /\ (forall v, In ("enumerations"%string, v) t' -> ehas v = true /\ ekind v = KArray) /\ forall k v, k <> "enumerations"%string -> In (k, v) t' -> In (k, v) t).
  { intros v0 R0 H0 K0. eexists. split; [reflexivity|]. split; [apply iset_all; [exact R0|now apply Forall_forall]|]. split.
    - intros v Hv. apply iset_in in Hv as [[_ ->]|Hv]; [now split|now apply Te].
    - intros k v N Hv. apply iset_in in Hv as [[-> _]|Hv]; [congruence|exact Hv]. }
  destruct (ifind t "enumerations") as [te|] eqn:Ft; [|rewrite clone_same; apply G; [exact Ra|exact Ha|unfold ekind; now rewrite Ea]].
  apply ifind_In in Ft. destruct (Te te Ft) as [Ht Kt]. assert (Rt := T _ Ft). cbn in Rt. rewrite Ht. unfold ekind in Kt. destruct (edata te) as [| | | | |lt| | | | | | |] eqn:Et; try discriminate.
  destruct (add_enumerations_ready (x :: la) lt) as (l' & -> & Hl); [apply Forall_forall; intros y Hy; apply (every_data ready_piece te); [exact Rt|now rewrite Et]|exact La|]. cbn [option_map].
  apply G; [|now destruct te|apply eset_kind]. apply ready_eset; [exact Rt|unfold ekind; now rewrite Et|unfold ekind; rewrite Et; cbn; auto 10|exact Hl|exact I].
Qed.
Lemma enum_merge_ready : forall t a, ready t -> ready a -> ekind a = KEnum -> ekind t = KEnum -> exists t', enum_merge t a = Some t' /\ ready t' /\ ekind t' = KEnum.
Proof.
  intros t a T A Ka Kt. unfold enum_merge. cbv zeta. destruct (ready_parts t T) as ((Tt & Td) & Tm & Ta & _). destruct (ready_parts a A) as ((Aa & Ad) & Am & Aattr & _).
  assert (Et : forall v, In ("enumerations"%string, v) (eattrs t) -> ehas v = true /\ ekind v = KArray) by (unfold ekind in Kt; destruct (edata t); try discriminate; apply Td).
  assert (Ea : forall v, In ("enumerations"%string, v) (eattrs a) -> ehas v = true /\ ekind v = KArray) by (unfold ekind in Ka; destruct (edata a); try discriminate; apply Ad).
  set (t1 := set_meta t _). assert (R1 : ready t1) by (apply ready_with_meta; [exact T|now apply ready_info]). assert (K1 : ekind t1 = KEnum) by (unfold t1; now rewrite set_meta_kind).
  assert (E1 : eattrs t1 = eattrs t) by apply set_meta_attrs. rewrite E1. rewrite set_attrs_attrs. set (attrs := info_merge skip_enumerations (eattrs t) (eattrs a)).
  assert (Hta : forall v, In ("typeAttributes"%string, v) attrs -> ehas v = true) by (intros v Hv; apply info_merge_in in Hv as [Hv|(w & Hv & ->)]; [now apply Tt|rewrite clone_same; now apply Aa]).
  assert (Hen : forall v, In ("enumerations"%string, v) attrs -> ehas v = true /\ ekind v = KArray) by (intros v Hv; apply info_merge_in in Hv as [Hv|(w & Hv & ->)]; [now apply Et|rewrite clone_same; now apply Ea]).
  destruct (enumerations_ready attrs (eattrs a)) as (at' & -> & Rat & Een & Eo); [now apply ready_info|exact Aattr|exact Hen|exact Ea|].
  set (t3 := set_attrs (set_attrs t1 attrs) at'). assert (X : t3 = set_attrs t1 at') by (unfold t3; now destruct t1). assert (K3 : ekind t3 = KEnum) by (rewrite X, set_attrs_kind; exact K1).
  assert (R3 : ready t3). { rewrite X. apply ready_with_attrs; [exact R1|rewrite K1; cbn; auto 10|exact Rat| |intros _; exact Een]. intros v Hv. apply Hta. apply Eo; [discriminate|exact Hv]. }
  destruct (ehas a) eqn:H; [|exists t3; split; [reflexivity|split; [exact R3|exact K3]]]. destruct (value_merge_ready t3 a R3 A ltac:(congruence) ltac:(rewrite K3; cbn; auto 10) H) as (t' & E & R' & K'). exists t'. split; [assumption|split; [assumption|congruence]].
Qed.
Lemma merge_step_ready : forall t a, ready t -> ready a -> ekind a = ekind t -> mergeable (ekind t) -> exists t', merge_step t a = Ok t' /\ ready t' /\ ekind t' = ekind t.
Proof.
  intros t a T A K M. unfold merge_step. destruct (kind_beq_spec (ekind a) (ekind t)) as [_|N]; [|contradiction]. cbn [negb].
  assert (E : ekind t <> KEnum -> exists t', of_option (element_merge t a) = Ok t' /\ ready t' /\ ekind t' = ekind t).
  { intros N. destruct (element_merge_ready t a T A K M N) as (t' & -> & R). exists t'. now split. }
  destruct (ekind t) eqn:Kt; try (apply E; discriminate); try (exfalso; cbn in M; intuition discriminate).
  destruct (enum_merge_ready t a T A K Kt) as (t' & -> & R' & K'). exists t'. split; [reflexivity|split; assumption].
Qed.
Lemma merge_from_ready : forall l t k, mergeable k -> ready t -> ekind t = k -> Forall ready l -> Forall (fun y => ekind y = k) l -> exists t', merge_from t l = Ok t' /\ ready t' /\ ekind t' = k.
Proof.
  induction l as [|a l IH]; intros t k M T K L Ks; cbn; [exists t; auto|]. inversion L; inversion Ks; subst. destruct (merge_step_ready t a T) as (t1 & -> & R1 & K1); [assumption|congruence|exact M|]. apply IH; auto; congruence.
Qed.
Lemma merged_ready : forall e l, ready e -> edata e = DExtend l -> exists x, merged e = ret x /\ ready x /\ mergeable (ekind x).
Proof.
  intros e l R E. destruct (every_here _ _ R) as [_ D]. rewrite E in D. destruct D as (H & N & k & M & Ks). unfold merged. rewrite H, E. destruct l as [|y l]; [congruence|].
  assert (C : Forall ready (y :: l)) by (apply Forall_forall; intros z Hz; apply (every_data ready_piece e); [exact R|now rewrite E]). inversion C; inversion Ks; subst. unfold merge.
  rewrite clone_same. destruct (merge_from_ready l y (ekind y)) as (t & -> & Rt & Kt); auto. exists t. split; [reflexivity|]. split; [exact Rt|]. rewrite Kt. exact M.
Qed.
