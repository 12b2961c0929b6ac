(** Conversion of MSON gives a result *)
From Verif Require Import Base Element ElementSpec ElementProofs InfoProofs Extend Registry RegistryProofs Expand ExpandSpec ExpandProofs ExpandClosed ElementUtils SourceMap
  JsonSpec SerializeSpec TypeTables Mson MsonSpec MsonProofs MsonSane MsonShape MsonAlike MsonEnum MsonMember MsonTree.

(** * Results *)
Definition ok {A} (m : M A) : Prop := exists a w, m = ret (a, w).
Lemma ok_ret : forall A (a : A), ok (mret a).
Proof. intros A a. now exists a, []. Qed.
Lemma ok_bind : forall A B (m : M A) (f : A -> M B), ok m -> (forall a w, m = ret (a, w) -> ok (f a)) -> ok (mbind m f).
Proof. intros A B m f (a & w & E) H. destruct (H a w E) as (b & w' & E'). exists b, (w ++ w')%list. unfold mbind. rewrite E. cbn [bind fst]. cbn. now rewrite E'. Qed.
Lemma ok_quiet : forall A (m : run A), (exists a, m = ret a) -> ok (quiet m).
Proof. intros A m (a & ->). now exists a, []. Qed.
Lemma ok_when : forall b m, ok m -> ok (when b m).
Proof. intros [] m H; [exact H|apply ok_ret]. Qed.
Lemma ok_say : forall w, ok (say w).
Proof. intros w. now exists tt, [w]. Qed.
Lemma ok_mapM : forall A B (f : A -> M B) l, (forall x, In x l -> ok (f x)) -> ok (mapM f l).
Proof.
  intros A B f l H. induction l as [|x l IH]; cbn [mapM]; [apply ok_ret|]. apply ok_bind; [apply H; now left|]. intros y w _. apply ok_bind; [apply IH; intros z Hz; apply H; now right|].
  intros ys w' _. apply ok_ret.
Qed.
Lemma ok_foldW : forall A B (f : A -> B -> M A) (P : A -> Prop) l a, P a -> (forall a x, P a -> In x l -> ok (f a x)) -> (forall a x a' w, P a -> In x l -> f a x = ret (a', w) -> P a') -> ok (foldW f a l).
Proof.
  intros A B f P l. induction l as [|x l IH]; intros a Pa H1 H2; cbn [foldW]; [apply ok_ret|]. apply ok_bind; [apply H1; [exact Pa|now left]|].
  intros a' w E. apply IH; [eapply H2; [exact Pa|now left|exact E]| |]; intros; [apply H1|eapply H2]; try eassumption; now right.
Qed.
Lemma mapR_ok : forall A B (f : A -> run B) l, (forall x, In x l -> exists y, f x = ret y) -> exists ys, mapR f l = ret ys.
Proof.
  intros A B f l H. induction l as [|x l IH]; [now exists []|]. destruct (H x) as (y & E); [now left|]. destruct IH as (ys & IH); [intros z Hz; apply H; now right|].
  exists (y :: ys). cbn [mapR]. rewrite E. cbn. fold (mapR f l). rewrite IH. reflexivity.
Qed.

Section Total.
  Context (fuel : nat) (r : registry) (Hend : ancestors_end fuel r).
  Notation thunk := (member_map (to_apie fuel r)).
  Notation secs := (map (section_map (to_apie fuel r))).

  Lemma root_ok : forall s, exists o, root_ancestor fuel r s = ret o.
  Proof. intros s. unfold root_ancestor. destruct (FindRootAncestor fuel r s) eqn:F; [eauto|]. now destruct (Hend s). Qed.
  Lemma resolve_ok : forall s, exists b, resolve_type fuel r s = ret b.
  Proof.
    intros s. unfold resolve_type. destruct (n_base (t_name s)); try (eexists; reflexivity). destruct (String.eqb _ ""); [eexists; reflexivity|].
    destruct (root_ok (s_literal (n_symbol (t_name s)))) as (o & ->). eexists. reflexivity.
  Qed.
  Lemma nested_ok : forall p n, ok (nested_type fuel r p n).
  Proof.
    intros p n. unfold nested_type. destruct (n_base n); try apply ok_ret. destruct (String.eqb _ ""); [apply ok_ret|]. apply ok_bind.
    - apply ok_quiet. unfold type_from_name. destruct (root_ok (s_literal (n_symbol n))) as (o & ->). eexists. reflexivity.
    - intros b w _. destruct b, (s_variable (n_symbol n)); try apply ok_ret. apply ok_bind; [apply ok_say|]. intros. apply ok_ret.
  Qed.
  Lemma definition_ok : forall t p d, ok (extract_definition fuel r t p d).
  Proof. intros t p d. unfold extract_definition. apply ok_bind; [apply ok_mapM; intros; apply nested_ok|]. intros. apply ok_ret. Qed.
  Lemma clash_ok : forall ta p, ok (check_clash ta p).
  Proof.
    intros ta p. unfold check_clash. cbv zeta. repeat (apply ok_bind; [apply ok_when, ok_say|intros _ _ _]). apply ok_when, ok_say.
  Qed.
  Lemma key_ok : forall n, (def_empty (vd_type (p_variable n)) = false -> string_typed fuel r (vd_type (p_variable n))) -> ok (property_key fuel r n).
  Proof.
    intros n H. unfold property_key. cbv zeta. apply ok_bind; [|intros; apply ok_ret]. destruct (value_empty (p_variable n)); [apply ok_ret|].
    apply ok_bind; [apply ok_when, ok_say|]. intros _ _ _. apply ok_bind; [|intros; apply ok_ret].
    destruct (def_empty (vd_type (p_variable n))) eqn:D; [apply ok_ret|]. specialize (H eq_refl).
    assert (V : variable_is_string fuel r (p_variable n) = ret true).
    { unfold variable_is_string. destruct H as [-> | (e & F & K)]; [reflexivity|]. fold (type_literal (vd_type (p_variable n))). unfold root_ancestor. rewrite F. cbn. unfold is_kind. rewrite K.
      now destruct (n_base _). }
    rewrite V. apply ok_bind; [apply ok_quiet; eauto|]. intros b w E. apply quiet_ret in E as [E _]. injection E as <-. apply ok_ret.
  Qed.
  Lemma valid_ok : forall n key, key_of n key -> exists b, valid_key key = Some b.
  Proof.
    intros n key (N1 & N2 & N3 & N4). unfold valid_key. destruct (is_reserved (ename key)); [|eauto].
    unfold find_value, find_first_sample, find_default. rewrite N3. destruct (key_text n) as [s|].
    - destruct N4 as [N4 N5]. rewrite N4, N5, N4. eauto.
    - rewrite N4. destruct (p_map n); cbn; eauto.
  Qed.

  (** * Entries whose name determines their kind *)
  Definition named (e : element) : Prop := ehas e = true ->
    (ename e = kind_name (ekind e) /\ ekind e <> KHolder) \/ (ename e = "generic"%string /\ ekind e = KString) \/
    (known fuel r (ename e) (ekind e) /\ is_reserved (ename e) = false /\ ename e <> "generic"%string).
  Lemma kind_name_inj : forall a b, a <> KHolder -> b <> KHolder -> kind_name a = kind_name b -> a = b.
  Proof. intros [] [] Ha Hb H; try reflexivity; try discriminate; contradiction. Qed.
  Lemma named_same : forall x y, named x -> named y -> ehas x = true -> ehas y = true -> ename x = ename y -> ekind x = ekind y.
  Proof.
    intros x y Nx Ny Hx Hy E. assert (G : forall k, k <> KHolder -> kind_name k <> "generic"%string) by (intros [] Hk; try discriminate; contradiction).
    destruct (Nx Hx) as [[A1 A2]|[[A1 A2]|(A1 & A2 & A3)]], (Ny Hy) as [[B1 B2]|[[B1 B2]|(B1 & B2 & B3)]].
    - apply kind_name_inj; congruence.
    - exfalso. apply (G (ekind x)); [exact A2|congruence].
    - exfalso. rewrite <- E, A1, kind_name_reserved in B2; [discriminate|exact A2].
    - exfalso. apply (G (ekind y)); [exact B2|congruence].
    - congruence.
    - congruence.
    - exfalso. rewrite E, B1, kind_name_reserved in A2; [discriminate|exact B2].
    - congruence.
    - rewrite E in A1. now apply (known_fun fuel r (ename y)).
  Qed.
  Lemma named_make : forall d, dsd_kind d <> KHolder -> named (make_element d).
  Proof. intros d H _. left. split; [reflexivity|exact H]. Qed.
  Lemma named_empty : forall e, ehas e = false -> named e.
  Proof. intros e H H'. congruence. Qed.
  Lemma named_version : forall x y, fixed_version x y -> named x -> named y.
  Proof. intros x y (A1 & A2 & A3 & _) N H. unfold named, ekind in *. rewrite A2 in H. rewrite A1, A3. now apply N. Qed.
  Lemma named_create : forall b s m, named (create b s m).
  Proof.
    intros b s m. unfold create. destruct (is_primitive (kind_of b)) eqn:P.
    - unfold create_primitive. destruct (String.eqb s ""); [now apply named_empty; destruct b|]. destruct m.
      + assert (L := literal_kind (kind_of b) s P). destruct (literal_to (kind_of b) s) as [[] v]; [|now apply named_empty; destruct b]. apply named_make. cbn [snd] in L. rewrite L. now destruct b.
      + apply named_empty. now destruct b.
      + apply named_empty. now destruct b.
    - unfold create_complex. destruct m; [|intros _; right; left; now split|]; destruct (String.eqb s ""); apply named_empty; now destruct b.
  Qed.
  Definition good (e : element) : Prop := sane e /\ named e.

  Lemma equal_ok : forall x y, good x -> good y -> exists b, equal_ignoring x y = Some b.
  Proof.
    intros x y [Sx Nx] [Sy Ny]. destruct (equal_decides x y Sx Sy) as [(-> & _)|[(-> & _)|(_ & A1 & A2 & A3 & A4)]]; eauto. exfalso. apply A4. now apply named_same.
  Qed.
  Lemma found_ok : forall p l, (forall x, In x l -> exists b, p x = Some b) -> exists b, found p l = Some b.
  Proof.
    intros p l H. induction l as [|x l IH]; cbn [found]; [eauto|]. destruct (H x) as ([|] & ->); [now left|eauto|]. apply IH. intros y Hy. apply H. now right.
  Qed.
  Lemma add_ok : forall p b enums l, Forall good enums -> Forall good l ->
    ok (foldW (add_to_enumerations p b) enums l) /\ forall es w, foldW (add_to_enumerations p b) enums l = ret (es, w) -> Forall good es.
  Proof.
    intros p b enums l Ge Gl. assert (O : forall a x, Forall good a -> In x l -> ok (add_to_enumerations p b a x)).
    { intros a x Ga Hx. unfold add_to_enumerations. rewrite Forall_forall in Gl, Ga. destruct (found_ok (equal_ignoring x) a) as (f & Ef).
      - intros y Hy. apply equal_ok; auto.
      - rewrite Ef. apply ok_bind; [apply ok_quiet; now exists f|]. intros f' w _. destruct f'; [|apply ok_ret]. apply ok_bind; [apply ok_when, ok_say|]. intros. apply ok_ret. }
    assert (I : forall a x a' w, Forall good a -> In x l -> add_to_enumerations p b a x = ret (a', w) -> Forall good a').
    { intros a x a' w Ga Hx H. unfold add_to_enumerations in H. apply mbind_ret in H as (f & w1 & w2 & _ & H & _). destruct f.
      - apply mbind_ret in H as (u & w3 & w4 & _ & H & _). apply mret_ret in H as [<- _]. exact Ga.
      - apply mret_ret in H as [<- _]. apply Forall_app. split; [exact Ga|]. constructor; [|constructor]. rewrite Forall_forall in Gl. auto. }
    split; [now apply (ok_foldW _ _ _ (Forall good))|]. intros es w H. clear O. revert enums Ge es w H. induction l as [|x l IH]; intros enums Ge es w H; cbn [foldW] in H.
    - apply mret_ret in H as [<- _]. exact Ge.
    - apply mbind_ret in H as (a & w1 & w2 & H1 & H & _). inversion Gl; subst. eapply IH; [eassumption| |eapply I; [exact Ge|now left|exact H1]|exact H].
      intros a0 x0 a' w' Ga Hx. apply I; [exact Ga|now right].
  Qed.
  Definition good_data (d : data (list element)) : Prop :=
    Forall (fun i => Forall good (fst i)) (inlines d) /\ Forall (fun i => Forall good (fst i)) (values d) /\ Forall (fun i => Forall good (fst i)) (defaults d) /\
    Forall (fun i => Forall good (fst i)) (samples d) /\ Forall (fun i => Forall good (fst i)) (hints d).
  Lemma merge_good : forall l : list (list element * places), Forall (fun i => Forall good (fst i)) l -> Forall good (fst (merge_infos l)).
  Proof. intros l H. rewrite merge_concat. induction H; [constructor|]. cbn. apply Forall_app. now split. Qed.
  Lemma filter_ok : forall vl l, Forall good vl -> Forall good l -> exists l', filterO (not_in vl) l = Some l' /\ Forall good l'.
  Proof.
    intros vl l Gv Gl. induction Gl as [|x l Gx Gl IH]; cbn [filterO]; [eauto|]. destruct IH as (l' & -> & Gl').
    destruct (found_ok (fun v => equal_ignoring v x) vl) as (b & Eb); [intros y Hy; apply equal_ok; [|exact Gx]; rewrite Forall_forall in Gv; auto|].
    unfold not_in. rewrite Eb. cbn [option_map]. eexists. split; [reflexivity|]. destruct (negb b); [now constructor|exact Gl'].
  Qed.
  Lemma finish_enum_ok : forall d e, good_data d -> ok (finish_enum d e).
  Proof.
    intros d e (D1 & D2 & D3 & D4 & D5). apply merge_good in D1, D2, D3, D4, D5. unfold finish_enum. apply ok_bind.
    - unfold save_enum. rewrite !map_clone_infos. set (e0 := match single _ with Some x => _ | None => _ end). clearbody e0.
      destruct (merge_infos (inlines d)) as [il ip], (merge_infos (values d)) as [vl vp], (merge_infos (hints d)) as [hl hp], (merge_infos (samples d)) as [sl sp], (merge_infos (defaults d)) as [dl dp].
      cbn [fst] in *. destruct (filter_ok vl il D2 D1) as (il' & -> & G0). apply ok_bind; [apply ok_quiet; now exists il'|]. intros a w E. apply quiet_ret in E as [E _]. injection E as <-.
      destruct (add_ok ip true [] il') as [O1 I1]; [constructor|exact G0|]. apply ok_bind; [exact O1|]. intros e1 w1 E1. apply I1 in E1.
      destruct (add_ok vp true e1 vl) as [O2 I2]; [exact E1|exact D2|]. apply ok_bind; [exact O2|]. intros e2 w2 E2. apply I2 in E2.
      destruct (add_ok sp false e2 sl) as [O3 I3]; [exact E2|exact D4|]. apply ok_bind; [exact O3|]. intros e3 w3 E3. apply I3 in E3.
      destruct (add_ok dp false e3 dl) as [O4 I4]; [exact E3|exact D3|]. apply ok_bind; [exact O4|]. intros e4 w4 E4. apply I4 in E4.
      destruct (add_ok hp true e4 hl) as [O5 I5]; [exact E4|exact D5|]. apply ok_bind; [exact O5|]. intros e5 w5 E5. apply I5 in E5.
      destruct e5 as [|x l]; [apply ok_ret|]. apply ok_bind; [|intros; apply ok_ret]. apply ok_quiet, mapR_ok. intros y Hy. rewrite Forall_forall in E5.
      destruct (fix_entry_ok y) as (y' & Ey & _); [now apply E5|eauto].
    - intros e1 w _. unfold set_enum_default. destruct (defaults d) as [|[v p] more]; [apply ok_ret|]. apply ok_bind; [apply ok_when, ok_say|]. intros. apply ok_ret.
  Qed.

  (** * Sections *)
  Definition section_ok {V} (primitive : bool) (fetch : msection conv -> M V) (s : msection conv) : Prop :=
    sc_class s <> UndefinedClass /\ (sc_class s <> BlockDescriptionClass -> (sc_class s = MemberTypeClass -> primitive = false) -> ok (fetch s)).
  Lemma sections_ok : forall V primitive (fetch : msection conv -> M V) l d, Forall (section_ok primitive fetch) l -> ok (foldW (extract_section primitive fetch) d l).
  Proof.
    intros V primitive fetch l d H. apply (ok_foldW _ _ _ (fun _ => True)); [exact I| |auto]. intros a s _ Hs. rewrite Forall_forall in H. destruct (H s Hs) as [C F].
    unfold extract_section. destruct (sc_class s) eqn:E; [now destruct C|apply ok_ret| | |].
    - destruct primitive; [apply ok_ret|]. apply ok_bind; [apply F; [discriminate|reflexivity]|]. intros. apply ok_ret.
    - destruct (has_content s); [|apply ok_ret]. apply ok_bind; [apply F; discriminate|]. intros. apply ok_ret.
    - destruct (has_content s); [|apply ok_ret]. apply ok_bind; [apply F; discriminate|]. intros. apply ok_ret.
  Qed.
  Definition small (d : base_name) : Prop := is_primitive (kind_of d) = true.
  Definition conv_ok (x : melement) : Prop := forall d, small d -> ok (to_apie fuel r x d).
  Lemma sections_to_ok : forall d l, small d -> Forall conv_ok l -> ok (sections_to_apie d (map (to_apie fuel r) l)).
  Proof.
    intros d l Hd H. unfold sections_to_apie. apply ok_bind; [|intros; apply ok_ret]. apply ok_mapM. intros c Hc. apply in_map_iff in Hc as (x & <- & Hx). rewrite Forall_forall in H. now apply H.
  Qed.
  Lemma text_sections : forall (l : list (msection melement)), Forall (fun s => sc_class s <> UndefinedClass) l -> Forall (section_ok true fetch_text) (secs l).
  Proof.
    intros l H. apply Forall_map. eapply Forall_impl; [|exact H]. intros s C. split; [exact C|]. intros _ _. apply ok_ret.
  Qed.
  Lemma list_sections : forall d l, small d -> Forall (fun s => sc_class s <> UndefinedClass) l -> all_sections conv_ok l -> Forall (section_ok false (fetch_elements d)) (secs l).
  Proof.
    intros d l Hd H G. apply Forall_map, Forall_forall. intros s Hs. rewrite Forall_forall in H. unfold all_sections in G. rewrite Forall_forall in G. split; [now apply H|]. intros _ _.
    apply sections_to_ok; [exact Hd|now apply G].
  Qed.
  Lemma enum_sections : forall d l, small d -> Forall (fun s => sc_class s <> UndefinedClass) l -> all_sections conv_ok l -> Forall (section_ok false (fetch_enum d)) (secs l).
  Proof.
    intros d l Hd H G. apply Forall_map, Forall_forall. intros s Hs. rewrite Forall_forall in H. unfold all_sections in G. rewrite Forall_forall in G. split; [now apply H|]. intros _ _.
    unfold fetch_enum. apply ok_bind; [apply sections_to_ok; [exact Hd|now apply G]|]. intros es w E. apply ok_quiet, mapR_ok. intros x Hx.
    apply sections_sane in E; [|apply Forall_map, Forall_forall; intros y _; apply convert_sane]. rewrite Forall_forall in E. destruct (fix_literal_ok x) as (x' & Ex & _); [now apply E|eauto].
  Qed.
  Lemma small_nested : forall l, small (select_nested l).
  Proof. apply select_nested_primitive. Qed.

  (** * Entries of enumerations *)
  Lemma entry_named : forall x d e w, small d -> (forall m, x = MValue m -> plain_type fuel r (vd_type (m_value m))) -> to_apie fuel r x d = ret (Some e, w) -> named e.
  Proof.
    intros x d e w Hd Hp H. destruct x.
    - discriminate.
    - apply property_member in H as (_ & _ & N & _ & _ & _ & _ & _ & _ & key & v & k & w' & D & _). intros _. left. unfold ekind. now rewrite N, D.
    - assert (Pl := Hp m eq_refl). apply value_member in H as (e' & k & w' & X & _ & K & Ke & N & _). injection X as <-. intros _. rewrite Ke, N. unfold label.
      assert (Kh : k <> KHolder).
      { destruct K as [b0| ? ? ? (e' & _ & <- & I)| | |]; try discriminate; [now destruct b0| |]; [intros Z; rewrite Z in I; cbn in I; intuition discriminate|].
        now destruct d. }
      destruct (String.eqb_spec (type_literal (vd_type (m_value m))) "") as [Z|Z]; [now left|].
      destruct Pl as [?|(B & (k0 & K0) & R & G)]; [contradiction|]. right. right. split; [|now split].
      destruct K as [b0 Hb Hb'|k B' L Kn|[_ [?|U]] _|[_ [?|U]] _ _|? ? ?]; try congruence; try contradiction; try (exfalso; now apply (U k0)).
    - apply mixin_member in H as [_ H]. injection H as ->. intros _. now left.
    - apply one_of_member in H as (rs & _ & H & _). injection H as ->. destruct (map fst rs); [now apply named_empty|]. intros _. now left.
    - discriminate.
  Qed.
  Lemma fetch_enum_good : forall d s es w, small d -> (forall m, In (MValue m) (sc_elements s) -> plain_type fuel r (vd_type (m_value m))) ->
    fetch_enum d (section_map (to_apie fuel r) s) = ret (es, w) -> Forall good es.
  Proof.
    intros d s es w Hd Hp H. assert (S := H). apply fetch_enum_sane in S; [|apply Forall_map, Forall_forall; intros y _; apply convert_sane].
    unfold fetch_enum in H. apply mbind_ret in H as (l & w1 & w2 & H1 & H2 & _). apply quiet_ret in H2 as [H2 _]. cbn [section_map sc_elements] in H1.
    assert (Sl : Forall sane l) by (apply sections_sane in H1; [exact H1|apply Forall_map, Forall_forall; intros y _; apply convert_sane]).
    assert (N : Forall named l).
    { apply sections_gives in H1 as (os & F & ->). clear -F Hp Hd. assert (Hp' : forall x, In x (sc_elements s) -> forall m, x = MValue m -> plain_type fuel r (vd_type (m_value m))) by (intros x Hx m ->; now apply Hp).
      clear Hp. induction F as [|x o l os (w & E) F IH]; [constructor|]. unfold somes. cbn [flat_map]. apply Forall_app. split.
      - destruct o as [e|]; [|constructor]. constructor; [|constructor]. eapply entry_named; [exact Hd| |exact E]. apply Hp'. now left.
      - apply IH. intros y Hy. apply Hp'. now right. }
    apply mapR_fixed in H2; [|exact Sl]. clear -H2 S N. revert N. induction H2 as [|x y l l' V F IH]; intros N; [constructor|]. inversion S; subst. inversion N; subst. constructor; [|auto].
    split; [assumption|]. eapply named_version; eassumption.
  Qed.
  Lemma hints_good : forall t p d d' w, extract_definition fuel r t p d = ret (d', w) -> sane_data d -> exists hs, d' = add_hint d (hs, []) /\ Forall good hs.
  Proof.
    intros t p d d' w H Sd. assert (S := H). apply extract_definition_sane in S; [|exact Sd]. unfold extract_definition in H. apply mbind_ret in H as (l & w1 & w2 & H1 & H2 & _). apply mret_ret in H2 as [<- _].
    exists (concat l). split; [reflexivity|]. destruct S as (_ & _ & _ & _ & S). unfold add_hint in S. cbn [hints] in S. apply Forall_app in S as [_ S]. inversion S as [|? ? S1 _]; subst. cbn [fst] in S1.
    assert (N : Forall named (concat l)).
    { apply mapM_ret in H1 as (rs & R & -> & _). clear -R. induction R as [|n [es w] L rs E R IH]; [constructor|]. cbn [map fst concat]. apply Forall_app. split; [|exact IH]. clear -E.
      unfold nested_type in E. destruct (n_base n); try (apply mret_ret in E as [<- _]; constructor; [apply named_create|constructor]).
      destruct (String.eqb _ ""); [apply mret_ret in E as [<- _]; constructor; [apply named_create|constructor]|]. apply mbind_ret in E as (b & w1 & w2 & _ & E & _).
      destruct b, (s_variable (n_symbol n)); try (apply mret_ret in E as [<- _]; constructor; [apply named_create|constructor]).
      apply mbind_ret in E as (u & w3 & w4 & _ & E & _). apply mret_ret in E as [<- _]. constructor. }
    rewrite Forall_forall in *. intros x Hx. split; auto.
  Qed.
  Lemma picked_good : forall d l vs, small d -> Forall (fun s => forall m, In (MValue m) (sc_elements s) -> plain_type fuel r (vd_type (m_value m))) l ->
    picked (fetch_enum d) (secs l) vs -> Forall (fun i => Forall good (fst i)) vs.
  Proof.
    intros d l vs Hd Hp H. remember (secs l) as L eqn:HL. revert l Hp HL. induction H as [|s [v p] L vs [(w & Ex) _] R IH]; intros l Hp HL.
    - constructor.
    - destruct l as [|x l]; [discriminate|]. cbn in HL. injection HL as -> ->. inversion Hp; subst. constructor; [|eapply IH; [eassumption|reflexivity]]. cbn [fst] in *.
      eapply fetch_enum_good; [exact Hd|eassumption|exact Ex].
  Qed.
  Lemma of_class_incl : forall A c (l : list (msection A)) (P : msection A -> Prop), Forall P l -> Forall P (of_class c l).
  Proof. intros A c l P H. unfold of_class. rewrite Forall_forall in *. intros x Hx. apply filter_In in Hx as [Hx _]. auto. Qed.
  Lemma written_incl : forall A (l : list (msection A)) (P : msection A -> Prop), Forall P l -> Forall P (filter written l).
  Proof. intros A l P H. rewrite Forall_forall in *. intros x Hx. apply filter_In in Hx as [Hx _]. auto. Qed.
  Lemma sections_good : forall d l d0 d1 w, small d -> Forall (fun s => forall m, In (MValue m) (sc_elements s) -> plain_type fuel r (vd_type (m_value m))) l ->
    good_data d0 -> foldW (extract_section false (fetch_enum d)) d0 (secs l) = ret (d1, w) -> good_data d1.
  Proof.
    intros d l d0 d1 w Hd Hp (G1 & G2 & G3 & G4 & G5) H. apply sections_data in H as (_ & vs & ss & dd & P1 & P2 & P3 & ->).
    unfold members in P1. unfold sample_sections in P2. unfold default_sections in P3. rewrite of_class_map in P1, P2, P3. rewrite written_map in P2, P3.
    apply picked_good in P1; [|exact Hd|now apply of_class_incl]. apply picked_good in P2; [|exact Hd|now apply written_incl, of_class_incl]. apply picked_good in P3; [|exact Hd|now apply written_incl, of_class_incl].
    unfold good_data. cbn [inlines values defaults samples hints]. rewrite !Forall_app. now repeat split.
  Qed.

  (** * Members *)
  Lemma extract_value_ok : forall V vc (fetch : mmember conv -> M V) definition m, (inline_values (m_value m) <> [] -> ok (fetch m)) -> (forall d, ok (definition d)) -> ok (extract_value vc fetch definition m).
  Proof.
    intros V vc fetch definition m Hf Hd. unfold extract_value. unfold inline_values, object_base in Hf.
    assert (G : (vd_values (m_value m) <> [] -> ok (fetch m)) -> ok (mbind
        match vd_values (m_value m) with
        | v :: _ =>
          if N.testbit (td_attrs (vd_type (m_value m))) DefaultTA then mbind (fetch m) (fun x => mret (add_default no_data (x, m_value_map m)))
          else if (N.testbit (td_attrs (vd_type (m_value m))) SampleTA || (vc && v_variable v))%bool
               then mbind (fetch m) (fun x => mret (add_sample no_data (x, m_value_map m)))
               else mbind (fetch m) (fun x => mret (add_inline no_data (x, m_value_map m)))
        | [] =>
          mbind (when (N.testbit (td_attrs (vd_type (m_value m))) DefaultTA) (say (mson_warning "no value present when 'default' is specified" (m_map m)))) (fun _ =>
          mbind (when (N.testbit (td_attrs (vd_type (m_value m))) SampleTA) (say (mson_warning "no value present when 'sample' is specified" (m_map m)))) (fun _ =>
          mret no_data))
        end
        (fun d =>
          let d := if String.eqb (m_description m) "" then d else add_description d (m_description m, m_description_map m) in
          match vd_values (m_value m), t_nested (td_spec (vd_type (m_value m))) with
          | [], _ | _, _ :: _ :: _ => definition d
          | _, _ => mret d
          end))).
    { intros Hv. apply ok_bind.
      - destruct (vd_values (m_value m)) as [|v l].
        + apply ok_bind; [apply ok_when, ok_say|]. intros _ _ _. apply ok_bind; [apply ok_when, ok_say|]. intros _ _ _. apply ok_ret.
        + assert (F : ok (fetch m)) by (apply Hv; discriminate). destruct (N.testbit _ DefaultTA); [|destruct (_ || _)%bool]; (apply ok_bind; [exact F|]; intros; apply ok_ret).
      - intros d w _. cbv zeta. destruct (vd_values (m_value m)), (t_nested (td_spec (vd_type (m_value m)))) as [|? [|? ?]]; try apply Hd; apply ok_ret. }
    destruct (td_base (vd_type (m_value m))); try (apply G; exact Hf); apply ok_ret.
  Qed.
  Lemma text_kind_values : forall d (m : mmember melement) k, member_kind fuel r d m k -> is_primitive k = true -> (primitive_type fuel r (vd_type (m_value m)) -> List.length (inline_values (m_value m)) <= 1) -> List.length (inline_values (m_value m)) <= 1.
  Proof.
    intros d m k K P H. assert (L : List.length (inline_values (m_value m)) <= List.length (vd_values (m_value m))) by (unfold inline_values; destruct (object_base _); cbn; lia).
    destruct K as [b Hb Hb'|k B Ln Kn|U Hl|U Hl Ho|U Hl Hn Hm]; try (clear -P; discriminate).
    - apply H. left. rewrite Hb. destruct b; cbn in P; try discriminate; cbn; tauto.
    - apply H. right. split; [exact B|]. split; [exact Ln|]. exists k. split; [exact Kn|]. destruct k; try discriminate; cbn; tauto.
    - lia.
  Qed.
  Lemma enum_kind_type : forall d (m : mmember melement), member_kind fuel r d m KEnum -> small d -> enum_type fuel r (vd_type (m_value m)).
  Proof.
    intros d m K P. remember KEnum as k eqn:Hk. destruct K as [b Hb Hb'|k B Ln Kn|U Hl|U Hl Ho|U Hl Hn Hm]; try discriminate.
    - left. rewrite Hb. now destruct b.
    - right. subst k. now split.
    - destruct d; discriminate.
  Qed.
  Lemma value_ok : forall d m k, small d -> member_kind fuel r d m k -> value_kind k -> member_fine fuel r m -> all_sections conv_ok (m_sections m) ->
    ok (element_from_value fuel r k (thunk m)).
  Proof.
    intros d m k Hd K V [[C Hen] Hp] A.
    assert (T : is_primitive k = true -> ok (value_of_text k (thunk m))).
    { intros P. unfold value_of_text. apply ok_bind.
      - apply extract_value_ok; [|intros; apply ok_ret]. intros Nv. cbn [member_map m_value] in Nv. unfold value_text. cbn [member_map m_value].
        assert (L := text_kind_values d m k K P Hp). unfold inline_values in *. destruct (object_base (m_value m)); [congruence|]. destruct (vd_values (m_value m)) as [|v [|v' l]]; [congruence|apply ok_ret|cbn in L; lia].
      - intros d1 w _. apply ok_bind; [apply sections_ok; cbn [member_map m_sections]; now apply text_sections|]. intros d2 w2 _. apply ok_bind; [|intros; apply ok_ret].
        unfold finish_text. apply ok_bind; [|intros; apply ok_ret]. apply ok_mapM. intros i _. unfold check_text. destruct k; try apply ok_ret; [destruct (literal_number (fst i))|destruct (literal_boolean (fst i))]; try apply ok_ret; apply ok_say. }
    assert (Li : k = KArray \/ k = KObject -> ok (value_of_list fuel r k (thunk m))).
    { intros P. unfold value_of_list. apply ok_bind; [apply extract_value_ok; [intros _; apply ok_ret|intros; apply definition_ok]|]. intros d1 w _.
      apply ok_bind; [apply sections_ok; cbn [member_map m_sections]; apply list_sections; [apply small_nested|exact C|exact A]|]. intros d2 w2 _. apply ok_bind; [apply ok_ret|intros; apply ok_ret]. }
    destruct V as [<-|[<-|[<-|[<-|[<-|[<-|[]]]]]]]; try (now apply T); try (apply Li; tauto). cbn [element_from_value].
    assert (Et := enum_kind_type d m K Hd). specialize (Hen Et). unfold value_of_enum. apply ok_bind.
    - apply extract_value_ok; [|intros; apply definition_ok]. intros _. unfold value_enum. apply ok_quiet, mapR_ok. intros v _. destruct (fix_literal_ok (create (nested_of (thunk m)) (v_literal v) eValue)) as (e & E & _); [apply sane_create|eauto].
    - intros d1 w1 E1. apply ok_bind; [apply sections_ok; cbn [member_map m_sections]; apply enum_sections; [apply small_nested|exact C|exact A]|]. intros d2 w2 E2. cbn [member_map m_sections] in E2.
      apply ok_bind; [|intros; apply ok_ret]. apply finish_enum_ok. eapply sections_good; [apply small_nested|exact Hen| |exact E2].
      apply extract_value_data in E1. cbn [member_map m_value] in E1. destruct (object_base (m_value m)); [destruct E1 as [-> _]; unfold good_data, no_data; cbn; repeat split; constructor|].
      destruct E1 as (xs & ws & wd & X1 & X2 & _).
      assert (Gx : Forall (fun i => Forall good (fst i)) xs).
      { destruct (vd_values (m_value m)); [destruct X1 as [-> _]; constructor|]. destruct X1 as (x & Ex & ->). constructor; [|constructor]. cbn [fst].
        assert (Sx := Ex). apply value_enum_sane in Sx. unfold value_enum in Ex. apply quiet_ret in Ex as [Ex _]. apply mapR_ret in Ex. clear -Ex Sx.
        induction Ex as [|v e l l' E F IH]; [constructor|]. inversion Sx; subst. constructor; [|auto]. split; [assumption|]. apply fix_literal_version in E; [|apply sane_create]. eapply named_version; [exact E|apply named_create]. }
      cbv zeta in X2. set (u := use_of true (m_value m)) in *.
      assert (G0 : good_data (Data (if_use AsValue u xs) [] (if_use AsDefault u xs) (if_use AsSample u xs) [] (own_description (thunk m)))) by (unfold good_data; cbn; destruct u; cbn; repeat split; try constructor; assumption).
      destruct (hinted (m_value m)); [|destruct X2 as [-> _]; exact G0].
      apply hints_good in X2 as (hs & -> & Gh).
      + destruct G0 as (G1 & G2 & G3 & G4 & G5). unfold good_data, add_hint. cbn [inlines values defaults samples hints] in *. repeat split; try assumption. constructor; [exact Gh|constructor].
      + destruct G0 as (G1 & G2 & G3 & G4 & G5). assert (Z : forall l : list (list element * places), Forall (fun i => Forall good (fst i)) l -> Forall (fun i => Forall sane (fst i)) l).
        { intros l F. eapply Forall_impl; [|exact F]. intros i Fi. eapply Forall_impl; [|exact Fi]. now intros x [Hx _]. }
        unfold sane_data. repeat split; now apply Z.
  Qed.
  Lemma member_ok : forall d m invoke, (forall k, member_kind fuel r d m k -> value_kind k -> ok (invoke k)) -> ok (member_to_refract fuel r d (thunk m) invoke).
  Proof.
    intros d m invoke H. unfold member_to_refract. destruct (resolve_ok (td_spec (vd_type (m_value (thunk m))))) as (b & E). apply ok_bind; [apply ok_quiet; eauto|].
    intros b' w E'. apply quiet_ret in E' as [E' _]. apply ok_bind; [apply clash_ok|]. intros _ _ _. apply H; [now apply chosen_kind|apply choose_kind_value].
  Qed.
  Definition alternative_fine (x : melement) : Prop := convertible fuel r x \/ exists g, x = MGroup g /\ Forall (convertible fuel r) g.
  Theorem convertible_ok : forall x, (convertible fuel r x -> conv_ok x) /\ (alternative_fine x -> ok (snd (convert fuel r x))).
  Proof.
    assert (Sec : forall l, all_sections (fun x => (convertible fuel r x -> conv_ok x) /\ (alternative_fine x -> ok (snd (convert fuel r x)))) l ->
      Forall (fun s => Forall (convertible fuel r) (sc_elements s)) l -> all_sections conv_ok l).
    { intros l A F. unfold all_sections in *. rewrite Forall_forall in *. intros s Hs. specialize (A s Hs). specialize (F s Hs). rewrite Forall_forall in *. intros x Hx. destruct (A x Hx) as [A1 _]. apply A1. now apply F. }
    assert (Alt : forall x, snd (convert fuel r x) = mbind (to_apie fuel r x StringTN) (fun o => mret (option_of o)) -> (forall g, x <> MGroup g) -> (convertible fuel r x -> conv_ok x) ->
      (convertible fuel r x -> conv_ok x) /\ (alternative_fine x -> ok (snd (convert fuel r x)))).
    { intros x E Ng C. split; [exact C|]. intros [A|(g & -> & _)]; [|now destruct (Ng g)]. rewrite E. apply ok_bind; [now apply C|]. intros. apply ok_ret. }
    apply melement_ind'.
    - split; [intros H; inversion H|]. intros [H|(g & H & _)]; [inversion H|discriminate].
    - intros n m A. apply Alt; [reflexivity|discriminate|]. intros H. inversion H as [n' m' Hk Hm Hs| | |]; subst. intros d Hd. unfold to_apie. cbn [convert fst]. change (fun x => fst (convert fuel r x)) with (to_apie fuel r).
      apply member_ok. intros k K V. unfold element_from_property. apply ok_bind; [now apply key_ok|]. intros key w E. apply property_key_shape in E as (E & _).
      destruct (valid_ok n key E) as (b & ->). apply ok_bind; [apply ok_quiet; now exists b|]. intros b' w' _. destruct b'; [|apply ok_ret].
      apply ok_bind; [eapply value_ok; try eassumption; now apply Sec|]. intros. apply ok_ret.
    - intros m A. apply Alt; [reflexivity|discriminate|]. intros H. inversion H as [|m' Hm Hs| |]; subst. intros d Hd. unfold to_apie. cbn [convert fst]. change (fun x => fst (convert fuel r x)) with (to_apie fuel r).
      apply member_ok. intros k K V. unfold element_of_value. apply ok_bind; [eapply value_ok; try eassumption; now apply Sec|]. intros. apply ok_ret.
    - intros t. apply Alt; [reflexivity|discriminate|]. intros H. inversion H as [| |t' Hn|]; subst. intros d Hd. unfold to_apie. cbn [convert fst]. unfold mixin_to_apie. apply ok_bind; [|intros; apply ok_ret].
      apply ok_quiet. unfold apie_symbol. rewrite Hn. destruct (symbol_empty (n_symbol (t_name (td_spec t)))) eqn:Se; [|eauto]. unfold name_empty in Hn. destruct (n_base (t_name (td_spec t))); eauto. congruence.
    - intros l A. assert (O : Forall (fun x => alternative_fine x) l -> ok (mbind (mapM (fun x => snd (convert fuel r x)) l) (fun os => mret (select_of os)))).
      { intros F. apply ok_bind; [|intros; apply ok_ret]. apply ok_mapM. intros x Hx. rewrite Forall_forall in A, F. destruct (A x Hx) as [_ Ax]. apply Ax. now apply F. }
      unfold conv_ok, to_apie. cbn [convert]. cbv zeta. cbn [fst snd].
      assert (Inv : convertible fuel r (MOneOf l) -> Forall (fun x => alternative_fine x) l) by (intros H; inversion H; assumption). split.
      + intros H d _. apply ok_bind; [apply O, Inv, H|]. intros. apply ok_ret.
      + intros [H|(g & H & _)]; [|discriminate]. apply ok_bind; [apply O, Inv, H|]. intros. apply ok_ret.
    - intros l A. split; [intros H; inversion H|]. intros [H|(g & H & G)]; [inversion H|]. injection H as <-. cbn [convert snd]. apply ok_bind; [|intros; apply ok_ret].
      apply sections_to_ok; [reflexivity|]. rewrite Forall_forall in *. intros x Hx. destruct (A x Hx) as [Ax _]. apply Ax. now apply G.
  Qed.

  Theorem structure_ok : forall s, structure_fine fuel r s -> ok (structure_to_refract fuel r s).
  Proof.
    intros s [[C Hen] F]. assert (A : all_sections conv_ok (ds_sections s)).
    { unfold all_sections. rewrite Forall_forall in *. intros x Hx. specialize (F x Hx). rewrite Forall_forall in *. intros y Hy. apply convertible_ok. now apply F. }
    unfold structure_to_refract. destruct (structure_empty s); [apply ok_ret|]. destruct (resolve_ok (td_spec (ds_type s))) as (b & E). apply ok_bind; [apply ok_quiet; eauto|].
    intros b' w E'. apply quiet_ret in E' as [E' _]. apply ok_bind; [|intros; apply ok_ret].
    assert (T : forall k, ok (structure_of fuel r true fetch_text mret (finish_text k) k s)).
    { intros k. unfold structure_of. apply ok_bind; [apply ok_ret|]. intros d1 w1 _. apply ok_bind; [apply sections_ok; now apply text_sections|]. intros d2 w2 _.
      unfold finish_text. apply ok_bind; [|intros; apply ok_ret]. apply ok_mapM. intros i _. unfold check_text. destruct k; try apply ok_ret; [destruct (literal_number (fst i))|destruct (literal_boolean (fst i))]; try apply ok_ret; apply ok_say. }
    assert (L : forall k, ok (structure_of fuel r false (fetch_elements (select_nested (t_nested (td_spec (ds_type s))))) (extract_definition fuel r (ds_type s) (ds_type_map s)) (finish_list k) k s)).
    { intros k. unfold structure_of. apply ok_bind; [apply definition_ok|]. intros d1 w1 _. apply ok_bind; [apply sections_ok; apply list_sections; [apply small_nested|exact C|exact A]|]. intros d2 w2 _. apply ok_ret. }
    apply resolved_kind in E'. assert (Ek : kind_of b' = KEnum -> enum_type fuel r (ds_type s)).
    { intros Kb. rewrite Kb in E'. remember KEnum as k eqn:Hk. destruct E' as [b0 Hb Hb'|k Hb Hl Hn|U]; try discriminate; [left; rewrite Hb; now destruct b0|right; subst k; now split]. }
    destruct (kind_of b') eqn:Kb; try apply T; try apply L. specialize (Hen (Ek eq_refl)).
    unfold structure_of. apply ok_bind; [apply definition_ok|]. intros d1 w1 E1. apply ok_bind; [apply sections_ok; apply enum_sections; [apply small_nested|exact C|exact A]|]. intros d2 w2 E2.
    apply finish_enum_ok. eapply sections_good; [apply small_nested|exact Hen| |exact E2]. apply hints_good in E1 as (hs & -> & Gh); [|apply no_data_sane].
    unfold good_data, add_hint, no_data. cbn [inlines values defaults samples hints app]. repeat split; constructor; [exact Gh|constructor].
  Qed.
End Total.

(** enough steps for a registry *)
Lemma ancestors_of : forall r, (forall n, rooted r n) -> exists f0, forall f, f0 <= f -> ancestors_end f r.
Proof.
  intros r H. assert (G : forall l : list string, exists f0, forall f, f0 <= f -> forall n, In n l -> FindRootAncestor f r n <> None).
  { induction l as [|n l (f0 & IH)]; [exists 0; intros f _ n []|]. destruct (rooted_root r n (H n)) as (f1 & o & Hf). exists (max f0 f1). intros f Hm x [<-|Hx]; [rewrite Hf; [discriminate|lia]|apply IH; [lia|exact Hx]]. }
  destruct (G (map fst r)) as (f0 & G0). exists f0. intros f Hf n. destruct (rfind r n) as [e|] eqn:E; [|unfold FindRootAncestor; now rewrite E].
  apply G0; [exact Hf|]. unfold rfind in E. apply ifind_In in E. now apply (in_map fst) in E.
Qed.
