(** C48: what data structures are expanded to is ready for generation *)
From Verif Require Import Base Element ElementSpec ElementProofs InfoProofs Extend Registry Expand ExpandSpec ExpandProofs ExpandShape ExpandClosed ElementUtils GenConv Depth BodyProofs MsonSane ReadySpec ReadyProofs.

Definition fit_piece (r : registry) (x : element) : Prop :=
  tame_piece r x /\ (forall v, In ("typeAttributes"%string, v) (eattrs x) -> ehas v = true) /\
  (forall k v, In (k, v) (emeta x) -> no_mixin v) /\ (ehas x = false -> dsd_children (edata x) = []) /\
  match edata x with
  | DMember k v => ename x = "member"%string /\ ehas x = true /\ (exists key, k = Some key /\ ekind key = KString) /\ v <> None
  | DEnum o => (ehas x = true -> o <> None) /\ forall v, In ("enumerations"%string, v) (eattrs x) -> ehas v = true /\ ekind v = KArray
  | DSelect l => ename x = "select"%string /\ Forall (fun o => ekind o = KOption) l
  | DOption _ => ename x = "option"%string /\ ehas x = true
  | DRef _ => ename x = "ref"%string /\ ehas x = true
  | DHolder _ | DExtend _ => False
  | _ => True
  end.
Definition fit (r : registry) (e : element) : Prop := everywhere (fit_piece r) e.

Section Fit.
  Context (r : registry).
  Hypothesis Hr : forall n p, rfind r n = Some p -> fit r p.
  Lemma every_sub : forall P e x, everywhere P e -> sub x e -> everywhere P x.
  Proof. intros P e x H S y Hy. apply H. clear H. induction S as [|x0 c e0 Hc Hs IH]; [exact Hy|]. apply sub_step with c; [exact Hc|now apply IH]. Qed.
  Lemma fit_ready : forall e, fit r e -> no_mixin e -> ready e.
  Proof.
    intros e F N x Hx. assert (Fx : fit r x) by (now apply (every_sub _ e)). destruct (F x Hx) as ((_ & _ & T) & A & M & Ch & D). specialize (N x Hx). split; [exact A|]. unfold ekind in N.
    assert (C := every_data (fit_piece r) x). destruct (edata x) as [|o|s|s|b|l|k v|l|o|s|l|l|l] eqn:E; auto; try (now destruct D); try (now cbn in N).
    - destruct D as (_ & H & (key & -> & K) & V). split; [exact H|]. split; [|exact V]. destruct T as (_ & T). unfold ekind in K. destruct (edata key) as [| |s| | | | | | | | | |] eqn:Ek; try discriminate. now exists key, s.
    - destruct D as (_ & D). split; [exact T|]. rewrite Forall_forall in *. intros o Ho. specialize (D o Ho). split; [exact D|]. destruct (every_here _ _ (C o Fx Ho)) as (_ & _ & _ & _ & Do). unfold ekind in D. destruct (edata o); try discriminate. apply Do.
  Qed.
  Lemma inert_no_mixin : forall e, fit r e -> expandable e = Some false -> no_mixin e.
  Proof.
    induction e as [e IH] using (well_founded_induction (well_founded_ltof _ esize)). unfold ltof in IH. intros F X.
    destruct (every_here _ _ F) as ((Ta & _) & _ & M & Ch & D). assert (C := every_data (fit_piece r) e).
    assert (G : ekind e <> KRef -> (forall c, In c (dsd_children (edata e)) -> ehas e = true -> expandable c = Some false) -> no_mixin e).
    { intros K H x Hx. inversion Hx as [|y c e0 Hc Hs]; subst; [exact K|]. unfold children in Hc. apply in_app_or in Hc as [Hc|Hc].
      - apply in_map_iff in Hc as ((k & v) & <- & Hv). now apply (M k v).
      - apply in_app_or in Hc as [Hc|Hc]; [apply in_map_iff in Hc as ((k & v) & <- & Hv); now apply (Ta k v)|]. destruct (ehas e) eqn:Eh; [|rewrite (Ch eq_refl) in Hc; destruct Hc].
        apply (IH c); [apply child_smaller, in_data_child; exact Hc|now apply C|now apply H|exact Hs]. }
    rewrite expandable_unfold in X. cbv zeta in X. unfold ekind in G. destruct (edata e) as [|o|s|s|b|l|k v|l|o|s|l|l|l] eqn:E; try contradiction; try discriminate; try (apply G; [discriminate|intros c Hc; destruct Hc]; fail).
    - apply G; [discriminate|]. intros c Hc Eh. rewrite Eh in X. apply oor_false in X as [_ X]. now apply any_false with l.
    - apply G; [discriminate|]. intros c Hc Eh. rewrite Eh in X. apply oor_false in X as [_ X]. apply oor_false in X as [X1 X2]. cbn in Hc. apply in_app_or in Hc as [Hc|Hc]; [destruct k as [y|]|destruct v as [y|]]; try (now destruct Hc); destruct Hc as [<-|[]]; assumption.
    - apply G; [discriminate|]. intros c Hc Eh. rewrite Eh in X. apply oor_false in X as [_ X]. now apply any_false with l.
    - apply G; [discriminate|]. intros c Hc Eh. rewrite Eh in X. apply oor_false in X as [_ X]. apply oor_false in X as [X _]. cbn in Hc. destruct o as [y|]; [|destruct Hc]. destruct Hc as [<-|[]]. exact X.
    - apply G; [discriminate|]. intros c Hc Eh. rewrite Eh in X. apply oor_false in X as [_ X]. now apply any_false with l.
    - apply G; [discriminate|]. intros c Hc Eh. rewrite Eh in X. apply oor_false in X as [_ X]. now apply any_false with l.
  Qed.
  Lemma fit_elem : forall n m a h d, fit r (Elem n m a h d) <-> fit_piece r (Elem n m a h d) /\ Forall (fun kv => fit r (snd kv)) m /\ Forall (fun kv => fit r (snd kv)) a /\ Forall (fit r) (dsd_children d).
  Proof. intros. apply every_elem. Qed.
  (** attributes and meta data are copied, not expanded *)
  Lemma fit_info : forall e, fit r e -> Forall (fun kv => ready (snd kv)) (emeta e) /\ Forall (fun kv => ready (snd kv)) (eattrs e).
  Proof.
    intros e F. destruct (every_here _ _ F) as ((Ta & _) & _ & M & _ & _). destruct e as [n m a h d]. apply fit_elem in F as (_ & Fm & Fa & _). cbn [emeta eattrs] in *.
    rewrite Forall_forall in Fm, Fa. split; apply Forall_forall; intros [k v] H; apply fit_ready; [apply (Fm _ H)|now apply (M k v)|apply (Fa _ H)|now apply (Ta k v)].
  Qed.
  Definition post (e : element) (o : option element) : Prop :=
    let y := match o with Some y => y | None => e end in ready y /\ (is_reserved (ename e) = true -> ekind y = ekind e /\ ehas y = ehas e).
  Lemma copy_same : forall l, copy_info l = l.
  Proof. intros l. apply copy_id. Qed.
  Lemma ready_str : forall s, ready (make_element (DString s)).
  Proof. intros s. apply every_elem. split; [|repeat split; constructor]. split; [intros v []|exact I]. Qed.
  Lemma ierase_ready : forall (l : info) k, Forall (fun kv => ready (snd kv)) l -> Forall (fun kv => ready (snd kv)) (ierase l k).
  Proof. intros l k H. unfold ierase. rewrite Forall_forall in *. intros x Hx. apply filter_In in Hx as [Hx _]. now apply H. Qed.
  Lemma found_ready : forall (l : info) k v, Forall (fun kv => ready (snd kv)) l -> ifind l k = Some v -> ready v.
  Proof. intros l k v H F. apply ifind_In in F. rewrite Forall_forall in H. apply (H _ F). Qed.
  Lemma copy_meta_id_ready : forall d e, ready d -> fit r e -> ready (copy_meta_id d e).
  Proof.
    intros d e D E. unfold copy_meta_id. destruct (ifind (emeta e) "id") as [i|] eqn:F; [|exact D]. destruct (ehas i); [|exact D]. apply ready_with_meta; [exact D|]. rewrite clone_same.
    apply iset_all; [|apply (ready_parts d D)]. apply (found_ready (emeta e) "id"); [apply (fit_info e E)|exact F].
  Qed.
  Lemma to_ref_ready : forall e, ready e -> ready (meta_id_to_ref e).
  Proof.
    intros e E. unfold meta_id_to_ref. destruct (ifind (emeta e) "id") as [i|] eqn:F; [|exact E]. destruct (ehas i); [|exact E]. apply ready_with_meta; [exact E|]. rewrite clone_same. destruct (ready_parts e E) as (_ & M & _).
    apply ierase_ready, iset_all; [|exact M]. now apply (found_ready (emeta e) "id").
  Qed.
  (** the named types an element inherits from are of its kind *)
  Definition named (e : element) : Prop := is_reserved (ename e) = false /\ mergeable (ekind e).
  Lemma fit_named : forall e, fit r e -> is_reserved (ename e) = false -> ekind e <> KNull -> mergeable (ekind e).
  Proof.
    intros e F N K. destruct (every_here _ _ F) as (_ & _ & _ & _ & D). unfold mergeable, ekind in *. destruct (edata e); cbn in *; auto 10; try congruence; try contradiction; destruct D as [D _]; rewrite D in N; discriminate.
  Qed.
  Lemma tagged_fit : forall n p, fit r p -> mergeable (ekind p) -> fit r (tagged n p) /\ ekind (tagged n p) = ekind p /\ is_reserved (ename (tagged n p)) = true.
  Proof.
    intros n p F M. assert (R : is_reserved (kind_name (ekind p)) = true) by (apply kind_name_reserved; intros E; rewrite E in M; cbn in M; intuition discriminate).
    unfold tagged. cbv zeta. rewrite clone_unfold. cbn [cElement cMeta cAttributes cValue cNoMetaId emeta set_meta ekind edata ename].
    assert (H0 := every_here _ _ F). destruct p as [n0 m a h d]. cbn [ekind edata ename emeta eattrs ehas] in *. apply fit_elem in F as (_ & Fm & Fa & Fd). split; [|split; [reflexivity|exact R]].
    apply fit_elem. destruct H0 as ((T1 & T2 & T3) & A & M0 & Ch & D). cbn [edata ename emeta eattrs ehas ekind] in *.
    assert (Fs : Forall (fun kv => fit r (snd kv)) (iset (ierase m "id") "ref" (make_element (DString n)))).
    { apply iset_all; [|unfold ierase; rewrite Forall_forall in *; intros x Hx; apply filter_In in Hx as [Hx _]; now apply Fm]. apply fit_elem. split; [|repeat split; constructor].
      repeat split; try (intros k v []); try (intros v []); try (intros; discriminate); exact I. }
    split; [|split; [exact Fs|split; [exact Fa|exact Fd]]].
    split; [split; [exact T1|split; [intros Hn; cbn [ename] in Hn; exfalso; unfold ekind in Hn, R; cbn [edata] in Hn, R; rewrite R in Hn; discriminate|]]|split; [exact A|split; [|split; [exact Ch|]]]]; cbn [edata ehas].
    - unfold ekind in M. cbn [edata] in M. destruct d; auto; try (exfalso; cbn in M; intuition discriminate).
    - intros k v Hv. cbn [emeta] in Hv. apply iset_in in Hv as [[_ ->]|Hv]; [intros x Hx; inversion Hx as [|? c ? Hc]; subst; [discriminate|destruct Hc]|].
      unfold ierase in Hv. apply filter_In in Hv as [Hv _]. now apply (M0 k v).
    - unfold ekind in M. cbn [edata] in M. destruct d; auto; try (exfalso; cbn in M; intuition discriminate).
  Qed.
  Definition link (k : kind) (x : element) : Prop := fit r x /\ ekind x = k /\ is_reserved (ename x) = true.
  Lemma inheritance_fit : forall f n seen l k, mergeable k -> (is_reserved n = false -> forall p, rfind r n = Some p -> ekind p = k) -> Forall (fun ne => link k (snd ne)) seen -> inheritance f r n seen = Some (Some l) ->
    Forall (fun ne => link k (snd ne)) l.
  Proof.
    induction f as [|f IH]; intros n seen l k M K S H; cbn [inheritance] in H; [discriminate|]. destruct (rfind r n) as [p|] eqn:E; [|now injection H as <-]. destruct (is_reserved n) eqn:Rn; [now injection H as <-|].
    destruct (existsb _ seen); [discriminate|]. assert (Fp := Hr n p E). assert (Kp : ekind p = k) by now apply K. apply (IH _ _ _ k) in H; [exact H|exact M| |].
    - intros Rp q Hq. destruct (every_here _ _ Fp) as ((_ & T & _) & _). rewrite (T Rp q Hq). exact Kp.
    - constructor; [|exact S]. cbn [snd]. destruct (tagged_fit n p Fp) as (A & B & C); [now rewrite Kp|]. split; [exact A|]. split; [congruence|exact C].
  Qed.
  Lemma root_fit : forall f n p o k, rfind r n = Some p -> ekind p = k -> find_root_from f r n p = Some o -> fit r o /\ ekind o = k.
  Proof.
    induction f as [|f IH]; intros n p o k E K H; [discriminate|]. cbn [find_root_from] in H. assert (Fp := Hr n p E). destruct (is_reserved (ename p)) eqn:Rp; [injection H as <-; now split|].
    destruct (rfind r (ename p)) as [q|] eqn:Eq; [|injection H as <-; now split]. destruct (String.eqb _ _); [injection H as <-; now split|]. apply (IH (ename p) q o k Eq); [|exact H].
    destruct (every_here _ _ Fp) as ((_ & T & _) & _). rewrite (T Rp q Eq). exact K.
  Qed.
  Section Round.
    Context (rec : list string -> element -> run (option element)).
    Hypothesis R : forall ms e, fit r e -> yields (rec ms e) (post e).
    Lemma eoc_fit : forall ms e, fit r e -> yields (expand_or_clone rec ms e) (fun y => post e (Some y)).
    Proof.
      intros ms e E. unfold expand_or_clone. eapply yields_bind; [apply (R ms e E)|]. intros o H. apply yields_ret. destruct o as [y|]; [exact H|]. rewrite clone_same. exact H.
    Qed.
    Lemma list_fit : forall ms l (P : element -> Prop), Forall (fit r) l -> (forall x y, In x l -> post x (Some y) -> P y) -> yields (mapR (expand_or_clone rec ms) l) (Forall P).
    Proof. intros ms l P L H. apply yields_mapR. intros x Hx. rewrite Forall_forall in L. eapply yields_impl; [apply eoc_fit; now apply L|]. intros y Y. now apply (H x y). Qed.
    Lemma list_ready : forall ms l, Forall (fit r) l -> yields (mapR (expand_or_clone rec ms) l) (Forall ready).
    Proof. intros ms l L. apply list_fit; [exact L|]. intros x y _ [H _]. exact H. Qed.
    Lemma ready_made : forall d m a h, mergeable (dsd_kind d) -> Forall ready (dsd_children d) -> Forall (fun kv => ready (snd kv)) m -> Forall (fun kv => ready (snd kv)) a -> (forall v, In ("typeAttributes"%string, v) a -> ehas v = true) ->
      (forall o, d = DEnum o -> (h = true -> o <> None) /\ forall v, In ("enumerations"%string, v) a -> ehas v = true /\ ekind v = KArray) -> forall n, ready (Elem n m a h d).
    Proof.
      intros d m a h M C Hm Ha T E n. apply every_elem. split; [|split; [exact Hm|split; [exact Ha|exact C]]]. split; [exact T|]. cbn [edata ehas eattrs]. destruct d as [|o|s|s|b|l|k v|l|o|s|l|l|l]; try exact I; try (now apply E); exfalso; cbn in M; intuition discriminate.
    Qed.
    (** the element itself, its value expanded *)
    Lemma members_fit : forall ms e, fit r e -> mergeable (ekind e) -> yields (expand_members rec ms e) (fun y => ready y /\ ekind y = ekind e /\ ehas y = ehas e).
    Proof.
      intros ms e F M. destruct (every_here _ _ F) as (_ & A & _ & Ch & D). destruct (fit_info e F) as [Im Ia]. assert (C := fun x => every_data (fit_piece r) e x F). unfold expand_members.
      assert (G : forall d h, dsd_kind d = ekind e -> h = ehas e -> Forall ready (dsd_children d) -> (forall o, d = DEnum o -> h = true -> o <> None) ->
         yields (ret (set_meta (set_attrs (Elem (kind_name (ekind e)) [] [] h d) (copy_info (eattrs e))) (copy_info (emeta e)))) (fun y => ready y /\ ekind y = ekind e /\ ehas y = ehas e)).
      { intros d h K -> Cd Ed. apply yields_ret. rewrite !copy_same. cbn [set_attrs set_meta]. split; [|split; [exact K|reflexivity]]. apply ready_made; auto; [now rewrite K|]. intros o ->. split; [now apply Ed|].
        unfold ekind in K. destruct (edata e); try discriminate. apply D. }
      destruct (ehas e) eqn:Eh.
      - assert (V : yields (expand_value rec ms (edata e)) (fun d => dsd_kind d = ekind e /\ Forall ready (dsd_children d) /\ forall o, d = DEnum o -> o <> None)).
        { unfold ekind in *. destruct (edata e) as [|o|s|s|b|l|k v|l|o|s|l|l|l] eqn:Ed; cbn [expand_value]; try (exfalso; cbn in M; intuition discriminate); try (apply yields_ret; split; [reflexivity|split; [constructor|intros; discriminate]]).
          - eapply yields_bind; [apply (list_ready ms l); apply Forall_forall; exact C|]. intros l' L. apply yields_ret. split; [reflexivity|split; [exact L|discriminate]].
          - eapply yields_bind; [apply (list_ready ms l); apply Forall_forall; exact C|]. intros l' L. apply yields_ret. split; [reflexivity|split; [|discriminate]]. cbn. rewrite Forall_forall in *. intros x Hx. apply push_all_In in Hx as [[]|Hx]. now apply L.
          - destruct D as [D _]. destruct o as [x|]; [|now destruct (D eq_refl)]. cbn [expand_or_clone_ptr]. eapply yields_bind; [eapply yields_bind; [apply eoc_fit; apply C; now left|]; intros y [Hy _]; apply (yields_ret _ (Some y) (fun o' => exists y, o' = Some y /\ ready y)); now exists y|].
            intros o' (y & -> & Hy). apply yields_ret. split; [reflexivity|]. split; [constructor; [exact Hy|constructor]|]. intros o E0. injection E0 as <-. discriminate. }
        eapply yields_bind; [eapply yields_bind; [exact V|]; intros d Hd; apply (yields_ret _ (make_element d) (fun o => exists d, o = make_element d /\ dsd_kind d = ekind e /\ Forall ready (dsd_children d) /\ forall o, d = DEnum o -> o <> None)); now exists d|].
        intros o (d & -> & K & Cd & E0). unfold make_element. rewrite K. apply G; auto; intros o -> _; now apply E0.
      - eapply yields_bind with (P := fun o => o = make_empty (ekind e)); [now apply yields_ret|]. intros o ->. unfold make_empty. apply G; [|reflexivity| |intros; discriminate].
        + unfold ekind in *. destruct (dsd_kind (edata e)); reflexivity.
        + destruct (ekind e); constructor.
    Qed.
    Lemma named_fit : forall f ms e, fit r e -> is_reserved (ename e) = false -> mergeable (ekind e) -> yields (expand_named r rec f ms e) ready.
    Proof.
      intros f ms e F N M. destruct (every_here _ _ F) as ((_ & T & _) & _). specialize (T N). unfold expand_named. destruct (existsb _ ms).
      - unfold FindRootAncestor. destruct (rfind r (ename e)) as [p|] eqn:E; [|apply yields_undefined]. destruct (find_root_from f r (ename e) p) as [o|] eqn:Eo; [|apply yields_none]. cbn [option_map]. apply yields_ret.
        destruct (root_fit f (ename e) p o (ekind e) E (T p eq_refl) Eo) as [Fo Ko]. destruct (fit_info o Fo) as [Im Ia]. destruct (every_here _ _ Fo) as (_ & A & _ & _ & D). unfold circular. rewrite clone_unfold. cbn [cMeta cAttributes cValue cElement cNoMetaId set_meta emeta].
        apply ready_made.
        + assert (X : dsd_kind (dsd_default (ekind o)) = ekind o) by now destruct (ekind o). now rewrite X, Ko.
        + destruct (ekind o); constructor.
        + apply iset_all; [apply ready_str|now apply ierase_ready].
        + exact Ia.
        + exact A.
        + intros v Ev. split; [discriminate|]. unfold ekind in Ev. destruct (edata o); try discriminate. apply D.
      - destruct (inheritance_tree f r (ename e)) as [t|] eqn:Et; [|apply yields_none].
        assert (Ht : exists l, Forall (link (ekind e)) l /\ ((l = [] /\ t = make_empty KExtend) \/ (l <> [] /\ t = make_element (DExtend l)))).
        { unfold inheritance_tree in Et. destruct (inheritance f r (ename e) []) as [[[|x l]|]|] eqn:Ei; try discriminate.
          - exists []. split; [constructor|]. left. split; [reflexivity|]. congruence.
          - exists (map snd (x :: l)). split; [|right; split; [discriminate|congruence]]. apply Forall_map. apply (inheritance_fit f (ename e) [] (x :: l) (ekind e) M); [intros _; exact T|constructor|exact Ei].
          - exists []. split; [constructor|]. left. split; [reflexivity|]. congruence. }
        destruct Ht as (l & L & Ht).
        assert (X : yields (expand_members rec (ms ++ [ename e]) t) (fun ext => emeta ext = [] /\ eattrs ext = [] /\ Forall (fun y => ready y /\ ekind y = ekind e) (extend_content ext))).
        { unfold expand_members. destruct Ht as [[_ ->]|[_ ->]]; cbn [make_empty make_element ehas edata expand_value dsd_default].
          - eapply yields_bind; [apply (yields_ret _ _ (eq (make_empty KExtend))); reflexivity|]. intros o <-. apply yields_ret. cbn. repeat split; constructor.
          - eapply yields_bind with (P := fun o => exists l', o = make_element (DExtend l') /\ Forall (fun y => ready y /\ ekind y = ekind e) l').
            + eapply yields_bind; [eapply yields_bind; [apply (list_fit _ l (fun y => ready y /\ ekind y = ekind e))|]|].
              * eapply Forall_impl; [|exact L]. intros x Hx. apply Hx.
              * intros x y Hx [Ry Py]. rewrite Forall_forall in L. destruct (L x Hx) as (_ & Kx & Rx). split; [exact Ry|]. destruct (Py Rx) as [Ky _]. congruence.
              * intros l' Hl. apply (yields_ret _ (DExtend l') (fun d => exists l', d = DExtend l' /\ Forall (fun y => ready y /\ ekind y = ekind e) l')). now exists l'.
              * intros d (l' & -> & Hl). apply yields_ret. now exists l'.
            + intros o (l' & -> & Hl). apply yields_ret. cbn. repeat split; auto. }
        eapply yields_bind; [exact X|]. intros ext (Em & Ea & Hx). cbv zeta. eapply yields_bind; [apply (members_fit ms e F M)|]. intros o (Ro & Ko & _). apply yields_ret.
        assert (Eq : forall z, extend_content (copy_meta_id ext e) = extend_content ext /\ eattrs (eset (copy_meta_id ext e) z) = [] /\ edata (eset (copy_meta_id ext e) z) = z /\ ehas (eset (copy_meta_id ext e) z) = true /\ emeta (eset (copy_meta_id ext e) z) = emeta (copy_meta_id ext e)).
        { intros z. unfold copy_meta_id. destruct ext as [n0 m0 a0 h0 d0]. cbn in Em, Ea. subst. destruct (ifind (emeta e) "id") as [i|]; [destruct (ehas i)|]; cbn; repeat split. }
        set (z := DExtend _). destruct (Eq z) as (E1 & E2 & E3 & E4 & E5).
        assert (Mm : Forall (fun kv => ready (snd kv)) (emeta (copy_meta_id ext e))).
        { destruct (fit_info e F) as [Im _]. unfold copy_meta_id. destruct (ifind (emeta e) "id") as [i|] eqn:Fi; [destruct (ehas i)|]; try (rewrite Em; constructor). destruct ext as [n0 m0 a0 h0 d0]. cbn in Em. subst. cbn. rewrite clone_same.
          constructor; [|constructor]. now apply (found_ready (emeta e) "id"). }
        assert (Ho : ready (set_meta o (ierase (emeta o) "id")) /\ ekind (set_meta o (ierase (emeta o) "id")) = ekind e).
        { split; [apply ready_with_meta; [exact Ro|]; apply ierase_ready; apply (ready_parts o Ro)|rewrite set_meta_kind; exact Ko]. }
        assert (Hz : Forall (fun y => ready y /\ ekind y = ekind e) (dsd_children z)).
        { unfold z. rewrite E1. cbn [dsd_children]. apply Forall_app. split; [exact Hx|]. constructor; [exact Ho|constructor]. }
        destruct (eset (copy_meta_id ext e) z) as [n1 m1 a1 h1 d1]. cbn [eattrs edata ehas emeta] in *. subst. apply every_elem. split; [|split; [exact Mm|split; [constructor|]]].
        + split; [intros v []|]. cbn [edata ehas]. unfold z in *. cbn [dsd_children] in Hz. split; [reflexivity|]. split; [intros E0; apply app_eq_nil in E0 as [_ E0]; discriminate|]. exists (ekind e). split; [exact M|].
          eapply Forall_impl; [|exact Hz]. intros y Hy. apply Hy.
        + eapply Forall_impl; [|exact Hz]. intros y Hy. apply Hy.
    Qed.
    Lemma reference_fit : forall ms e s, fit r e -> edata e = DRef s -> yields (expand_reference r rec ms e) (fun y => post e (Some y)).
    Proof.
      intros ms e s F E. unfold expand_reference. cbv zeta. rewrite clone_same. destruct (every_here _ _ F) as ((_ & _ & T) & A & _ & _ & D). destruct (fit_info e F) as [Im Ia]. rewrite E in *. destruct D as [D1 D2]. destruct T as [T1 T2].
      unfold eget. rewrite D2, E. apply String.eqb_neq in T1. rewrite T1. destruct (existsb _ ms); [intros x; discriminate|]. destruct (rfind r s) as [p|] eqn:Ep; [|congruence]. clear T2.
      eapply yields_bind; [apply eoc_fit; now apply (Hr s)|]. intros x [Rx _]. apply yields_ret. destruct e as [n m a h d]. cbn [edata ehas eattrs emeta set_attrs] in *. subst.
      split; [|intros _; now split]. apply every_elem. split; [|split; [exact Im|split; [|constructor]]].
      - split; [intros v Hv; cbn [eattrs] in Hv; apply iset_in in Hv as [[Hv _]|Hv]; [discriminate|now apply A]|]. cbn [edata ehas eattrs]. split; [reflexivity|]. rewrite InfoProofs.iset_find. now rewrite String.eqb_refl.
      - apply iset_all; [now apply to_ref_ready|exact Ia].
    Qed.
    Lemma enum_attrs_fit : forall ms l acc, Forall (fun kv => fit r (snd kv)) l -> Forall (fun kv => no_mixin (snd kv)) l ->
      (forall v, In ("typeAttributes"%string, v) l -> ehas v = true) ->
      Forall (fun kv => ready (snd kv)) acc -> (forall v, In ("typeAttributes"%string, v) acc -> ehas v = true) -> (forall v, In ("enumerations"%string, v) acc -> ehas v = true /\ ekind v = KArray) ->
      yields (expand_enum_attrs rec ms l acc) (fun a => Forall (fun kv => ready (snd kv)) a /\ (forall v, In ("typeAttributes"%string, v) a -> ehas v = true) /\ forall v, In ("enumerations"%string, v) a -> ehas v = true /\ ekind v = KArray).
    Proof.
      intros ms l. induction l as [|[k x] l IH]; intros acc L Nm Ta A T E; cbn [expand_enum_attrs]; [apply yields_ret; repeat split; auto; apply E; assumption|]. inversion L as [|? ? Fx L']; inversion Nm as [|? ? Nx N']; subst. cbn [snd] in *.
      assert (Ta' : forall v, In ("typeAttributes"%string, v) l -> ehas v = true) by (intros v Hv; apply Ta; now right).
      destruct (String.eqb_spec k "enumerations") as [->|Nk].
      - assert (C := every_data (fit_piece r) x). destruct (edata x) as [| | | | |en| | | | | | |]; try exact (yields_undefined _ _). destruct (ehas x); [|apply yields_undefined].
        eapply yields_bind; [apply (list_ready ms en); apply Forall_forall; intros; now apply C|]. intros l2 L2. apply IH; auto.
        + apply iset_all; [|exact A]. apply ready_made; [cbn; auto 10|exact L2|constructor|constructor|intros v []|intros; discriminate].
        + intros v Hv. apply iset_in in Hv as [[Hv _]|Hv]; [discriminate|now apply T].
        + intros v Hv. apply iset_in in Hv as [[_ ->]|Hv]; [now split|now apply E].
      - rewrite clone_same. apply IH; auto.
        + apply iset_all; [now apply fit_ready|exact A].
        + intros v Hv. apply iset_in in Hv as [[<- ->]|Hv]; [apply Ta; now left|now apply T].
        + intros v Hv. apply iset_in in Hv as [[<- ->]|Hv]; [congruence|now apply E].
    Qed.
    Lemma enum_fit : forall f ms e o, fit r e -> edata e = DEnum o -> yields (expand_enum r rec f ms e) (fun y => post e (Some y)).
    Proof.
      intros f ms e o F E. assert (M : mergeable (ekind e)) by (unfold ekind; rewrite E; cbn; auto 10). unfold expand_enum. destruct (is_reserved (ename e)) eqn:Re; cbn [negb].
      - destruct (every_here _ _ F) as ((Tm & _) & A & _ & Ch & D). destruct (fit_info e F) as [Im Ia]. assert (C := fun x => every_data (fit_piece r) e x F). rewrite E in D, C. destruct D as [D1 D2].
        eapply yields_bind with (P := fun y => exists d, y = Elem "enum" [] [] (ehas e) (DEnum d) /\ (ehas e = true -> d <> None) /\ Forall ready (dsd_children (DEnum d))).
        + destruct (ehas e); [|apply yields_ret; exists None; split; [reflexivity|split; [discriminate|constructor]]]. rewrite E. cbn [expand_value]. destruct o as [x|]; [|now destruct (D1 eq_refl)]. cbn [expand_or_clone_ptr].
          eapply yields_bind; [eapply yields_bind; [eapply yields_bind; [apply eoc_fit; apply C; now left|]; intros y [Hy _]; apply (yields_ret _ (Some y) (fun o' => exists y, o' = Some y /\ ready y)); now exists y|]|].
          * intros o' Ho. apply (yields_ret _ (DEnum o') (fun d => exists y, d = DEnum (Some y) /\ ready y)). destruct Ho as (y & -> & Hy). now exists y.
          * intros d (y & -> & Hy). apply yields_ret. exists (Some y). split; [reflexivity|]. split; [discriminate|now constructor].
        + intros y (d & -> & Dn & Dc). eapply yields_bind; [apply enum_attrs_fit|].
          * destruct e as [n m a h d0]. now apply fit_elem in F.
          * apply Forall_forall. intros [k v] Hv. now apply (Tm k v).
          * exact A.
          * constructor.
          * intros v [].
          * intros v [].
          * intros a (A1 & A2 & A3). apply yields_ret. cbn [set_meta set_attrs]. rewrite copy_same. split; [|intros _; split; [unfold ekind; now rewrite E|reflexivity]]. apply ready_made; auto; [cbn; auto 10|]. intros o0 E0. injection E0 as <-. now split.
      - eapply yields_impl; [now apply named_fit|]. intros y Hy. split; [exact Hy|congruence].
    Qed.
    Lemma round_fit : forall f ms e, fit r e -> yields (expand_round r rec f ms e) (post e).
    Proof.
      intros f ms e F. destruct (every_here _ _ F) as ((Tm & Tn & T) & A & Mt & Ch & D). destruct (fit_info e F) as [Im Ia]. assert (C := fun x => every_data (fit_piece r) e x F).
      assert (W : forall m, yields m (fun y => post e (Some y)) -> yields (bind m (fun x => ret (Some x))) (post e)).
      { intros m H. eapply yields_bind; [exact H|]. intros x X. now apply yields_ret. }
      assert (Same : no_mixin e -> yields (ret None) (post e)) by (intros N; apply yields_ret; split; [now apply fit_ready|intros _; now split]).
      assert (Nm : mergeable (ekind e) -> yields (if negb (is_reserved (ename e)) then expand_named r rec f ms e else expand_members rec ms e) (fun y => post e (Some y))).
      { intros M. destruct (is_reserved (ename e)) eqn:Re; cbn [negb].
        - eapply yields_impl; [now apply members_fit|]. intros y (Y1 & Y2 & Y3). split; [exact Y1|]. intros _. now split.
        - eapply yields_impl; [now apply named_fit|]. intros y Y. split; [exact Y|congruence]. }
      assert (I : forall m, yields m (fun y => post e (Some y)) -> yields (match expandable e with None => undefined | Some false => ret None | Some true => bind m (fun x => ret (Some x)) end) (post e)).
      { intros m H. destruct (expandable e) as [[|]|] eqn:X; [now apply W|apply Same; now apply inert_no_mixin|apply yields_undefined]. }
      assert (Prim : mergeable (ekind e) -> dsd_children (edata e) = [] -> yields (if negb (is_reserved (ename e)) then bind (expand_named r rec f ms e) (fun x => ret (Some x)) else ret None) (post e)).
      { intros M Z. destruct (is_reserved (ename e)) eqn:Re; cbn [negb] in *; [|apply W, Nm, M]. apply Same. intros x Hx. inversion Hx as [|y c e0 Hc Hs]; subst; [intros K; rewrite K in M; cbn in M; intuition discriminate|].
        unfold children in Hc. rewrite Z, app_nil_r in Hc. apply in_app_or in Hc as [Hc|Hc]; apply in_map_iff in Hc as ((k & v) & <- & Hv); [now apply (Mt k v)|now apply (Tm k v)]. }
      unfold ekind in *. unfold expand_round. cbv zeta. destruct (edata e) as [|o|s|s|b|l|k v|l|o|s|l|l|l] eqn:K; try contradiction.
      - apply Same. intros x Hx. inversion Hx as [|y c e0 Hc Hs]; subst; [unfold ekind; rewrite K; discriminate|].
        unfold children in Hc. rewrite K, app_nil_r in Hc. apply in_app_or in Hc as [Hc|Hc]; apply in_map_iff in Hc as ((k & v) & <- & Hv); [now apply (Mt k v)|now apply (Tm k v)].
      - apply Prim; cbn; auto 10.
      - apply Prim; cbn; auto 10.
      - apply Prim; cbn; auto 10.
      - apply I, Nm. cbn; auto 10.
      - apply I. destruct D as (D1 & D2 & (key & -> & Kk) & V). destruct v as [x|]; [|congruence]. rewrite D2. cbn [expand_or_clone_ptr]. destruct T as [T1 T2].
        eapply yields_bind with (P := fun o => exists y, o = Some y /\ post key (Some y)).
        { eapply yields_bind; [apply (eoc_fit ms key); apply C; cbn; now left|]. intros y Y. apply yields_ret. now exists y. }
        intros k' (y & -> & [Ry Py]). eapply yields_bind with (P := fun o => exists y, o = Some y /\ post x (Some y)).
        { eapply yields_bind; [apply (eoc_fit ms x); apply C; cbn; right; now left|]. intros z Z. apply yields_ret. now exists z. }
        intros v' (z & -> & [Rz Pz]). apply yields_ret. rewrite clone_unfold. cbn [cMeta cAttributes cValue cElement cNoMetaId eset]. split; [|intros _; split; [unfold ekind; now rewrite K|now rewrite D2]].
        apply every_elem. split; [|split; [exact Im|split; [exact Ia|cbn; constructor; [exact Ry|constructor; [exact Rz|constructor]]]]]. split; [exact A|]. cbn [edata ehas]. split; [reflexivity|]. split; [|discriminate].
        destruct (Py T1) as [Ky Hy]. unfold ekind in Ky, Kk. rewrite Kk in Ky. destruct (edata y) as [| |s| | | | | | | | | |] eqn:Ey; try discriminate. exists y, s. split; [reflexivity|]. split; [congruence|exact Ey].
      - apply I, Nm. cbn; auto 10.
      - apply W. now apply (enum_fit f ms e o).
      - apply W. now apply (reference_fit ms e s).
      - apply I. destruct D as [D1 D2]. rewrite D1. cbn [is_reserved negb]. change (negb (is_reserved "option")) with false. cbv iota. unfold expand_members. rewrite D2, K. cbn [expand_value].
        eapply yields_bind with (P := fun o => exists l', o = make_element (DOption l') /\ Forall ready l').
        { eapply yields_bind; [eapply yields_bind; [apply (list_ready ms l); apply Forall_forall; exact C|]; intros l' L'; apply (yields_ret _ (DOption l') (fun d => exists l', d = DOption l' /\ Forall ready l')); now exists l'|]. intros d (l' & -> & L'). apply yields_ret. now exists l'. }
        intros o (l' & -> & L'). apply yields_ret. rewrite !copy_same. cbn [make_element set_attrs set_meta]. split; [|intros _; split; [unfold ekind; now rewrite K|now rewrite D2]].
        apply every_elem. split; [split; [exact A|exact Logic.I]|]. split; [exact Im|split; [exact Ia|exact L']].
      - apply I. rewrite T. destruct D as [D1 D2]. eapply yields_bind with (P := Forall (fun o => ready o /\ ekind o = KOption /\ ehas o = true)).
        + apply yields_mapR. intros x Hx. unfold expand_option. assert (Fx := C x Hx). eapply yields_bind; [apply (eoc_fit ms x Fx)|]. intros y [Ry Py]. destruct (ekind y) eqn:Ky; try exact (yields_undefined _ _). apply yields_ret. split; [exact Ry|]. split; [exact Ky|].
          rewrite Forall_forall in D2. specialize (D2 x Hx). destruct (every_here _ _ Fx) as (_ & _ & _ & _ & Dx). unfold ekind in D2. destruct (edata x); try discriminate. destruct Dx as [X1 X2]. rewrite X1 in Py. destruct (Py eq_refl) as [_ Hy]. congruence.
        + intros l' L'. apply yields_ret. rewrite copy_same. cbn [make_element set_meta]. split; [|intros _; split; [unfold ekind; now rewrite K|now rewrite T]].
          apply every_elem. split; [|split; [exact Im|split; [constructor|]]].
          * split; [intros v []|]. cbn [edata ehas]. split; [reflexivity|]. eapply Forall_impl; [|exact L']. intros y Y. apply Y.
          * eapply Forall_impl; [|exact L']. intros y Y. apply Y.
    Qed.
  End Round.
  Theorem expand_fit : forall f ms e, fit r e -> yields (expand f r ms e) (post e).
  Proof. induction f as [|f IH]; intros ms e E; cbn [expand]; [apply yields_none|]. now apply round_fit. Qed.
End Fit.
