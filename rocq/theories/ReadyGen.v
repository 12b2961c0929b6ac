(** C48: nothing is undefined and nothing is thrown when bodies, schemas and sizes are generated from elements that are ready *)
From Verif Require Import Base SoValue Element ElementSpec ElementProofs InfoProofs Extend Registry Expand ElementUtils JsonValue JsonSchema MsonSane ReadySpec ReadyProofs.

Definition safe {A} (m : run A) (P : A -> Prop) : Prop := match m with None => True | Some (Ok a) => P a | _ => False end.
Lemma safe_ret : forall A (a : A) (P : A -> Prop), P a -> safe (ret a) P. Proof. auto. Qed.
Lemma safe_bind : forall A B (m : run A) (f : A -> run B) P Q, safe m P -> (forall a, P a -> safe (f a) Q) -> safe (bind m f) Q.
Proof. intros A B [[a| |]|] f P Q H K; cbn in *; auto; contradiction. Qed.
Lemma safe_impl : forall A (m : run A) (P Q : A -> Prop), safe m P -> (forall a, P a -> Q a) -> safe m Q.
Proof. intros A [[a| |]|] P Q H K; cbn in *; auto. Qed.
Lemma safe_lift : forall A (o : option A) (P : A -> Prop), (exists a, o = Some a /\ P a) -> safe (lift o) P.
Proof. intros A o P (a & -> & H). exact H. Qed.
Lemma safe_foldR : forall A B (f : A -> B -> run A) (P : A -> Prop) l a, P a -> (forall a x, P a -> In x l -> safe (f a x) P) -> safe (foldR f a l) P.
Proof.
  intros A B f P l. induction l as [|x l IH]; intros a H F; cbn; [exact H|]. eapply safe_bind; [apply F; [exact H|now left]|]. intros a' H'. apply IH; [exact H'|]. intros b y Hb Hy. apply F; [exact Hb|now right].
Qed.
Lemma safe_mapR : forall A B (f : A -> run B) l, (forall x, In x l -> safe (f x) (fun _ => True)) -> safe (mapR f l) (fun _ => True).
Proof.
  induction l as [|x l IH]; intros H; cbn; [exact I|]. eapply safe_bind; [apply H; now left|]. intros y _. eapply safe_bind; [apply IH; intros z Hz; apply H; now right|]. intros ys _. exact I.
Qed.
Lemma safe_noexc : forall A (m : run A) P, safe m P -> safe (noexc m) P.
Proof. intros A [[a| |]|] P H; auto. Qed.
Definition any {A} : A -> Prop := fun _ => True.

Lemma type_attr_safe : forall e s, ready e -> safe (lift (has_type_attr e s)) any.
Proof.
  intros e s R. destruct (every_here _ _ R) as [T _]. apply safe_lift. unfold has_type_attr. destruct (ifind (eattrs e) "typeAttributes") as [v|] eqn:F; [|now exists false].
  apply ifind_In in F. specialize (T v F). destruct v as [n m a h d]. cbn in T. subst h. destruct d; eexists; split; try reflexivity; exact I.
Qed.
Lemma merged_safe : forall e l, ready e -> edata e = DExtend l -> safe (merged e) ready.
Proof. intros e l R E. destruct (merged_ready e l R E) as (x & -> & Rx & _). exact Rx. Qed.
Lemma inherits_safe : forall n e, ready e -> safe (inherits_fixed n e) any.
Proof.
  induction n as [|n IH]; intros e R; cbn [inherits_fixed]; [exact I|]. assert (C := every_data ready_piece e). destruct (every_here _ _ R) as [_ D]. destruct (edata e) as [|o|s|s|b|l|k v|l|o|s|l|l|l] eqn:E; try exact I.
  - destruct (is_variable e); [exact I|]. destruct D as (-> & _ & N). cbn [negb]. destruct v as [x|]; [|congruence]. cbn. apply IH. apply C; [exact R|]. cbn. apply in_or_app. right. now left.
  - destruct (ehas e); cbn [negb]; [|exact I]. destruct D as [D _]. destruct o as [x|]; [|now destruct (D eq_refl)]. cbn. apply IH. apply C; [exact R|now left].
  - eapply safe_bind; [apply safe_noexc, (merged_safe e l R E)|]. intros x Rx. now apply IH.
Qed.
Lemma sample_ready : forall e x, ready e -> find_first_sample e = Some x -> ready x.
Proof.
  intros e x R F. unfold find_first_sample in F. destruct (ifind (eattrs e) "samples") as [v|] eqn:Fv; [|discriminate]. assert (Rv := every_found _ _ _ _ R Fv).
  destruct v as [n m a h d]. destruct h; [|discriminate]. destruct d as [| | | | |[|y l]| | | | | | |]; try discriminate. injection F as <-. apply (every_data ready_piece _ y Rv). now left.
Qed.
Lemma default_ready : forall e x, ready e -> find_default e = Some x -> ready x.
Proof. intros e x R F. now apply (every_found _ _ _ _ R F). Qed.
Lemma resolve_ready : forall e s, ready e -> edata e = DRef s -> safe (lift (resolve e)) ready.
Proof.
  intros e s R E. destruct (every_here _ _ R) as [_ D]. rewrite E in D. destruct D as [_ D]. unfold resolve. destruct (ifind (eattrs e) "resolved") as [x|] eqn:F; [|congruence]. cbn. now apply (every_found _ _ _ _ R F).
Qed.
Lemma sdn_safe : forall (render : element -> vopts -> run value) e o, ready e -> (forall x o, ready x -> safe (render x o) any) -> safe (sample_default_null render e o) any.
Proof.
  intros render e o R H. unfold sample_default_null. destruct (find_first_sample e) as [x|] eqn:F.
  - eapply safe_bind; [apply H; now apply (sample_ready e)|]. intros v _. exact I.
  - destruct (find_default e) as [x|] eqn:G; [|exact I]. eapply safe_bind; [apply H; now apply (default_ready e)|]. intros v _. exact I.
Qed.
Lemma enumerations_found : forall e o v, ready e -> edata e = DEnum o -> ifind (eattrs e) "enumerations" = Some v -> exists n m a l, v = Elem n m a true (DArray l) /\ Forall ready l.
Proof.
  intros e o v R E F. assert (Rv := every_found _ _ _ _ R F). destruct (every_here _ _ R) as [_ D]. rewrite E in D. destruct D as [_ D]. destruct (D v (ifind_In _ _ _ _ F)) as [H K].
  destruct v as [n m a h d]. cbn in H, K. subst h. unfold ekind in K. cbn in K. destruct d as [| | | | |l| | | | | | |]; try discriminate. exists n, m, a, l. split; [reflexivity|]. apply Forall_forall. intros x Hx. now apply (every_data ready_piece _ x Rv).
Qed.
Lemma v_update_safe : forall e o, ready e -> safe (v_update e o) any.
Proof. intros e o R. unfold v_update. eapply safe_bind; [now apply type_attr_safe|]. intros f _. eapply safe_bind; [now apply type_attr_safe|]. intros; exact I. Qed.
Lemma v_pass_safe : forall n o e, ready e -> safe (v_inherit_or_pass n o e) any.
Proof. intros n o e R. unfold v_inherit_or_pass. eapply safe_bind; [now apply inherits_safe|]. intros; exact I. Qed.

Lemma first_option_ready : forall l, Forall (fun o => ekind o = KOption /\ ehas o = true) l -> Forall ready l -> exists es, first_option l = Some es /\ Forall ready es.
Proof.
  induction l as [|o l IH]; intros H R; cbn; [exists []; split; [reflexivity|constructor]|]. inversion H as [|? ? [K Hh] H']; inversion R as [|? ? Ro R']; subst. destruct o as [n m a h d]. cbn in Hh. subst h. unfold ekind in K. cbn in K.
  destruct d as [| | | | | | | | | | |es|]; try discriminate. destruct es as [|x es]; [now apply IH|]. exists (x :: es). split; [reflexivity|]. apply Forall_forall. intros y Hy. now apply (every_data ready_piece _ y Ro).
Qed.
Theorem render_safe : forall n, (forall e o, ready e -> safe (render_value n e o) any) /\ (forall obj e o, ready e -> safe (render_property n obj e o) any) /\ (forall arr e o, ready e -> safe (render_item n arr e o) any).
Proof.
  induction n as [|n (IHv & IHp & IHi)]; [repeat split; intros; exact I|]. assert (S : forall e o, ready e -> safe (sample_default_null (render_value n) e o) any) by (intros; now apply sdn_safe). repeat split; intros.
  - (* values *)
    rename H into R. assert (C := fun x => every_data ready_piece e x R). destruct (every_here _ _ R) as [_ D]. cbn [render_value]. destruct (edata e) as [|d|s|s|b|l|k v|l|d|s|l|l|l] eqn:E; try exact I.
    + destruct (ehas e); [|exact I]. destruct d as [x|]; [|exact I]. apply IHv, C. now left.
    + eapply safe_bind; [now apply v_update_safe|]. intros o' _. destruct (ehas e); [exact I|]. eapply safe_bind; [now apply S|]. intros [v|] _; exact I.
    + eapply safe_bind; [now apply v_update_safe|]. intros o' _. destruct (ehas e); [exact I|]. eapply safe_bind; [now apply S|]. intros [v|] _; exact I.
    + eapply safe_bind; [now apply v_update_safe|]. intros o' _. destruct (ehas e); [exact I|]. eapply safe_bind; [now apply S|]. intros [v|] _; exact I.
    + eapply safe_bind; [now apply v_update_safe|]. intros o' _. destruct (ehas e).
      * eapply safe_bind; [apply (safe_foldR _ _ _ any); [exact I|]|intros; exact I]. intros a x _ Hx. eapply safe_bind; [apply v_pass_safe; now apply C|]. intros; now apply IHi, C.
      * eapply safe_bind; [now apply S|]. intros; exact I.
    + eapply safe_bind; [now apply v_update_safe|]. intros o' _. destruct (ehas e).
      * eapply safe_bind; [apply (safe_foldR _ _ _ any); [exact I|]|intros; exact I]. intros a x _ Hx. eapply safe_bind; [apply v_pass_safe; now apply C|]. intros; now apply IHp, C.
      * eapply safe_bind; [now apply S|]. intros; exact I.
    + eapply safe_bind; [now apply v_update_safe|]. intros o' _. destruct (ehas e) eqn:Eh.
      * destruct D as [D _]. destruct d as [x|]; [|now destruct (D eq_refl)]. cbn. apply IHv, C. now left.
      * eapply safe_bind; [now apply S|]. intros [v|] _; [exact I|]. destruct (ifind (eattrs e) "enumerations") as [v|] eqn:F; [|exact I].
        destruct (enumerations_found e d v R E F) as (n0 & m & a & l & -> & L). destruct l as [|x l]; [exact I|]. inversion L; subst. now apply IHv.
    + eapply safe_bind; [now apply (resolve_ready e s)|]. intros; now apply IHv.
    + eapply safe_bind; [now apply (merged_safe e l)|]. intros; now apply IHv.
  - (* properties *)
    rename H into R. assert (C := fun x => every_data ready_piece e x R). destruct (every_here _ _ R) as [_ D]. cbn [render_property]. destruct (edata e) as [|d|s|s|b|l|k v|l|d|s|l|l|l] eqn:E; try exact I.
    + destruct (ehas e); [|exact I]. destruct d as [x|]; [|exact I]. apply IHp, C. now left.
    + eapply safe_bind; [now apply v_update_safe|]. intros o' _. destruct D as (-> & (key & s & -> & Hk & Ek) & N). destruct v as [x|]; [|congruence]. cbn [negb]. unfold bind at 1. cbn [lift].
      eapply safe_bind; [now apply type_attr_safe|]. intros opt _. eapply (safe_bind _ _ _ _ any); [destruct opt; exact I|]. intros omit _. destruct omit; [exact I|].
      eapply (safe_bind _ _ _ _ any); [destruct n; cbn [render_key]; [exact I|]; rewrite Ek, Hk; exact I|]. intros [|c t] _; [exact I|]. cbn [lift].
      eapply (safe_bind _ _ _ _ ready); [apply C; cbn; right; now left|]. intros y Ry. eapply safe_bind; [now apply IHv|]. intros; exact I.
    + eapply safe_bind; [now apply IHv|]. intros [] _; exact I.
    + eapply safe_bind; [now apply (resolve_ready e s)|]. intros; now apply IHp.
    + eapply safe_bind; [now apply (merged_safe e l)|]. intros; now apply IHp.
    + destruct D as [-> D]. destruct (first_option_ready l D) as (es & -> & Re); [apply Forall_forall; intros; now apply C|]. cbn. apply (safe_foldR _ _ _ any); [exact I|]. intros a x _ Hx. apply IHp. rewrite Forall_forall in Re. now apply Re.
  - (* items *)
    rename H into R. cbn [render_item]. assert (G : safe (bind (v_inherit_or_pass n o e) (fun o' => bind (render_value n e o') (fun v => ret (arr ++ [v])%list))) any).
    { eapply safe_bind; [now apply v_pass_safe|]. intros o' _. eapply safe_bind; [now apply IHv|]. intros; exact I. }
    assert (G' : safe (bind (v_update e o) (fun o => if (o_fixed o || defines_value e)%bool then bind (v_inherit_or_pass n o e) (fun o' => bind (render_value n e o') (fun v => ret (arr ++ [v])%list)) else ret arr)) any).
    { eapply safe_bind; [now apply v_update_safe|]. intros o' _. destruct (_ || _)%bool; [|exact I]. eapply safe_bind; [now apply v_pass_safe|]. intros o2 _. eapply safe_bind; [now apply IHv|]. intros; exact I. }
    destruct (edata e) as [|d|s|s|b|l|k v|l|d|s|l|l|l] eqn:E; try exact G; try exact G'; try exact I.
    eapply safe_bind; [now apply (resolve_ready e s)|]. intros x Rx. destruct (is_kind KArray x); [|exact I]. eapply safe_bind; [now apply IHv|]. intros [] _; exact I.
Qed.

Lemma size_safe : forall n e inh, ready e -> safe (size_of n e inh) any.
Proof.
  induction n as [|n IH]; intros e inh R; cbn [size_of]; [exact I|]. cbv zeta. assert (C := fun x => every_data ready_piece e x R). destruct (every_here _ _ R) as [_ D].
  assert (Nu : forall s, safe (bind (lift (has_type_attr e "nullable")) (fun b => ret (if b then c_add s 1 else s)%N)) any) by (intros s; eapply safe_bind; [now apply type_attr_safe|intros; exact I]).
  assert (F : forall g z l f, Forall ready l -> safe (noexc (foldR (fun a b => bind (size_of n b f) (fun x => ret (g a x : N))) z l)) any).
  { intros g z l f L. apply safe_noexc, (safe_foldR _ _ _ any); [exact I|]. intros a x _ Hx. rewrite Forall_forall in L. eapply safe_bind; [apply IH; now apply L|]. intros; exact I. }
  assert (T : forall s, safe (if inh then ret true else lift (has_type_attr e s)) any) by (intros s; destruct inh; [exact I|now apply type_attr_safe]).
  assert (Pr : forall base, safe (bind (if (defines_value e && inh)%bool then ret true else lift (has_type_attr e "fixed"))
     (fun b => bind (lift (has_type_attr e "nullable")) (fun b0 => ret (if b0 then c_add (if b then 1%N else base) 1 else if b then 1%N else base)%N))) any).
  { intros base. eapply (safe_bind _ _ _ _ any); [destruct (_ && _)%bool; [exact I|now apply type_attr_safe]|]. intros; apply Nu. }
  destruct (edata e) as [|d|s|s|b|l|k v|l|d|s|l|l|l] eqn:E; try exact I; try apply Pr.
  - destruct (ehas e); [|exact I]. destruct d as [x|]; [|exact I]. apply IH, C. now left.
  - eapply safe_bind; [apply T|]. intros fx _. destruct fx.
    + eapply (safe_bind _ _ _ _ any); [destruct (ehas e); [|exact I]; apply F; apply Forall_forall; exact C|]. intros; apply Nu.
    + eapply safe_bind; [now apply type_attr_safe|]. intros ft _. destruct ft; [|apply Nu]. destruct (ehas e); [|apply Nu]. eapply safe_bind; [apply F; apply Forall_forall; exact C|]. intros; apply Nu.
  - destruct (ehas e); [|exact I]. destruct v as [x|]; [|exact I]. eapply safe_bind; [apply IH, C; cbn; apply in_or_app; right; now left|]. intros; apply Nu.
  - eapply safe_bind; [apply T|]. intros fx _. eapply (safe_bind _ _ _ _ any); [destruct fx; [exact I|now apply type_attr_safe]|]. intros cl _.
    eapply (safe_bind _ _ _ _ any); [|intros; apply Nu]. destruct cl; [|exact I]. destruct (ehas e); [|exact I]. apply F. apply Forall_forall. exact C.
  - destruct (enum_entries e) as [[n0 m a h [| | | | |l| | | | | | |]]|] eqn:Fe; try exact I; try (destruct h; exact I). destruct h; [|exact I].
    unfold enum_entries in Fe. destruct (ifind (eattrs e) "enumerations") as [w|] eqn:Fw; [|discriminate]. destruct (is_kind KArray w); [|discriminate]. injection Fe as ->. destruct (enumerations_found e d _ R E Fw) as (n1 & m1 & a1 & l1 & X & L). injection X as <- <- <- <-. eapply safe_bind; [apply T|]. intros fx _. eapply safe_bind; [now apply F|]. intros; apply Nu.
  - eapply safe_bind; [now apply (resolve_ready e s)|]. intros; now apply IH.
  - destruct D as (Dh & _). destruct (merged_ready e l R E) as (x & M & Rx & _). unfold merged in M. rewrite Dh, E in *. destruct (merge l) as [[y|]| |]; cbn in M; try discriminate. injection M as ->. cbn. now apply IH.
  - destruct (ehas e); [|exact I]. apply F. apply Forall_forall. exact C.
  - destruct D as [-> _]. apply F. apply Forall_forall. exact C.
Qed.

(** * Schemas *)
Definition arrays (fs : list field) : Prop := forall k v, In (k, v) fs -> k = "enum"%string \/ k = "anyOf"%string -> exists l, v = VArray l.
Lemma arrays_cons : forall k v fs, (k = "enum"%string \/ k = "anyOf"%string -> exists l, v = VArray l) -> arrays fs -> arrays ((k, v) :: fs).
Proof. intros k v fs H A k' v' [E|Hin]; [injection E as <- <-; exact H|now apply A]. Qed.
Lemma arrays_nil : arrays []. Proof. intros k v []. Qed.
Lemma arrays_app : forall a b, arrays a -> arrays b -> arrays (a ++ b).
Proof. intros a b A B k v H. apply in_app_or in H as [H|H]; [now apply A|now apply B]. Qed.
Ltac arr := repeat first [apply arrays_nil | apply arrays_cons; [intros [X|X]; first [discriminate X | eexists; reflexivity]|]].
Lemma arrays_wrap : forall o fs, arrays fs -> arrays (wrap_nullable o fs).
Proof. intros o fs A. unfold wrap_nullable. destruct (s_nullable o); [|exact A]. arr. Qed.
Lemma arrays_enum : forall vs, arrays [f_enum vs].
Proof. intros [|v [|w vs]]; cbn; arr. Qed.
Lemma arrays_materialize : forall s, arrays (materialize s).
Proof. intros [[] [] [] []]; unfold materialize; cbn; arr. Qed.
Lemma add_enum_total : forall acc fs, arrays fs -> exists r, add_enum_schema acc fs = Some r.
Proof.
  intros [enm anyOf] fs A. unfold add_enum_schema. destruct fs as [|[k v] [|f fs]]; eauto. destruct (String.eqb_spec k "enum") as [E|_].
  - destruct (A k v (or_introl eq_refl) (or_introl E)) as (l & ->). eauto.
  - destruct (String.eqb_spec k "anyOf") as [E|_]; [|eauto]. destruct (A k v (or_introl eq_refl) (or_intror E)) as (l & ->). eauto.
Qed.
Lemma s_update_safe : forall e o, ready e -> safe (s_update e o) any.
Proof. intros e o R. unfold s_update. repeat (eapply safe_bind; [now apply type_attr_safe|]; intros ? _). exact I. Qed.
Lemma s_pass_safe : forall n o e, ready e -> safe (s_inherit_or_pass n o e) any.
Proof. intros n o e R. unfold s_inherit_or_pass. eapply safe_bind; [now apply inherits_safe|]. intros; exact I. Qed.
Theorem schema_safe : forall n, (forall e o, ready e -> safe (render_schema n e o) arrays) /\ (forall s e o, ready e -> safe (render_sproperty n s e o) any).
Proof.
  induction n as [|n (IHs & IHp)]; [split; intros; exact I|]. split; intros.
  - rename H into R. assert (C := fun x => every_data ready_piece e x R). destruct (every_here _ _ R) as [_ D]. cbn [render_schema]. destruct (edata e) as [|d|s|s|b|l|k v|l|d|s|l|l|l] eqn:E; try (cbn; arr; fail).
    + destruct (ehas e); [|cbn; arr]. destruct d as [x|]; [|cbn; arr]. apply IHs, C. now left.
    + eapply safe_bind; [now apply s_update_safe|]. intros o' _. destruct (_ && _)%bool; [|destruct (s_nullable o'); cbn; arr]. cbn [instantiate lift]. unfold bind. apply arrays_enum.
    + eapply safe_bind; [now apply s_update_safe|]. intros o' _. destruct (_ && _)%bool; [|destruct (s_nullable o'); cbn; arr]. cbn [instantiate lift]. unfold bind. apply arrays_enum.
    + eapply safe_bind; [now apply s_update_safe|]. intros o' _. destruct (_ && _)%bool; [|destruct (s_nullable o'); cbn; arr]. cbn [instantiate lift]. unfold bind. apply arrays_enum.
    + eapply safe_bind; [now apply s_update_safe|]. intros o' _. cbv zeta. assert (Mk : forall x, In x l -> safe (bind (s_inherit_or_pass n o' x) (render_schema n x)) any).
      { intros x Hx. eapply safe_bind; [apply s_pass_safe; now apply C|]. intros o2 _. eapply safe_impl; [now apply IHs, C|]. intros; exact I. }
      destruct (s_ftype o'); [|destruct (s_fixed o')].
      * eapply (safe_bind _ _ _ _ (fun fs => arrays fs)); [|intros fs A; apply arrays_wrap, arrays_cons; [intros [X|X]; discriminate X|exact A]].
        destruct (ehas e); cbn [negb]; [|cbn; arr]. destruct l as [|x [|y l]].
        -- cbn. arr.
        -- eapply safe_bind; [apply Mk; now left|]. intros fs _. cbn. arr.
        -- eapply (safe_bind _ _ _ _ any); [|intros; cbn; arr]. apply (safe_foldR _ _ _ any); [exact I|]. intros a z _ Hz. eapply safe_bind; [now apply Mk|]. intros; exact I.
      * eapply (safe_bind _ _ _ _ any); [|intros; apply arrays_wrap; arr]. destruct (ehas e); [|exact I]. apply safe_mapR. intros x Hx. eapply safe_bind; [now apply Mk|]. intros; exact I.
      * apply arrays_wrap. arr.
    + eapply safe_bind; [now apply s_update_safe|]. intros o' _. cbv zeta. eapply (safe_bind _ _ _ _ any).
      * destruct (ehas e); [|exact I]. apply (safe_foldR _ _ _ any); [exact I|]. intros a x _ Hx. eapply safe_bind; [apply s_pass_safe; now apply C|]. intros; now apply IHp, C.
      * intros s _. apply arrays_wrap. apply arrays_cons; [intros [X|X]; discriminate X|]. apply arrays_app; [apply arrays_materialize|]. destruct (_ || _)%bool; arr.
    + eapply safe_bind; [now apply s_update_safe|]. intros o' _. cbv zeta. eapply (safe_bind _ _ _ _ any).
      * destruct (ifind (eattrs e) "enumerations") as [v|] eqn:F; [|exact I]. destruct (enumerations_found e d v R E F) as (n0 & m & a & l & -> & L). rewrite Forall_forall in L. apply (safe_foldR _ _ _ any); [exact I|]. intros acc x _ Hx.
        eapply safe_bind; [apply size_safe; now apply L|]. intros c _. destruct (c =? 1)%N.
        -- eapply safe_bind; [unfold generate_value; apply render_safe; now apply L|]. intros; exact I.
        -- eapply safe_bind; [apply IHs; now apply L|]. intros fs A. destruct (add_enum_total acc fs A) as (r & ->). exact I.
      * intros [enm anyOf] _. destruct anyOf; [apply arrays_enum|cbn; arr].
    + eapply safe_bind; [now apply (resolve_ready e s)|]. intros; now apply IHs.
    + eapply safe_bind; [now apply (merged_safe e l)|]. intros; now apply IHs.
  - rename H into R. assert (C := fun x => every_data ready_piece e x R). destruct (every_here _ _ R) as [_ D]. cbn [render_sproperty]. destruct (edata e) as [|d|s1|s1|b|l|k v|l|d|s1|l|l|l] eqn:E; try exact I.
    + destruct (ehas e); [|exact I]. destruct d as [x|]; [|exact I]. apply IHp, C. now left.
    + do 5 (eapply safe_bind; [now apply type_attr_safe|]; intros ? _). cbv zeta. destruct D as (-> & (key & s' & -> & Hk & Ek) & N). cbn [negb]. destruct v as [x|]; [|congruence].
      assert (Rk : ready key) by (apply C; cbn; now left). assert (Rx : ready x) by (apply C; cbn; right; now left).
      eapply (safe_bind _ _ _ _ (eq key)); [reflexivity|]. intros ? <-. destruct (is_variable e).
      * rewrite Ek. eapply (safe_bind _ _ _ _ (eq key)); [reflexivity|]. intros ? <-. eapply (safe_bind _ _ _ _ any).
        -- unfold render_pattern. eapply (safe_bind _ _ _ _ any); [destruct (s_fixed _); [exact I|now apply type_attr_safe]|]. intros fx _. destruct fx; [|exact I]. rewrite Hk, Ek. exact I.
        -- intros p _. eapply (safe_bind _ _ _ _ (eq x)); [reflexivity|]. intros ? <-. eapply safe_bind; [now apply IHs|]. intros; exact I.
      * unfold member_key. rewrite Ek, Hk. eapply (safe_bind _ _ _ _ any); [exact I|]. intros ky _. eapply (safe_bind _ _ _ _ (eq x)); [reflexivity|]. intros ? <-. eapply safe_bind; [now apply IHs|]. intros; exact I.
    + eapply safe_bind; [now apply type_attr_safe|]. intros f _. destruct (ehas e); [|exact I]. apply (safe_foldR _ _ _ any); [exact I|]. intros; now apply IHp, C.
    + eapply safe_bind; [now apply (resolve_ready e s1)|]. intros; now apply IHp.
    + eapply safe_bind; [now apply (merged_safe e l)|]. intros; now apply IHp.
    + destruct D as [-> D]. eapply (safe_bind _ _ _ _ any); [|intros; exact I]. apply (safe_foldR _ _ _ any); [exact I|]. intros acc opt _ Ho. rewrite Forall_forall in D. destruct (D opt Ho) as [Ko Hh].
      assert (Ro : ready opt) by now apply C. unfold ekind in Ko. destruct (edata opt) as [| | | | | | | | | | |es|] eqn:Eo; try discriminate. rewrite Hh. cbn [negb]. destruct es as [|y es]; [exact I|].
      eapply (safe_bind _ _ _ _ any); [|intros; exact I]. apply (safe_foldR _ _ _ any); [exact I|]. intros a z _ Hz. apply IHp. apply (every_data ready_piece opt); [exact Ro|now rewrite Eo].
Qed.
Lemma set_last_total : forall l v, l <> [] -> exists r, set_last l v = Some r.
Proof. induction l as [|[k w] l IH]; intros v H; [congruence|]. destruct l as [|f l]; [eexists; reflexivity|]. destruct (IH v ltac:(discriminate)) as (r & E). cbn [set_last] in *. rewrite E. eexists; reflexivity. Qed.
Theorem generate_schema_safe : forall n e, ready e -> safe (generate_schema n e) any.
Proof.
  intros n e R. unfold generate_schema. eapply safe_bind; [now apply schema_safe|]. intros fs _. unfold reduce. destruct (vfind _ "anyOf") as [[]|]; try exact I.
  match goal with |- context [set_last ?l ?v] => destruct (set_last_total l v ltac:(discriminate)) as (r & ->) end. exact I.
Qed.
