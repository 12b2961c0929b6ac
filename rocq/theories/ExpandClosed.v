From Verif Require Import Base Element ElementSpec ElementProofs InfoProofs MergeSpec Extend Registry Expand ExpandSpec RegistryProofs ExpandProofs.

Definition post {A} (m : run A) (P : A -> Prop) : Prop :=
  match m with Some (Ok a) => P a | Some Undefined => False | _ => True end.
Lemma post_ret : forall A (a : A) (P : A -> Prop), P a -> post (ret a) P.
Proof. auto. Qed.
Lemma post_bind : forall A B (m : run A) (k : A -> run B) (P : A -> Prop) (Q : B -> Prop),
  post m P -> (forall a, P a -> post (k a) Q) -> post (bind m k) Q.
Proof. intros A B [[a|w|]|] k P Q H K; cbn in *; auto. Qed.
Lemma post_impl : forall A (m : run A) (P Q : A -> Prop), post m P -> (forall a, P a -> Q a) -> post m Q.
Proof. intros A [[a|w|]|] P Q H K; cbn in *; auto. Qed.
Lemma post_mapR : forall A B (f : A -> run B) (P : A -> B -> Prop) l,
  (forall x, In x l -> post (f x) (P x)) -> post (mapR f l) (Forall2 P l).
Proof.
  induction l as [|x l IH]; intros H; cbn [mapR]; [apply post_ret; constructor|].
  apply post_bind with (P := P x); [apply H; now left|]. intros y Hy.
  apply post_bind with (P := Forall2 P l); [apply IH; intros z Hz; apply H; now right|].
  intros ys Hys. apply post_ret. now constructor.
Qed.

Lemma well_shaped_part : forall e c, well_shaped e -> In c (parts e) -> well_shaped c.
Proof. intros e c H Hc x W. apply H. now apply within_step with c. Qed.
Lemma regular_part : forall r e c, regular r e -> In c (parts e) -> regular r c.
Proof. intros r e c H Hc x W. apply H. now apply within_step with c. Qed.
Lemma plain_part : forall e c, plain e -> In c (parts e) -> plain c.
Proof. intros e c H Hc x W. apply H. now apply within_step with c. Qed.

(** *** expandable *)
Definition any_expandable := fix any (l : list element) : option bool :=
    match l with [] => Some false | x :: r => oor (expandable x) (any r) end.
Definition enums_expandable := (fix enums (l : list (string * element)) : option bool :=
                 match l with
                 | [] => Some false
                 | (k, x) :: r => if String.eqb k "enumerations" then expandable x else enums r
                 end).
Lemma expandable_unfold : forall e, expandable e =
  let check := negb (is_reserved (ename e)) in
  match edata e with
  | DRef _ => Some true
  | DArray l | DObject l | DExtend l | DOption l | DSelect l => oor (Some check) (if ehas e then any_expandable l else Some false)
  | DMember k v => oor (Some check) (if ehas e then oor (match k with Some x => expandable x | None => Some false end)
                                                     (match v with Some x => expandable x | None => Some false end) else Some false)
  | DEnum o => oor (Some check) (oor (if ehas e then match o with Some x => expandable x | None => None end else Some false) (enums_expandable (eattrs e)))
  | _ => Some check
  end.
Proof. intros [n m a h d]. destruct d; reflexivity. Qed.

Lemma any_total : forall l, (forall c, In c l -> exists b, expandable c = Some b) -> exists b, any_expandable l = Some b.
Proof.
  induction l as [|x l IH]; intros H; cbn; [eauto|].
  destruct (H x (or_introl eq_refl)) as [b E]. rewrite E. destruct b; cbn; [eauto|]. apply IH. intros c Hc. apply H. now right.
Qed.
Lemma enums_total : forall l, (forall y, In ("enumerations"%string, y) l -> exists b, expandable y = Some b) -> exists b, enums_expandable l = Some b.
Proof.
  induction l as [|(k & x) l IH]; intros H; cbn; [eauto|].
  destruct (String.eqb_spec k "enumerations") as [->|N]; [apply H; now left|]. apply IH. intros y Hy. apply H. now right.
Qed.
Lemma oor_total : forall a b, (exists x, a = Some x) -> (exists x, b = Some x) -> exists x, oor a b = Some x.
Proof. intros a b [x ->] [y ->]. destruct x; cbn; eauto. Qed.

Lemma expandable_total : forall e, well_shaped e -> exists b, expandable e = Some b.
Proof.
  induction e as [e IH] using (well_founded_induction (well_founded_ltof _ esize)). unfold ltof in IH. intros W.
  assert (P : forall c, In c (parts e) -> exists b, expandable c = Some b).
  { intros c Hc. apply IH; [now apply parts_smaller|now apply well_shaped_part with e]. }
  rewrite expandable_unfold. cbv zeta.
  assert (L : forall l, edata e = DArray l \/ edata e = DObject l \/ edata e = DExtend l \/ edata e = DOption l \/ edata e = DSelect l ->
     exists b, (if ehas e then any_expandable l else Some false) = Some b).
  { intros l Hl. destruct (ehas e) eqn:Eh; [|eauto]. apply any_total. intros c Hc. apply P, entries_part. unfold entries. rewrite Eh.
    destruct Hl as [->|[->|[->|[->| ->]]]]; exact Hc. }
  pose proof (W e (within_refl e)) as Sh. unfold shape_ok in Sh.
  destruct (edata e) as [|o|s|s|b|l|k v|l|o|s|l|l|l] eqn:Ed; eauto; try (apply oor_total; [eauto|apply L; tauto]).
  - apply oor_total; [eauto|]. destruct (ehas e) eqn:Eh; [|eauto]. apply oor_total.
    + destruct k as [c|]; [|eauto]. apply P, entries_part. unfold entries. rewrite Eh, Ed. now left.
    + destruct v as [c|]; [|eauto]. apply P, entries_part. unfold entries. rewrite Eh, Ed. cbn. apply in_or_app. right. now left.
  - apply oor_total; [eauto|]. apply oor_total.
    + destruct (ehas e) eqn:Eh; [|eauto]. destruct Sh as [Sh _]. destruct o as [c|]; [|now destruct (Sh eq_refl)].
      apply P, entries_part. unfold entries. rewrite Eh, Ed. now left.
    + apply enums_total. intros y Hy. apply P. now apply enums_part with o.
Qed.

Lemma any_false : forall l, any_expandable l = Some false -> forall c, In c l -> expandable c = Some false.
Proof.
  induction l as [|x l IH]; intros H c Hc; [destruct Hc|]. cbn in H. destruct (expandable x) as [[|]|] eqn:E; try discriminate.
  destruct Hc as [->|Hc]; [exact E|]. now apply IH.
Qed.
Lemma oor_false : forall a b, oor a b = Some false -> a = Some false /\ b = Some false.
Proof. intros [[|]|] b; cbn; try discriminate; auto. Qed.

Lemma enums_false : forall l, NoDup (map fst l) -> enums_expandable l = Some false ->
  forall y, In ("enumerations"%string, y) l -> expandable y = Some false.
Proof.
  induction l as [|(k & x) l IH]; intros Nd H y Hy; [destruct Hy|]. cbn in H, Nd. inversion Nd as [|? ? Hn Hd]; subst.
  destruct (String.eqb_spec k "enumerations") as [->|N].
  - destruct Hy as [Hy|Hy]; [injection Hy as <-; exact H|]. exfalso. apply Hn. now apply (in_map fst) in Hy.
  - destruct Hy as [Hy|Hy]; [congruence|]. now apply IH.
Qed.

(** *** closed *)
Lemma closed_parts : forall r e, is_reserved (ename e) = true ->
  (forall s, edata e <> DRef s) -> (forall c, In c (parts e) -> closed r c) -> closed r e.
Proof.
  intros r e H1 H2 H3. constructor; [exact H1|intros s p E; now destruct (H2 s)|].
  intros c Hc. unfold visible in Hc. destruct (stand_in e); [destruct Hc|].
  apply in_app_or in Hc as [Hc|Hc]; [now apply H3|]. destruct (edata e) eqn:E; try destruct Hc. now destruct (H2 s).
Qed.

Lemma kind_name_reserved : forall k, k <> KHolder -> is_reserved (kind_name k) = true.
Proof. intros [] H; try reflexivity. congruence. Qed.

Lemma reserved_check : forall n, Some (negb (is_reserved n)) = Some false -> is_reserved n = true.
Proof. intros n H. injection H as H. now apply negb_false_iff. Qed.

Lemma inert_closed : forall r e, regular r e -> expandable e = Some false -> closed r e.
Proof.
  intros r. induction e as [e IH] using (well_founded_induction (well_founded_ltof _ esize)). unfold ltof in IH. intros Rg Ex.
  assert (P : forall c, In c (parts e) -> expandable c = Some false -> closed r c).
  { intros c Hc Ec. apply IH; [now apply parts_smaller|now apply regular_part with e|exact Ec]. }
  pose proof (Rg e (within_refl e)) as Rh. unfold regular_head in Rh. destruct Rh as [Nd Rh].
  rewrite expandable_unfold in Ex. cbv zeta in Ex.
  assert (L : forall l, edata e = DArray l \/ edata e = DObject l \/ edata e = DExtend l \/ edata e = DOption l \/ edata e = DSelect l ->
     oor (Some (negb (is_reserved (ename e)))) (if ehas e then any_expandable l else Some false) = Some false -> closed r e).
  { intros l Hl Hx. apply oor_false in Hx as [Hx1 Hx2]. apply closed_parts; [now apply reserved_check| |].
    - intros s Es. rewrite Es in Hl. intuition discriminate.
    - intros c Hc. apply P; [exact Hc|]. unfold parts, entries in Hc.
      assert (Hd : In c (if ehas e then l else [])).
      { destruct Hl as [E|[E|[E|[E|E]]]]; rewrite E in Hc; apply in_app_or in Hc as [Hc|[]]; destruct (ehas e); exact Hc. }
      destruct (ehas e); [|destruct Hd]. now apply any_false with l. }
  assert (Z : (forall s, edata e <> DRef s) -> parts e = [] -> is_reserved (ename e) = true -> closed r e).
  { intros H1 H2 H3. apply closed_parts; auto. rewrite H2. intros c []. }
  assert (Q : forall A (x : list A), (if ehas e then [] else []) = @nil A) by (intros; now destruct (ehas e)).
  destruct (edata e) as [|o|s|s|b|l|k v|l|o|s|l|l|l] eqn:Ed; try (apply (L l); [tauto|exact Ex]).
  - apply Z; [intros s; discriminate| |now apply reserved_check]. unfold parts, entries. rewrite Ed. cbn. now destruct (ehas e).
  - destruct Rh.
  - apply Z; [intros; discriminate| |now apply reserved_check]. unfold parts, entries. rewrite Ed. cbn. now destruct (ehas e).
  - apply Z; [intros; discriminate| |now apply reserved_check]. unfold parts, entries. rewrite Ed. cbn. now destruct (ehas e).
  - apply Z; [intros; discriminate| |now apply reserved_check]. unfold parts, entries. rewrite Ed. cbn. now destruct (ehas e).
  - apply oor_false in Ex as [E1 E2]. apply closed_parts; [now apply reserved_check|intros s; congruence|].
    intros c Hc. apply P; [exact Hc|]. unfold parts, entries in Hc. rewrite Ed in Hc. rewrite app_nil_r in Hc. destruct (ehas e); [|destruct Hc].
    apply oor_false in E2 as [E2 E3]. cbn in Hc. apply in_app_or in Hc as [Hc|Hc].
    + destruct k as [k|]; [destruct Hc as [->|[]]|destruct Hc]. exact E2.
    + destruct v as [v|]; [destruct Hc as [->|[]]|destruct Hc]. exact E3.
  - apply oor_false in Ex as [E1 E2]. apply oor_false in E2 as [E2 E3]. apply closed_parts; [now apply reserved_check|intros s; congruence|].
    intros c Hc. apply P; [exact Hc|]. unfold parts, entries in Hc. rewrite Ed in Hc. apply in_app_or in Hc as [Hc|Hc].
    + destruct (ehas e); [|destruct Hc]. cbn in Hc. destruct o as [o|]; [destruct Hc as [->|[]]|destruct Hc]. exact E2.
    + apply in_map_iff in Hc as ((k & y) & <- & Hf). apply filter_In in Hf as [Hf Hk]. cbn in Hk. apply String.eqb_eq in Hk. subst k.
      now apply (enums_false (eattrs e)).
  - discriminate.
Qed.

Lemma plain_closed : forall r e, plain e -> closed r e.
Proof.
  intros r. induction e as [e IH] using (well_founded_induction (well_founded_ltof _ esize)). unfold ltof in IH. intros H.
  destruct (H e (within_refl e)) as (H1 & _ & H3). apply closed_parts; [exact H1| |].
  - intros s E. apply H3. unfold ekind. now rewrite E.
  - intros c Hc. apply IH; [now apply parts_smaller|now apply plain_part with e].
Qed.

Lemma push_back_In : forall l x e, In x (obj_push_back l e) -> In x l \/ x = e.
Proof.
  assert (R : forall p l (x : element), In x (remove_first p l) -> In x l).
  { induction l as [|y l IH]; intros x H; [destruct H|]. cbn in H. destruct (p y); [now right|].
    destruct H as [->|H]; [now left|right; now apply IH]. }
  intros l x e H. unfold obj_push_back in H. destruct l as [|y l].
  - destruct (string_key e); apply in_app_or in H as [H|[H|[]]]; auto.
  - destruct (string_key e); apply in_app_or in H as [H|[H|[]]]; auto. left. now apply R in H.
Qed.
Lemma push_all_In : forall l acc x, In x (fold_left obj_push_back l acc) -> In x acc \/ In x l.
Proof.
  induction l as [|y l IH]; intros acc x H; cbn in H; [auto|]. apply IH in H as [H|H]; [|cbn; auto].
  apply push_back_In in H as [H| ->]; cbn; auto.
Qed.

Lemma Forall2_in_r : forall A B (P : A -> B -> Prop) l l' y, Forall2 P l l' -> In y l' -> exists x, In x l /\ P x y.
Proof.
  induction 1 as [|a b l l' H F IH]; intros Hy; [destruct Hy|]. destruct Hy as [->|Hy]; [exists a; split; [now left|exact H]|].
  destruct (IH Hy) as (x & Hx & Px). exists x. split; [now right|exact Px].
Qed.

Section Closed.
  Context (r : registry) (WR : well_shaped_registry r).
  (** the claim about closedness is conditional on regularity *)
  Definition good (e y : element) : Prop :=
    (is_reserved (ename e) = true -> ekind y = ekind e) /\
    (regular_registry r -> regular r e -> closed r y).
  Definition registered (members : list string) : Prop := forall k, In k members -> rfind r k <> None.

  Section Round.
    Context (rec : list string -> element -> run (option element)) (fuel : nat).
    Context (IH : forall members e, registered members -> well_shaped e ->
      post (rec members e) (fun o => good e (match o with Some x => x | None => e end))).

    Lemma eoc_good : forall members e, registered members -> well_shaped e ->
      post (expand_or_clone rec members e) (good e).
    Proof.
      intros members e Hm W. unfold expand_or_clone. eapply post_bind; [apply IH; auto|]. intros o Ho. apply post_ret.
      destruct o; [exact Ho|]. assert (clone cAll e = e) as ->; [|exact Ho].
      unfold clone. cbn. destruct e as [n m a h d]; cbn. rewrite !copy_id, dsd_map_id; [reflexivity|intros; apply clone_all_id].
    Qed.

    (** children of the value are good *)
    Definition good_children (l : list element) (l' : list element) : Prop :=
      forall y, In y l' -> exists x, In x l /\ good x y.

    Lemma value_good : forall members d, registered members -> (forall c, In c (dsd_children d) -> well_shaped c) ->
      post (expand_value rec members d) (fun d' => dsd_kind d' = dsd_kind d /\
        match d with DArray _ | DExtend _ | DOption _ | DObject _ | DEnum _ => good_children (dsd_children d) (dsd_children d') | _ => d' = d end).
    Proof.
      intros members d Hm W.
      assert (L : forall l, (forall c, In c l -> well_shaped c) -> post (mapR (expand_or_clone rec members) l) (fun l' => good_children l l')).
      { intros l Hl. eapply post_impl; [apply (post_mapR _ _ _ good)|].
        - intros x Hx. apply eoc_good; auto.
        - intros l' F y Hy. now apply Forall2_in_r with (l' := l'). }
      destruct d; cbn [expand_value dsd_children] in *; try (apply post_ret; split; reflexivity);
        try (eapply post_bind; [apply L; exact W|]; intros l' Hl'; apply post_ret; split; [reflexivity|exact Hl']).
      - eapply post_bind; [apply L; exact W|]. intros l' Hl'. apply post_ret. split; [reflexivity|]. cbn.
        intros y Hy. apply push_all_In in Hy as [[]|Hy]. now apply Hl'.
      - eapply post_bind with (P := fun o => good_children (opt_list d) (opt_list o)).
        + destruct d as [c|]; cbn [expand_or_clone_ptr]; [|apply post_ret; intros y []].
          eapply post_bind; [apply eoc_good; [exact Hm|apply W; now left]|]. intros x Hx. apply post_ret.
          intros y [<-|[]]. exists c. split; [now left|exact Hx].
        + intros o' Ho. apply post_ret. split; [reflexivity|exact Ho].
    Qed.

    (** ExpandMembers of an element that is not a member, select, ref or holder *)
    Lemma members_good : forall members e, registered members -> (forall c, In c (entries e) -> well_shaped c) ->
      post (expand_members rec members e) (fun y =>
        ename y = kind_name (ekind e) /\ ekind y = ekind e /\ eattrs y = eattrs e /\ emeta y = emeta e /\ ehas y = ehas e /\
        match edata e with DArray _ | DExtend _ | DOption _ | DObject _ | DEnum _ => good_children (entries e) (entries y) | _ => True end).
    Proof.
      intros members e Hm W. unfold expand_members.
      eapply post_bind with (P := fun o => ename o = kind_name (ekind e) /\ ekind o = ekind e /\ ehas o = ehas e /\
        match edata e with DArray _ | DExtend _ | DOption _ | DObject _ | DEnum _ => good_children (entries e) (entries o) | _ => True end).
      - unfold entries in *. destruct (ehas e) eqn:Eh.
        + eapply post_bind; [apply value_good; [exact Hm|exact W]|]. intros d (Dk & Hd). apply post_ret.
          unfold ekind. cbn [make_element ename edata ehas]. rewrite Dk. repeat apply conj; auto.
          destruct (edata e); auto.
        + apply post_ret. unfold ekind. cbn [make_empty ename edata ehas]. rewrite dsd_kind_default. repeat apply conj; auto.
          destruct (edata e); auto; intros y [].
      - intros [n m a h d] (H1 & H2 & H3 & H4). apply post_ret. cbn in *. unfold copy_info. rewrite !copy_id.
        repeat apply conj; auto.
    Qed.

    Lemma circular_good : forall e root k p, rfind r k = Some p -> root = p -> regular_registry r -> closed r (circular (ename e) root).
    Proof.
      intros e root k p Hk -> RR. unfold circular. constructor.
      - unfold clone. cbn. apply kind_name_reserved. destruct (RR k p Hk) as (_ & _ & H). intros E.
        assert (N : ekind p <> KEnum) by congruence. specialize (H N). unfold regular_head in H. unfold ekind in E. destruct H as [_ H].
        destruct (edata p); discriminate || contradiction.
      - intros s q Ed Eh. exfalso. unfold clone in Eh. cbn in Eh. discriminate.
      - intros c Hc. unfold visible, stand_in in Hc. unfold clone in Hc. cbn [set_meta ehas emeta cValue cMeta cNoMetaId cElement cAttributes] in Hc.
        rewrite ifind_iset in Hc. cbn in Hc. destruct Hc.
    Qed.

    Lemma find_root_registered : forall f n p x, rfind r n = Some p -> find_root_from f r n p = Some x -> exists k, rfind r k = Some x.
    Proof.
      induction f as [|f IHf]; intros n p x E H; [discriminate|]. cbn [find_root_from] in H.
      destruct (is_reserved (ename p)); [injection H as <-; eauto|].
      destruct (rfind r (ename p)) as [q|] eqn:Eq; [|injection H as <-; eauto].
      destruct (String.eqb (ename p) n); [injection H as <-; eauto|]. now apply (IHf (ename p) q).
    Qed.

    Lemma copy_meta_id_fields : forall d e, ename (copy_meta_id d e) = ename d /\ edata (copy_meta_id d e) = edata d /\
      ehas (copy_meta_id d e) = ehas d /\ eattrs (copy_meta_id d e) = eattrs d.
    Proof.
      intros [n m a h d] e. unfold copy_meta_id. destruct (ifind (emeta e) "id") as [i|]; [destruct (ehas i)|]; auto.
    Qed.

    Lemma regular_tagged : forall k p, rfind r k = Some p -> regular_registry r -> regular r (tagged k p).
    Proof.
      intros k p Hk RR. destruct (RR k p Hk) as (H1 & H2 & H3). destruct (tagged_fields k p) as (F1 & F2 & F3 & F4 & F5).
      assert (Hh : regular_head r (tagged k p)).
      { unfold regular_head. rewrite F1, F2, F4. split; [exact H2|]. unfold ekind in *. unfold regular_head in H3.
        destruct (edata p) eqn:Ed; auto; cbn.
        - now destruct (H3 ltac:(discriminate)).
        - destruct (H3 ltac:(discriminate)) as (_ & _ & H4). auto. }
      intros x Wx. inversion Wx as [|? c ? Hc Wc]; subst; [exact Hh|]. rewrite parts_tagged in Hc. now apply (H1 c Hc).
    Qed.
    Lemma shaped_tagged : forall k p, well_shaped p -> well_shaped (tagged k p).
    Proof.
      intros k p H x Wx. destruct (tagged_fields k p) as (F1 & F2 & F3 & F4 & F5). inversion Wx as [|? c ? Hc Wc]; subst.
      - pose proof (H p (within_refl p)) as Hp. unfold shape_ok in *. rewrite F2, F3, F4. destruct (edata p) eqn:Ed; try exact Hp.
        split; [|apply Hp]. right. rewrite F1. unfold ekind. now rewrite Ed.
      - rewrite parts_tagged in Hc. apply H. now apply within_step with c.
    Qed.

    Definition namable (e : element) : Prop :=
      match edata e with DArray _ | DExtend _ | DOption _ | DObject _ | DEnum _ | DString _ | DNumber _ | DBoolean _ => True | _ => False end.

    Lemma namable_kind : forall e, namable e -> ekind e <> KHolder /\ forall s, edata e <> DRef s.
    Proof. intros e H. unfold namable in H. unfold ekind. destruct (edata e); try contradiction; split; discriminate. Qed.

    (** the parts of a copy produced by ExpandMembers are closed *)
    Lemma copy_closed : forall e y, namable e -> regular_registry r -> regular r e ->
      is_reserved (ename y) = true -> ekind y = ekind e -> eattrs y = eattrs e -> ehas y = ehas e ->
      (is_reserved (ename e) = false \/ ekind e <> KEnum) ->
      match edata e with DArray _ | DExtend _ | DOption _ | DObject _ | DEnum _ => good_children (entries e) (entries y) | _ => True end ->
      closed r y.
    Proof.
      intros e y Nm RR Re H1 H2 H3 H4 H5 H6. destruct (namable_kind e Nm) as [N1 N2].
      assert (Sameform : forall s, edata y <> DRef s).
      { intros s Ey. unfold ekind in H2. rewrite Ey in H2. cbn in H2. unfold namable in Nm. destruct (edata e); try discriminate; contradiction. }
      apply closed_parts; [exact H1|exact Sameform|].
      intros c Hc. unfold parts in Hc. apply in_app_or in Hc as [Hc|Hc].
      - assert (G : good_children (entries e) (entries y)).
        { unfold namable in Nm. destruct (edata e) eqn:Ed; try contradiction; try exact H6;
            unfold ekind in H2; rewrite Ed in H2; unfold entries; rewrite Ed, H4; destruct (edata y); try discriminate; destruct (ehas e); intros z []. }
        destruct (G c Hc) as (x & Hx & _ & Gx). apply Gx; [exact RR|]. apply regular_part with e; [exact Re|]. now apply entries_part.
      - destruct (edata y) eqn:Ey; try destruct Hc. rewrite H3 in Hc.
        assert (Ke : ekind e = KEnum) by (rewrite <- H2; unfold ekind; now rewrite Ey).
        destruct H5 as [H5|H5]; [|contradiction].
        pose proof (Re e (within_refl e)) as Rh. unfold regular_head in Rh. destruct Rh as [_ Rh]. unfold ekind in Ke.
        destruct (edata e); try discriminate. destruct Rh as [Rh|Rh]; [congruence|].
        apply in_map_iff in Hc as ((k & z) & <- & Hf). apply filter_In in Hf as [Hf Hk]. cbn in Hk. apply String.eqb_eq in Hk. subst k.
        apply plain_closed. now apply Rh.
    Qed.

    Lemma named_good : forall members e, registered members -> well_shaped e -> namable e -> is_reserved (ename e) = false ->
      post (expand_named r rec fuel members e) (good e).
    Proof.
      intros members e Hm W Nm Er. unfold expand_named. destruct (existsb (String.eqb (ename e)) members) eqn:Ex.
      - apply existsb_eqb_In in Ex. pose proof (Hm _ Ex) as Hr. unfold FindRootAncestor.
        destruct (rfind r (ename e)) as [p|] eqn:Ep; [|contradiction].
        destruct (find_root_from fuel r (ename e) p) as [root|] eqn:Ef; cbn [option_map]; [|exact I].
        destruct (find_root_registered _ _ _ _ Ep Ef) as [k Hk].
        apply post_ret. split; [congruence|]. intros RR _. now apply circular_good with k root.
      - destruct (inheritance_tree fuel r (ename e)) as [t|] eqn:Et; [|exact I].
        assert (Tk : ekind t = KExtend /\ (forall o, edata t <> DEnum o)).
        { unfold inheritance_tree in Et. destruct (inheritance fuel r (ename e) []) as [[[|? ?]|]|]; try discriminate; injection Et as <-; split; try reflexivity; discriminate. }
        destruct Tk as [Tk Tn].
        destruct (rfind r (ename e)) as [p0|] eqn:Ep.
        + assert (Hm' : registered (members ++ [ename e])).
          { intros k Hk. apply in_app_or in Hk as [Hk|[<-|[]]]; [now apply Hm|congruence]. }
          eapply post_bind; [apply members_good; [exact Hm'|]|].
          { intros c Hc. destruct (tree_entries _ _ _ _ _ Et Hc) as (k & p & Hk & ->). apply shaped_tagged. now apply (WR k). }
          intros ext (X1 & X2 & X3 & X4 & X5 & X6). cbv zeta.
          eapply post_bind; [apply members_good; [exact Hm|]|].
          { intros c Hc. apply well_shaped_part with e; [exact W|now apply entries_part]. }
          intros o (O1 & O2 & O3 & O4 & O5 & O6). apply post_ret. split; [congruence|]. intros RR Re.
          destruct (copy_meta_id_fields ext e) as (C1 & C2 & C3 & C4).
          set (ext' := copy_meta_id ext e) in *.
          apply closed_parts.
          * destruct ext' as [n' m' a' h' d'] eqn:Eext. cbn in C1 |- *. rewrite C1, X1, Tk. reflexivity.
          * destruct ext'; intros s; discriminate.
          * intros c Hc.
            assert (Hc' : In c (extend_content ext' ++ [set_meta o (ierase (emeta o) "id")])).
            { destruct ext' as [n' m' a' h' d']; unfold parts in Hc; cbn in Hc. rewrite app_nil_r in Hc. exact Hc. }
            apply in_app_or in Hc' as [Hc'|[<-|[]]].
            -- assert (Hc2 : In c (entries ext)).
               { unfold extend_content in Hc'. rewrite C2, C3 in Hc'. unfold entries. destruct (edata ext); try destruct Hc'. destruct (ehas ext); exact Hc'. }
               unfold ekind in Tk. destruct (edata t) eqn:Edt; try discriminate.
               destruct (X6 c Hc2) as (x & Hx & _ & Gx). destruct (tree_entries _ _ _ _ _ Et Hx) as (k & p & Hk & ->).
               apply Gx; [exact RR|]. now apply regular_tagged.
            -- destruct o as [n' m' a' h' d']. cbn in O1, O2, O3, O4, O5. apply (copy_closed e); auto.
               cbn. rewrite O1. apply kind_name_reserved. now apply namable_kind.
        + (* not registered: the tree is empty *)
          assert (t = make_empty KExtend) as ->.
          { unfold inheritance_tree in Et. destruct fuel as [|f']; [discriminate|]. cbn [inheritance] in Et. rewrite Ep in Et. now injection Et as <-. }
          assert (Em : expand_members rec (members ++ [ename e]) (make_empty KExtend) = ret (make_empty KExtend)) by reflexivity.
          rewrite Em. cbn [bind ret].
          eapply post_bind; [apply members_good; [exact Hm|]|].
          { intros c Hc. apply well_shaped_part with e; [exact W|now apply entries_part]. }
          intros o (O1 & O2 & O3 & O4 & O5 & O6). apply post_ret. split; [congruence|]. intros RR Re.
          destruct (copy_meta_id_fields (make_empty KExtend) e) as (C1 & C2 & C3 & C4).
          set (ext' := copy_meta_id (make_empty KExtend) e) in *.
          apply closed_parts.
          * destruct ext' as [n' m' a' h' d']. cbn in C1 |- *. rewrite C1. reflexivity.
          * destruct ext'; intros s; discriminate.
          * intros c Hc.
            assert (Hc' : In c (extend_content ext' ++ [set_meta o (ierase (emeta o) "id")])).
            { destruct ext' as [n' m' a' h' d']; unfold parts in Hc; cbn in Hc. rewrite app_nil_r in Hc. exact Hc. }
            apply in_app_or in Hc' as [Hc'|[<-|[]]].
            -- unfold extend_content in Hc'. rewrite C2, C3 in Hc'. destruct Hc'.
            -- destruct o as [n' m' a' h' d']. cbn in O1, O2, O3, O4, O5. apply (copy_closed e); auto.
               cbn. rewrite O1. apply kind_name_reserved. now apply namable_kind.
    Qed.

    Lemma attrs_good : forall members e o, registered members -> well_shaped e -> edata e = DEnum o ->
      forall l acc, (forall y, In ("enumerations"%string, y) l -> In ("enumerations"%string, y) (eattrs e)) ->
      (regular_registry r -> regular r e -> forall y, In ("enumerations"%string, y) acc -> closed r y) ->
      post (expand_enum_attrs rec members l acc) (fun a =>
        regular_registry r -> regular r e -> forall y, In ("enumerations"%string, y) a -> closed r y).
    Proof.
      intros members e o Hm W Ed.
      assert (Iset : forall (acc : info) k v y, In ("enumerations"%string, y) (iset acc k v) -> In ("enumerations"%string, y) acc \/ (k = "enumerations"%string /\ y = v)).
      { induction acc as [|(k' & v') acc IHa]; intros k v y Hy; cbn in Hy.
        - destruct Hy as [Hy|[]]. injection Hy as -> ->. auto.
        - destruct (String.eqb_spec k' k) as [->|Nk].
          + destruct Hy as [Hy|Hy]; [injection Hy as -> ->; auto|left; now right].
          + destruct Hy as [Hy|Hy]; [left; now left|]. apply IHa in Hy as [Hy|Hy]; [left; now right|auto]. }
      induction l as [|(k & x) l IHl]; intros acc Hl Ha; cbn [expand_enum_attrs]; [apply post_ret; exact Ha|].
      destruct (String.eqb_spec k "enumerations") as [->|Nk].
      - assert (Hx : In ("enumerations"%string, x) (eattrs e)) by (apply Hl; now left).
        pose proof (W e (within_refl e)) as Sh. unfold shape_ok in Sh. rewrite Ed in Sh. destruct Sh as [_ Sh].
        destruct (Sh x Hx) as [Xh Xk]. unfold ekind in Xk. destruct (edata x) as [| | | | |enums| | | | | | |] eqn:Edx; try discriminate. rewrite Xh.
        assert (Px : In x (parts e)) by now apply enums_part with o.
        eapply post_bind; [apply (post_mapR _ _ _ good)|].
        + intros c Hc. apply eoc_good; [exact Hm|]. apply well_shaped_part with x; [now apply well_shaped_part with e|].
          apply entries_part. unfold entries. now rewrite Xh, Edx.
        + intros l' F. apply IHl; [intros y Hy; apply Hl; now right|]. intros RR Re y Hy.
          apply Iset in Hy as [Hy|[_ ->]]; [now apply Ha|]. apply closed_parts; [reflexivity|discriminate|].
          intros c Hc. unfold parts in Hc. cbn in Hc. rewrite app_nil_r in Hc.
          destruct (Forall2_in_r _ _ _ _ _ _ F Hc) as (z & Hz & _ & Gz). apply Gz; [exact RR|].
          apply regular_part with x; [now apply regular_part with e|]. apply entries_part. unfold entries. now rewrite Xh, Edx.
      - apply IHl; [intros y Hy; apply Hl; now right|]. intros RR Re y Hy.
        apply Iset in Hy as [Hy|[Hk _]]; [now apply Ha|congruence].
    Qed.

    Lemma enum_good : forall members e o, registered members -> well_shaped e -> edata e = DEnum o ->
      post (expand_enum r rec fuel members e) (good e).
    Proof.
      intros members e o Hm W Ed. unfold expand_enum. destruct (is_reserved (ename e)) eqn:Er; cbn [negb].
      - eapply post_bind with (P := fun y => ename y = "enum"%string /\ ekind y = KEnum /\ eattrs y = [] /\ ehas y = ehas e /\ good_children (entries e) (entries y)).
        + unfold entries. destruct (ehas e) eqn:Eh.
          * eapply post_bind; [apply value_good; [exact Hm|]|].
            { intros c Hc. apply well_shaped_part with e; [exact W|]. apply entries_part. unfold entries. now rewrite Eh. }
            intros d (Dk & Hd). apply post_ret. rewrite Ed in Dk, Hd |- *. cbn [make_element ename ekind edata ehas eattrs]. unfold ekind. cbn [edata].
            rewrite Dk. repeat apply conj; auto.
          * apply post_ret. repeat apply conj; auto. intros y [].
        + intros y (Y1 & Y2 & Y3 & Y4 & Y5).
          eapply post_bind; [apply (attrs_good members e o Hm W Ed (eattrs e) []); [auto|intros _ _ z []]|].
          intros a Ha. apply post_ret. destruct y as [yn ym ya yh yd]. cbn in Y1, Y3, Y4 |- *. subst yn ya yh. split.
          * intros _. unfold ekind in *. rewrite Ed. exact Y2.
          * intros RR Re. apply closed_parts; [reflexivity| |].
            -- intros s Es. cbn in Es. subst yd. discriminate.
            -- intros c Hc. unfold parts in Hc. cbn in Hc. apply in_app_or in Hc as [Hc|Hc].
               ++ destruct (Y5 c Hc) as (x & Hx & _ & Gx). apply Gx; [exact RR|]. apply regular_part with e; [exact Re|now apply entries_part].
               ++ destruct yd; try destruct Hc. apply in_map_iff in Hc as ((k & z) & <- & Hf). apply filter_In in Hf as [Hf Hk].
                  cbn in Hk. apply String.eqb_eq in Hk. subst k. now apply (Ha RR Re).
      - apply named_good; auto. unfold namable. now rewrite Ed.
    Qed.

    Lemma clone_cAll : forall e, clone cAll e = e.
    Proof.
      intros [n m a h d]. unfold clone. cbn. rewrite !copy_id, dsd_map_id; [reflexivity|intros; apply clone_all_id].
    Qed.

    Lemma closed_set_meta : forall e m, closed r e -> (stand_in e = true -> ifind m "ref" <> None) -> closed r (set_meta e m).
    Proof.
      intros e m H Hs. inversion H as [e' H1 H2 H3]; subst. destruct e as [n m0 a h d]. cbn in *. constructor; cbn; auto.
      intros c Hc. apply H3. unfold visible in *. destruct (stand_in (Elem n m0 a h d)) eqn:E1.
      - specialize (Hs eq_refl). unfold stand_in in *. cbn in *. apply andb_prop in E1 as [E1 _]. rewrite E1 in Hc. cbn in Hc.
        destruct (ifind m "ref"); [destruct Hc|contradiction].
      - destruct (stand_in (Elem n m a h d)); [destruct Hc|]. exact Hc.
    Qed.
    Lemma meta_id_to_ref_closed : forall x, closed r x -> closed r (meta_id_to_ref x).
    Proof.
      intros x H. unfold meta_id_to_ref. destruct (ifind (emeta x) "id") as [i|]; [|exact H]. destruct (ehas i); [|exact H].
      apply closed_set_meta; [exact H|]. intros _. rewrite ifind_ierase, ifind_iset. cbn. discriminate.
    Qed.

    Lemma reference_good : forall members e s, registered members -> well_shaped e -> edata e = DRef s ->
      post (expand_reference r rec members e) (good e).
    Proof.
      intros members e s Hm W Ed. unfold expand_reference. rewrite clone_cAll. pose proof (W e (within_refl e)) as Sh.
      unfold shape_ok in Sh. rewrite Ed in Sh. unfold eget. rewrite Sh, Ed.
      assert (Unres : (s = ""%string \/ rfind r s = None) -> good e e).
      { intros Hs. split; [auto|]. intros RR Re. pose proof (Re e (within_refl e)) as Rh. unfold regular_head in Rh. rewrite Ed in Rh.
        destruct Rh as (_ & R1 & R2 & _). constructor; [exact R1| |].
        - intros s0 p E1 _ E3 E4. rewrite Ed in E1. injection E1 as <-. destruct Hs; congruence.
        - intros c Hc. unfold visible, parts, entries in Hc. rewrite Ed, Sh, R2 in Hc. cbn in Hc. destruct (stand_in e); destruct Hc. }
      destruct (String.eqb_spec s "") as [Es|Es]; [apply post_ret; apply Unres; now left|].
      destruct (existsb (String.eqb s) members) eqn:Ex; [exact I|].
      destruct (rfind r s) as [q|] eqn:Eq; [|apply post_ret; apply Unres; now right].
      eapply post_bind; [apply eoc_good|].
      - intros k Hk. apply in_app_or in Hk as [Hk|[<-|[]]]; [now apply Hm|congruence].
      - now apply (WR s).
      - intros x [_ Gx]. apply post_ret. split.
        + intros _. destruct e as [n m a h d]. cbn in Ed. subst d. reflexivity.
        + intros RR Re. pose proof (Re e (within_refl e)) as Rh. unfold regular_head in Rh. rewrite Ed in Rh.
          destruct Rh as (_ & R1 & R2 & R3). destruct (RR s q Eq) as (Q1 & Q2 & Q3).
          assert (Cx : closed r x).
          { apply Gx; [exact RR|]. intros z Wz. inversion Wz as [|? c ? Hc Wc]; subst; [apply Q3, (R3 q Eq)|now apply (Q1 c Hc)]. }
          destruct e as [n m a h d]. cbn in Ed, Sh, R1, R2 |- *. subst d h. constructor; cbn; [exact R1| |].
          * intros s0 p0 E1 _ E3 E4. rewrite ifind_iset. cbn. discriminate.
          * intros c Hc. unfold visible, parts, entries in Hc. cbn in Hc. rewrite ifind_iset in Hc. cbn in Hc.
            destruct Hc as [<-|[]]. now apply meta_id_to_ref_closed.
    Qed.

    Lemma ptr_good : forall members o, registered members -> (forall c, o = Some c -> well_shaped c) ->
      post (expand_or_clone_ptr rec members o) (fun o' => good_children (opt_list o) (opt_list o')).
    Proof.
      intros members [c|] Hm W; cbn [expand_or_clone_ptr]; [|apply post_ret; intros y []].
      eapply post_bind; [apply eoc_good; [exact Hm|now apply W]|]. intros x Hx. apply post_ret.
      intros y [<-|[]]. exists c. split; [now left|exact Hx].
    Qed.

    Lemma round_good : forall members e, registered members -> well_shaped e ->
      post (expand_round r rec fuel members e) (fun o => good e (match o with Some x => x | None => e end)).
    Proof.
      intros members e Hm W. destruct (expandable_total e W) as [b Eb].
      assert (SomeP : forall m : run element, post m (good e) -> post (bind m (fun x => ret (Some x))) (fun o => good e (match o with Some x => x | None => e end))).
      { intros m H. eapply post_bind; [exact H|]. intros a Ha. apply post_ret. exact Ha. }
      assert (Inert : b = false -> good e e).
      { intros ->. split; [auto|]. intros RR Re. now apply inert_closed. }
      assert (CondP : forall m : run element, (b = true -> post m (good e)) ->
         post (match expandable e with None => undefined | Some false => ret None | Some true => bind m (fun x => ret (Some x)) end)
              (fun o => good e (match o with Some x => x | None => e end))).
      { intros m H. rewrite Eb. destruct b; [apply SomeP; now apply H|apply post_ret; now apply Inert]. }
      assert (PrimP : namable e -> ekind e <> KEnum -> (is_reserved (ename e) = true -> regular_registry r -> regular r e -> closed r e) ->
         post (if negb (is_reserved (ename e)) then bind (expand_named r rec fuel members e) (fun x => ret (Some x)) else ret None)
              (fun o => good e (match o with Some x => x | None => e end))).
      { intros Nm Ne Hc. destruct (is_reserved (ename e)) eqn:Er; cbn [negb].
        - apply post_ret. split; [auto|]. now apply Hc.
        - apply SomeP. now apply named_good. }
      assert (ContP : namable e -> ekind e <> KEnum ->
         post (if negb (is_reserved (ename e)) then expand_named r rec fuel members e else expand_members rec members e) (good e)).
      { intros Nm Ne. destruct (is_reserved (ename e)) eqn:Er; cbn [negb]; [|now apply named_good].
        eapply post_impl; [apply members_good; [exact Hm|]|].
        - intros c Hc. apply well_shaped_part with e; [exact W|now apply entries_part].
        - intros y (Y1 & Y2 & Y3 & Y4 & Y5 & Y6). split; [auto|]. intros RR Re. apply (copy_closed e); auto.
          rewrite Y1. apply kind_name_reserved. now apply namable_kind. }
      assert (Leaf : parts e = [] -> (forall s, edata e <> DRef s) -> is_reserved (ename e) = true -> regular_registry r -> regular r e -> closed r e).
      { intros P0 N0 R0 _ _. apply closed_parts; auto. rewrite P0. intros c []. }
      pose proof (W e (within_refl e)) as Sh. unfold shape_ok in Sh.
      unfold expand_round. destruct (edata e) as [|o|s|s|bb|l|k v|l|o|s|l|l|l] eqn:Ed;
        try (apply CondP; intros _; apply ContP; unfold namable, ekind; rewrite Ed; [exact I|discriminate]).
      - apply post_ret. split; [auto|]. intros RR Re. apply Leaf; auto; [|congruence|].
        + unfold parts, entries. rewrite Ed. now destruct (ehas e).
        + pose proof (Re e (within_refl e)) as Rh. unfold regular_head in Rh. rewrite Ed in Rh. apply Rh.
      - apply post_ret. split; [auto|]. intros RR Re. pose proof (Re e (within_refl e)) as Rh. unfold regular_head in Rh. rewrite Ed in Rh. now destruct Rh.
      - apply PrimP; unfold namable, ekind; rewrite ?Ed; [exact I|discriminate|]. intros. apply Leaf; auto; [|congruence].
        unfold parts, entries. rewrite Ed. now destruct (ehas e).
      - apply PrimP; unfold namable, ekind; rewrite ?Ed; [exact I|discriminate|]. intros. apply Leaf; auto; [|congruence].
        unfold parts, entries. rewrite Ed. now destruct (ehas e).
      - apply PrimP; unfold namable, ekind; rewrite ?Ed; [exact I|discriminate|]. intros. apply Leaf; auto; [|congruence].
        unfold parts, entries. rewrite Ed. now destruct (ehas e).
      - (* member *)
        apply CondP. intros _. rewrite Sh.
        eapply post_bind; [apply ptr_good; [exact Hm|]|].
        { intros c ->. apply well_shaped_part with e; [exact W|]. apply entries_part. unfold entries. rewrite Sh, Ed. now left. }
        intros k' Hk'. eapply post_bind; [apply ptr_good; [exact Hm|]|].
        { intros c ->. apply well_shaped_part with e; [exact W|]. apply entries_part. unfold entries. rewrite Sh, Ed. cbn. apply in_or_app. right. now left. }
        intros v' Hv'. apply post_ret. split; [intros _; unfold ekind at 2; now rewrite Ed|]. intros RR Re.
        pose proof (Re e (within_refl e)) as Rh. unfold regular_head in Rh. rewrite Ed in Rh. destruct Rh as [_ Rh].
        apply closed_parts.
        + destruct e as [n m a h d]. cbn in *. exact Rh.
        + destruct e; discriminate.
        + intros c Hc. unfold parts in Hc. cbn in Hc. rewrite app_nil_r in Hc.
          apply in_app_or in Hc as [Hc|Hc].
          * destruct (Hk' c Hc) as (x & Hx & _ & Gx). apply Gx; [exact RR|]. apply regular_part with e; [exact Re|].
            apply entries_part. unfold entries. rewrite Sh, Ed. cbn. apply in_or_app. now left.
          * destruct (Hv' c Hc) as (x & Hx & _ & Gx). apply Gx; [exact RR|]. apply regular_part with e; [exact Re|].
            apply entries_part. unfold entries. rewrite Sh, Ed. cbn. apply in_or_app. now right.
      - apply SomeP. now apply enum_good with o.
      - apply SomeP. now apply reference_good with s.
      - (* select *)
        apply CondP. intros ->. destruct Sh as [Sh So].
        assert (Sh' : ehas e = true).
        { destruct Sh as [Sh|Sh]; [exact Sh|]. rewrite expandable_unfold in Eb. cbv zeta in Eb. rewrite Ed, Sh in Eb. cbn in Eb. now destruct (ehas e). }
        clear Sh. rename Sh' into Sh. rewrite Sh.
        eapply post_bind; [apply (post_mapR _ _ _ good)|].
        { intros o Ho. unfold expand_option. destruct (So o Ho) as [Ko Ro].
          eapply post_bind; [apply eoc_good; [exact Hm|]|].
          - apply well_shaped_part with e; [exact W|]. apply entries_part. unfold entries. now rewrite Sh, Ed.
          - intros x Hx. destruct Hx as [Kx Gx]. specialize (Kx Ro). rewrite Kx, Ko. apply post_ret. split; auto. }
        intros l' F. apply post_ret. split; [intros _; unfold ekind at 2; now rewrite Ed|]. intros RR Re.
        apply closed_parts; [reflexivity|discriminate|].
        intros c Hc. unfold parts in Hc. cbn in Hc. rewrite app_nil_r in Hc.
        destruct (Forall2_in_r _ _ _ _ _ _ F Hc) as (x & Hx & _ & Gx). apply Gx; [exact RR|]. apply regular_part with e; [exact Re|].
        apply entries_part. unfold entries. now rewrite Sh, Ed.
    Qed.
  End Round.

  Theorem expand_good : forall f members e, registered members -> well_shaped e ->
    post (expand f r members e) (fun o => good e (match o with Some x => x | None => e end)).
  Proof.
    induction f as [|f IHf]; intros members e Hm W; cbn [expand]; [exact I|]. now apply round_good.
  Qed.
End Closed.
