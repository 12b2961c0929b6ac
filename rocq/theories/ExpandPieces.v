(** What an expanded element consists of: pieces of the element and of the named types *)
From Verif Require Import Base Element ElementSpec ElementProofs Extend Registry Expand ExpandSpec ExpandProofs ExpandShape ExpandClosed ElementUtils GenConv Depth BodyProofs InfoProofs MsonSane.

Section Pieces.
  Context (Q : dsd element -> Prop) (r : registry).
  Hypothesis Qs : forall s, Q (DString s).
  Hypothesis Q0 : forall k, Q (dsd_default k).
  Hypothesis Ql : forall l, Q (DArray l) /\ Q (DObject l) /\ Q (DExtend l) /\ Q (DOption l) /\ Q (DSelect l).
  Hypothesis Qm : forall k v, Q (DMember k v) /\ Q (DEnum k).
  Notation ok := (allsub Q).
  Hypothesis Hr : forall k p, rfind r k = Some p -> ok p.

  Lemma ok_elem : forall n m a h d, Q d -> Forall ok (map snd m) -> Forall ok (map snd a) -> Forall ok (dsd_children d) -> ok (Elem n m a h d).
  Proof.
    intros n m a h d Qd M A D x Hx. inversion Hx as [|y c e Hc Hs]; subst; [exact Qd|]. unfold children in Hc. cbn [emeta eattrs edata] in Hc. rewrite Forall_forall in M, A, D.
    apply in_app_or in Hc as [Hc|Hc]; [exact (M c Hc x Hs)|]. apply in_app_or in Hc as [Hc|Hc]; [exact (A c Hc x Hs)|exact (D c Hc x Hs)].
  Qed.
  Lemma ok_parts : forall e, ok e -> Q (edata e) /\ Forall ok (map snd (emeta e)) /\ Forall ok (map snd (eattrs e)) /\ Forall ok (dsd_children (edata e)).
  Proof.
    intros e H. split; [apply H; constructor|]. repeat split; apply Forall_forall; intros c Hc x Hx; apply H; apply (sub_step x c e); auto; unfold children; apply in_or_app; [now left| |];
      right; apply in_or_app; [now left|now right].
  Qed.
  Lemma iset_ok : forall (l : info) k v, ok v -> Forall ok (map snd l) -> Forall ok (map snd (iset l k v)).
  Proof. intros l k v V L. rewrite Forall_map in *. now apply iset_all. Qed.
  Lemma ierase_ok : forall (l : info) k, Forall ok (map snd l) -> Forall ok (map snd (ierase l k)).
  Proof. intros l k L. rewrite Forall_map in *. unfold ierase. rewrite Forall_forall in *. intros x Hx. apply filter_In in Hx as [Hx _]. now apply L. Qed.
  Lemma str_ok : forall s, ok (make_element (DString s)).
  Proof. intros s. apply ok_elem; constructor || apply Qs. Qed.
  Lemma empty_ok : forall k, ok (make_empty k).
  Proof. intros k. apply ok_elem; try constructor; [apply Q0|destruct k; constructor]. Qed.
  Lemma set_meta_ok : forall e m, ok e -> Forall ok (map snd m) -> ok (set_meta e m).
  Proof. intros [n m a h d] m' E M. destruct (ok_parts _ E) as (D & _ & A & C). now apply ok_elem. Qed.
  Lemma set_attrs_ok : forall e a, ok e -> Forall ok (map snd a) -> ok (set_attrs e a).
  Proof. intros [n m a h d] a' E M. destruct (ok_parts _ E) as (D & M' & _ & C). now apply ok_elem. Qed.
  Lemma eset_ok : forall e d, ok e -> Q d -> Forall ok (dsd_children d) -> ok (eset e d).
  Proof. intros [n m a h d] d' E D C. destruct (ok_parts _ E) as (_ & M & A & _). now apply ok_elem. Qed.
  Lemma make_ok : forall d, Q d -> Forall ok (dsd_children d) -> ok (make_element d).
  Proof. intros d D C. apply ok_elem; auto; constructor. Qed.
  Lemma clone_ok : forall f e, ok e -> ok (clone f e).
  Proof.
    intros f e E. rewrite clone_unfold. destruct (ok_parts e E) as (D & M & A & C). apply ok_elem.
    - destruct (cValue f); [exact D|apply Q0].
    - destruct (cMeta f); [|constructor]. destruct (cNoMetaId f); [now apply ierase_ok|exact M].
    - destruct (cAttributes f); [exact A|constructor].
    - destruct (cValue f); [exact C|destruct (ekind e); constructor].
  Qed.
  Lemma copy_ok : forall l, Forall ok (map snd l) -> Forall ok (map snd (copy_info l)).
  Proof. intros l H. unfold copy_info. now rewrite copy_id. Qed.
  Lemma find_ok : forall (l : info) k v, ifind l k = Some v -> Forall ok (map snd l) -> ok v.
  Proof. intros l k v H L. rewrite Forall_forall in L. apply L. apply ifind_In in H. now apply (in_map snd) in H. Qed.
  Lemma meta_id_ok : forall d e, ok d -> ok e -> ok (copy_meta_id d e).
  Proof.
    intros d e D E. unfold copy_meta_id. destruct (ifind (emeta e) "id") as [i|] eqn:F; [|exact D]. destruct (ehas i); [|exact D].
    apply set_meta_ok; [exact D|]. destruct (ok_parts e E) as (_ & M & _). destruct (ok_parts d D) as (_ & M' & _). apply iset_ok; [|exact M']. apply clone_ok. now apply (find_ok _ _ _ F).
  Qed.
  Lemma to_ref_ok : forall e, ok e -> ok (meta_id_to_ref e).
  Proof.
    intros e E. unfold meta_id_to_ref. destruct (ifind (emeta e) "id") as [i|] eqn:F; [|exact E]. destruct (ehas i); [|exact E]. destruct (ok_parts e E) as (_ & M & _).
    apply set_meta_ok; [exact E|]. apply ierase_ok, iset_ok; [|exact M]. apply clone_ok. now apply (find_ok _ _ _ F).
  Qed.
  Lemma tagged_ok : forall n e, ok e -> ok (tagged n e).
  Proof. intros n e E. unfold tagged. apply set_meta_ok; [now apply clone_ok|]. apply iset_ok; [apply str_ok|]. now apply ok_parts, clone_ok. Qed.
  Lemma circular_ok : forall n e, ok e -> ok (circular n e).
  Proof. intros n e E. unfold circular. apply set_meta_ok; [now apply clone_ok|]. apply iset_ok; [apply str_ok|]. now apply ok_parts, clone_ok. Qed.
  Lemma inheritance_ok : forall f n seen l, Forall (fun ne => ok (snd ne)) seen -> inheritance f r n seen = Some (Some l) -> Forall (fun ne => ok (snd ne)) l.
  Proof.
    induction f as [|f IH]; intros n seen l S H; cbn [inheritance] in H; [discriminate|]. destruct (rfind r n) as [p|] eqn:E; [|now injection H as <-].
    destruct (is_reserved n); [now injection H as <-|]. destruct (existsb _ seen); [discriminate|]. apply (IH _ _ _) in H; [exact H|]. constructor; [|exact S]. apply tagged_ok. now apply (Hr n).
  Qed.
  Lemma tree_ok : forall f n t, inheritance_tree f r n = Some t -> ok t.
  Proof.
    intros f n t H. unfold inheritance_tree in H. destruct (inheritance f r n []) as [[[|x l]|]|] eqn:E; try discriminate; (assert (X : forall a b : element, Some a = Some b -> a = b) by congruence; apply X in H; subst t); try apply empty_ok.
    apply make_ok; [apply Ql|]. cbn [dsd_children]. apply (inheritance_ok f n [] (x :: l)) in E; [|constructor]. now rewrite <- Forall_map in E.
  Qed.
  Lemma root_ok : forall f n o, FindRootAncestor f r n = Some (Some o) -> ok o.
  Proof.
    intros f n o H. unfold FindRootAncestor in H. destruct (rfind r n) as [p|] eqn:E; [|discriminate]. destruct (find_root_from f r n p) as [x|] eqn:F; [|discriminate]. injection H as <-.
    destruct (find_root_registered r f n p x E F) as (k & K). now apply (Hr k).
  Qed.
  Section Round.
    Context (rec : list string -> element -> run (option element)).
    Hypothesis R : forall ms e, ok e -> yields (rec ms e) (fun o => forall y, o = Some y -> ok y).
    Lemma eoc_ok : forall ms e, ok e -> yields (expand_or_clone rec ms e) ok.
    Proof.
      intros ms e E. unfold expand_or_clone. eapply yields_bind; [apply (R ms e E)|]. intros [y|] H; apply yields_ret; [now apply H|now apply clone_ok].
    Qed.
    Lemma ptr_ok : forall ms o, (forall e, o = Some e -> ok e) -> yields (expand_or_clone_ptr rec ms o) (fun o' => forall y, o' = Some y -> ok y).
    Proof.
      intros ms [e|] E; cbn; [|apply yields_ret; discriminate]. eapply yields_bind; [apply (eoc_ok ms e (E e eq_refl))|]. intros y Y. apply yields_ret. intros z Hz. now injection Hz as <-.
    Qed.
    Lemma list_ok : forall ms l, Forall ok l -> yields (mapR (expand_or_clone rec ms) l) (Forall ok).
    Proof. intros ms l L. apply yields_mapR. intros x Hx. apply eoc_ok. rewrite Forall_forall in L. now apply L. Qed.
    Lemma value_ok : forall ms d, Q d -> Forall ok (dsd_children d) -> yields (expand_value rec ms d) (fun d' => Q d' /\ Forall ok (dsd_children d')).
    Proof.
      intros ms d D C. destruct d as [|o|s|s|b|l|k v|l|o|s|l|l|l]; cbn [expand_value dsd_children] in *; try (apply yields_ret; now split).
      - eapply yields_bind; [apply (list_ok ms l C)|]. intros l' L. apply yields_ret. split; [apply Ql|exact L].
      - eapply yields_bind; [apply (list_ok ms l C)|]. intros l' L. apply yields_ret. split; [apply Ql|]. cbn. rewrite Forall_forall in *. intros x Hx. apply push_all_In in Hx as [[]|Hx]. now apply L.
      - eapply yields_bind; [apply (ptr_ok ms o)|].
        + intros e ->. cbn in C. now inversion C.
        + intros o' H. apply yields_ret. split; [now apply (Qm o' None)|]. cbn. destruct o' as [y|]; constructor; [now apply H|constructor].
      - eapply yields_bind; [apply (list_ok ms l C)|]. intros l' L. apply yields_ret. split; [apply Ql|exact L].
      - eapply yields_bind; [apply (list_ok ms l C)|]. intros l' L. apply yields_ret. split; [apply Ql|exact L].
    Qed.
    Lemma members_ok : forall ms e, ok e -> yields (expand_members rec ms e) ok.
    Proof.
      intros ms e E. destruct (ok_parts e E) as (D & M & A & C). unfold expand_members. eapply yields_bind with (P := ok).
      - destruct (ehas e); [|apply yields_ret, empty_ok]. eapply yields_bind; [apply (value_ok ms _ D C)|]. intros d [D' C']. apply yields_ret. now apply make_ok.
      - intros o O. apply yields_ret. apply set_meta_ok; [apply set_attrs_ok; [exact O|now apply copy_ok]|now apply copy_ok].
    Qed.
    Lemma content_ok : forall e, ok e -> Forall ok (extend_content e).
    Proof. intros e E. unfold extend_content. destruct (ok_parts e E) as (_ & _ & _ & C). destruct (edata e); try constructor. destruct (ehas e); [exact C|constructor]. Qed.
    Lemma named_ok : forall f ms e, ok e -> yields (expand_named r rec f ms e) ok.
    Proof.
      intros f ms e E. unfold expand_named. destruct (existsb _ ms).
      - destruct (FindRootAncestor f r (ename e)) as [[o|]|] eqn:F; [|apply yields_undefined|apply yields_none]. apply yields_ret, circular_ok. now apply (root_ok f (ename e)).
      - destruct (inheritance_tree f r (ename e)) as [t|] eqn:T; [|apply yields_none]. eapply yields_bind; [apply (members_ok _ t); now apply (tree_ok f (ename e))|]. intros ext X. cbv zeta.
        eapply yields_bind; [apply (members_ok ms e E)|]. intros o O. apply yields_ret. assert (Y := meta_id_ok ext e X E). apply eset_ok; [exact Y|apply Ql|]. cbn [dsd_children].
        apply Forall_app. split; [now apply content_ok|]. constructor; [|constructor]. apply set_meta_ok; [exact O|]. apply ierase_ok. now apply ok_parts.
    Qed.
    Lemma reference_ok : forall ms e, ok e -> yields (expand_reference r rec ms e) ok.
    Proof.
      intros ms e E. unfold expand_reference. cbv zeta. assert (C := clone_ok cAll e E). destruct (eget (clone cAll e)) as [[| | | | | | | | |s| | |]|]; try exact (yields_undefined _ _).
      destruct (String.eqb s ""); [now apply yields_ret|]. destruct (existsb _ ms); [intros x; discriminate|]. destruct (rfind r s) as [p|] eqn:F; [|now apply yields_ret].
      eapply yields_bind; [apply (eoc_ok _ p (Hr s p F))|]. intros x X. apply yields_ret. apply set_attrs_ok; [exact C|]. apply iset_ok; [now apply to_ref_ok|now apply ok_parts].
    Qed.
    Lemma enum_attrs_ok : forall ms l acc, Forall ok (map snd l) -> Forall ok (map snd acc) -> yields (expand_enum_attrs rec ms l acc) (fun a => Forall ok (map snd a)).
    Proof.
      intros ms l. induction l as [|[k x] l IH]; intros acc L A; cbn [expand_enum_attrs]; [now apply yields_ret|]. inversion L as [|y l' Hx L']; subst. destruct (String.eqb k "enumerations").
      - destruct (ok_parts x Hx) as (_ & _ & _ & C). destruct (edata x) as [| | | | |en| | | | | | |]; try exact (yields_undefined _ _). destruct (ehas x); [|apply yields_undefined].
        eapply yields_bind; [apply (list_ok ms en C)|]. intros l2 L2. apply IH; [exact L'|]. apply iset_ok; [|exact A]. apply make_ok; [apply Ql|exact L2].
      - apply IH; [exact L'|]. apply iset_ok; [now apply clone_ok|exact A].
    Qed.
    Lemma enum_ok : forall f ms e, ok e -> yields (expand_enum r rec f ms e) ok.
    Proof.
      intros f ms e E. unfold expand_enum. destruct (negb _); [now apply named_ok|]. destruct (ok_parts e E) as (D & M & A & C). eapply yields_bind with (P := ok).
      - destruct (ehas e); [|apply yields_ret, empty_ok]. eapply yields_bind; [apply (value_ok ms _ D C)|]. intros d [D' C']. apply yields_ret. now apply make_ok.
      - intros o O. eapply yields_bind; [apply (enum_attrs_ok ms (eattrs e) []); [exact A|constructor]|]. intros a Ha. apply yields_ret.
        apply set_attrs_ok; [|exact Ha]. apply set_meta_ok; [exact O|now apply copy_ok].
    Qed.
    Lemma round_ok : forall f ms e, ok e -> yields (expand_round r rec f ms e) (fun o => forall y, o = Some y -> ok y).
    Proof.
      intros f ms e E. assert (W : forall m, yields m ok -> yields (bind m (fun x => ret (Some x))) (fun o => forall y, o = Some y -> ok y)).
      { intros m H. eapply yields_bind; [exact H|]. intros x X. apply yields_ret. intros y Hy. now injection Hy as <-. }
      assert (I : forall m, yields m ok -> yields (match expandable e with None => undefined | Some false => ret None | Some true => bind m (fun x => ret (Some x)) end) (fun o => forall y, o = Some y -> ok y)).
      { intros m H. destruct (expandable e) as [[|]|]; [now apply W|apply yields_ret; discriminate|apply yields_undefined]. }
      destruct (ok_parts e E) as (D & M & A & C). unfold expand_round. cbv zeta. destruct (edata e) as [|o|s|s|b|l|k v|l|o|s|l|l|l] eqn:K; cbn [dsd_children] in C.
      - apply yields_ret; discriminate.
      - apply yields_ret; discriminate.
      - destruct (negb _); [apply W; now apply named_ok|apply yields_ret; discriminate].
      - destruct (negb _); [apply W; now apply named_ok|apply yields_ret; discriminate].
      - destruct (negb _); [apply W; now apply named_ok|apply yields_ret; discriminate].
      - apply I. destruct (negb _); [now apply named_ok|now apply members_ok].
      - apply I. destruct (ehas e); [|apply yields_undefined]. eapply yields_bind; [apply (ptr_ok ms k)|].
        { intros x ->. cbn in C. now inversion C. }
        intros k' Hk. eapply yields_bind; [apply (ptr_ok ms v)|].
        { intros x ->. rewrite Forall_forall in C. apply C. apply in_or_app. right. now left. }
        intros v' Hv. apply yields_ret. apply eset_ok; [now apply clone_ok|now apply Qm|]. cbn. apply Forall_app. split; [destruct k' as [x|]|destruct v' as [x|]]; constructor; auto; constructor.
      - apply I. destruct (negb _); [now apply named_ok|now apply members_ok].
      - apply W. now apply enum_ok.
      - apply W. now apply reference_ok.
      - apply I. destruct (negb _); [now apply named_ok|now apply members_ok].
      - apply I. destruct (negb _); [now apply named_ok|now apply members_ok].
      - apply I. destruct (ehas e); [|apply yields_undefined]. eapply yields_bind with (P := Forall ok).
        + apply yields_mapR. intros x Hx. unfold expand_option. rewrite Forall_forall in C. eapply yields_bind; [apply (eoc_ok ms x (C x Hx))|]. intros y Y. destruct (ekind y); try exact (yields_undefined _ _). now apply yields_ret.
        + intros l' L'. apply yields_ret. apply set_meta_ok; [apply make_ok; [apply Ql|exact L']|now apply copy_ok].
    Qed.
  End Round.
  Theorem expand_ok : forall f ms e, ok e -> yields (expand f r ms e) (fun o => forall y, o = Some y -> ok y).
  Proof. induction f as [|f IH]; intros ms e E; cbn [expand]; [apply yields_none|]. now apply round_ok. Qed.
End Pieces.
