(** The exact result of converting enumerations *)
From Verif Require Import Base Element ElementSpec ElementProofs InfoProofs Extend Registry RegistryProofs Expand ElementUtils SourceMap
  JsonSpec SerializeSpec TypeTables Mson MsonSpec MsonProofs MsonSane MsonShape MsonAlike.

Lemma ss_refl : forall A (l : list A), subsequence l l.
Proof. intros A l. induction l; constructor; auto. Qed.
Lemma ss_nil_l : forall A (l : list A), subsequence [] l.
Proof. intros A l. induction l; constructor; auto. Qed.
Lemma ss_app : forall A (a a' b b' : list A), subsequence a a' -> subsequence b b' -> subsequence (a ++ b) (a' ++ b').
Proof. intros A a a' b b' S. induction S; cbn; intros T; try constructor; auto. Qed.
Lemma ss_in : forall A (a b : list A), subsequence a b -> incl a b.
Proof. intros A a b S. induction S; intros y H; [exact H| |right; auto]. destruct H as [<-|H]; [now left|right; auto]. Qed.
Lemma ss_length : forall A (a b : list A), subsequence a b -> List.length a <= List.length b.
Proof. intros A a b S. induction S; cbn; lia. Qed.
Lemma alike_refl : forall x, alike x x.
Proof. intros x. now repeat split. Qed.
Lemma alike_sym : forall x y, alike x y -> alike y x.
Proof. intros x y (A & B & C & D & E). repeat split; auto. - intros k H. symmetry. auto. - intros k H. symmetry. auto. - intros H. symmetry. apply E. congruence. Qed.
Lemma alike_trans : forall x y z, alike x y -> alike y z -> alike x z.
Proof.
  intros x y z (A & B & C & D & E) (A' & B' & C' & D' & E'). repeat split; try congruence.
  - intros k H. now rewrite C, C'.
  - intros k H. now rewrite D, D'.
  - intros H. rewrite E by exact H. apply E'. congruence.
Qed.
Lemma distinct_snoc : forall l x, distinct l -> (forall y, In y l -> ~ alike y x) -> distinct (l ++ [x]).
Proof.
  intros l x D N. induction D as [|y l F D IH]; cbn; [repeat constructor|]. constructor.
  - apply Forall_app. split; [exact F|]. constructor; [|constructor]. apply N. now left.
  - apply IH. intros z Hz. apply N. now right.
Qed.
Lemma found_alike : forall x l b, sane x -> Forall sane l -> found (equal_ignoring x) l = Some b -> (b = true <-> exists y, In y l /\ alike x y).
Proof.
  intros x l b S F. revert b. induction F as [|y l Sy F IH]; intros b H; cbn [found any_string] in H.
  - injection H as <-. split; [discriminate|]. now intros (y & [] & _).
  - destruct (equal_decides x y S Sy) as [(E & A & _)|[(E & A)|(E & _)]]; rewrite E in H; [| |discriminate].
    + injection H as <-. split; [|reflexivity]. intros _. exists y. split; [now left|exact A].
    + rewrite (IH b H). split; intros (z & Hz & Az); exists z; (split; [|exact Az]).
      * now right.
      * destruct Hz as [<-|Hz]; [contradiction|exact Hz].
Qed.
Lemma found_alike' : forall x l b, sane x -> Forall sane l -> found (fun v => equal_ignoring v x) l = Some b -> (b = true <-> exists y, In y l /\ alike y x).
Proof.
  intros x l b S F. revert b. induction F as [|y l Sy F IH]; intros b H; cbn [found any_string] in H.
  - injection H as <-. split; [discriminate|]. now intros (y & [] & _).
  - destruct (equal_decides y x Sy S) as [(E & A & _)|[(E & A)|(E & _)]]; rewrite E in H; [| |discriminate].
    + injection H as <-. split; [|reflexivity]. intros _. exists y. split; [now left|exact A].
    + rewrite (IH b H). split; intros (z & Hz & Az); exists z; (split; [|exact Az]).
      * now right.
      * destruct Hz as [<-|Hz]; [contradiction|exact Hz].
Qed.
Lemma add_fold : forall p b l enums es w, Forall sane enums -> Forall sane l -> distinct enums ->
  foldW (add_to_enumerations p b) enums l = ret (es, w) ->
  exists new, es = (enums ++ new)%list /\ subsequence new l /\ distinct es /\ (forall x, In x l -> exists y, In y es /\ alike x y) /\
    w = if b then repeat (duplicate_warning p) (List.length l - List.length new) else [].
Proof.
  intros p b. induction l as [|x l IH]; intros enums es w Se Sl D H; cbn [foldW] in H.
  - minv H. subst. exists []. split; [now rewrite app_nil_r|]. split; [constructor|]. split; [exact D|]. split; [intros ? []|]. now destruct b.
  - minv H. inversion Sl as [|? ? Sx Sl']; subst. unfold add_to_enumerations in H0. minv H0. minv H1. minv H1. assert (A := found_alike x enums a0 Sx Se H1). destruct a0.
    + minv H0. minv H0. subst a. destruct (proj1 A eq_refl) as (y & Hy & Ay).
      apply IH in H as (new & -> & Sn & Dn & Cn & Wn); [|assumption..]. exists new. split; [reflexivity|]. split; [now constructor|]. split; [exact Dn|]. split.
      * intros z [<-|Hz]; [|auto]. exists y. split; [apply in_or_app; now left|exact Ay].
      * subst. assert (L := ss_length _ _ _ Sn). destruct b; cbn [when] in H2.
        -- injection H2 as _ <-. cbn [List.length app]. replace (S (List.length l) - List.length new) with (S (List.length l - List.length new)) by lia. reflexivity.
        -- minv H2. now subst.
    + minv H0. subst a. assert (Nx : forall y, In y enums -> ~ alike y x).
      { intros y Hy Ay. assert (T : false = true); [|discriminate]. apply A. exists y. split; [exact Hy|now apply alike_sym]. }
      apply IH in H as (new & -> & Sn & Dn & Cn & Wn); [|apply Forall_app; now split; [|constructor]|exact Sl'|now apply distinct_snoc].
      exists (x :: new). rewrite <- app_assoc in *. split; [reflexivity|]. split; [now constructor|]. split; [exact Dn|]. split.
      * intros z [<-|Hz]; [|auto]. exists x. split; [|apply alike_refl]. apply in_or_app. right. now left.
      * subst. reflexivity.
Qed.
Lemma filter_unlike : forall vl l l', Forall sane vl -> Forall sane l -> filterO (not_in vl) l = Some l' -> unlike l vl l'.
Proof.
  intros vl l l' Sv Sl. revert l'. induction Sl as [|x l Sx Sl IH]; intros l' H; cbn [filterO] in H.
  - injection H as <-. split; [constructor|]. split; intros x [].
  - assert (Q : not_in vl x = option_map negb (found (fun v => equal_ignoring v x) vl)) by reflexivity. rewrite Q in H. clear Q.
    destruct (found (fun v => equal_ignoring v x) vl) as [b|] eqn:F; [|discriminate]. cbn [option_map] in H. assert (A := found_alike' x vl b Sx Sv F).
    destruct (filterO (not_in vl) l) as [t|] eqn:E; [|discriminate]. injection H as <-. destruct (IH t eq_refl) as (U1 & U2 & U3). destruct b; cbn [negb].
    + split; [now constructor|]. split; [|exact U3]. intros y [<-|Hy]; [right; now apply A|now apply U2].
    + split; [now constructor|]. split.
      * intros y [<-|Hy]; [left; now left|]. destruct (U2 y Hy) as [?|?]; [left; now right|now right].
      * intros y [<-|Hy] z Hz Az; [|now apply (U3 y Hy z)]. assert (T : false = true); [|discriminate]. apply A. now exists z.
Qed.
Lemma is_literal_spec : forall e b, sane e -> is_literal e = Some b -> (b = true <-> is_literal_value e \/ says_fixed e).
Proof.
  intros e b S H.
  assert (T : forall b, has_type_attribute e "fixed" = Some b -> (b = true <-> says_fixed e)).
  { clear b H. intros b H. unfold has_type_attribute in H. unfold says_fixed, type_entries, attr. destruct (ifind (eattrs e) "typeAttributes") as [v|] eqn:E.
    - apply sane_ifind in E as [_ O]; [|exact S]. apply type_attributes_ok in O as (Hh & l & Hd & F). destruct v as [n m a h d]. cbn in Hh, Hd, H. subst. cbn [edata].
      revert b H. induction F as [|x l (Hx & s & Dx & _) F IH]; intros b H; cbn [found any_string] in H.
      + injection H as <-. split; [discriminate|now intros (t & [] & _)].
      + rewrite Dx, Hx in H. destruct (String.eqb_spec s "fixed") as [->|N].
        * injection H as <-. split; [|reflexivity]. intros _. exists x. split; [now left|exact Dx].
        * rewrite (IH b H). split; intros (t & Ht & Et); exists t; (split; [|exact Et]); [now right|]. destruct Ht as [<-|Ht]; [|exact Ht]. rewrite Dx in Et. congruence.
    - injection H as <-. split; [discriminate|now intros (t & [] & _)]. }
  unfold is_literal in H. unfold is_literal_value. destruct (sane_elem (ename e) (emeta e) (eattrs e) (ehas e) (edata e)) as [P _].
  destruct (ekind e) eqn:K; cbn.
  - exfalso. specialize (S e (sub_refl e)). destruct S as (_ & _ & _ & _ & _ & S). unfold ekind in K. destruct (edata e); cbn in K; try discriminate. exact S.
  - apply T in H. rewrite H. intuition discriminate.
  - destruct (ehas e); [injection H as <-; tauto|apply T in H; rewrite H; intuition discriminate].
  - destruct (ehas e); [injection H as <-; tauto|apply T in H; rewrite H; intuition discriminate].
  - destruct (ehas e); [injection H as <-; tauto|apply T in H; rewrite H; intuition discriminate].
  - apply T in H. rewrite H. intuition discriminate.
  - apply T in H. rewrite H. intuition discriminate.
  - apply T in H. rewrite H. intuition discriminate.
  - apply T in H. rewrite H. intuition discriminate.
  - apply T in H. rewrite H. intuition discriminate.
  - apply T in H. rewrite H. intuition discriminate.
  - apply T in H. rewrite H. intuition discriminate.
  - apply T in H. rewrite H. intuition discriminate.
Qed.
Lemma fixed_same : forall e, (is_literal_value e -> says_fixed e) -> fixed_version e e.
Proof. intros e H. repeat split; auto. apply ss_refl. Qed.
Lemma fixed_new : forall e, is_literal_value e -> attr e "typeAttributes" = None ->
  fixed_version e (set_attrs e (iset (eattrs e) "typeAttributes" (make_element (DArray [str_elem "fixed"])))).
Proof.
  intros e L A. set (e' := set_attrs _ _).
  assert (At : forall k, attr e' k = if String.eqb "typeAttributes" k then Some (make_element (DArray [str_elem "fixed"])) else attr e k) by (intros k; apply attr_set).
  assert (T : type_entries e' = [str_elem "fixed"]) by (unfold type_entries; now rewrite At).
  assert (T0 : type_entries e = []) by (unfold type_entries; now rewrite A).
  unfold fixed_version. rewrite T, T0. repeat (split; [now destruct e|]).
  split; [intros k N; rewrite At; destruct (String.eqb_spec "typeAttributes" k); [now subst|reflexivity]|].
  split; [intros _; unfold says_fixed; rewrite T; eexists; split; [now left|reflexivity]|].
  split; [intros [N|(t & Ht & _)]; [contradiction|rewrite T0 in Ht; destruct Ht]|]. split; [repeat constructor|]. intros t [<-|[]]. now right.
Qed.
Lemma fixed_more : forall e n m a h l, is_literal_value e -> attr e "typeAttributes" = Some (Elem n m a h (DArray l)) -> ~ says_fixed e ->
  fixed_version e (set_attrs e (iset (eattrs e) "typeAttributes" (Elem n m a h (DArray (l ++ [str_elem "fixed"]))))).
Proof.
  intros e n m a h l L A NF. set (e' := set_attrs _ _).
  assert (At : forall k, attr e' k = if String.eqb "typeAttributes" k then Some (Elem n m a h (DArray (l ++ [str_elem "fixed"]))) else attr e k) by (intros k; apply attr_set).
  assert (T : type_entries e' = (l ++ [str_elem "fixed"])%list) by (unfold type_entries; now rewrite At).
  assert (T0 : type_entries e = l) by (unfold type_entries; now rewrite A).
  unfold fixed_version. rewrite T, T0. repeat (split; [now destruct e|]).
  split; [intros k N; rewrite At; destruct (String.eqb_spec "typeAttributes" k); [now subst|reflexivity]|].
  split; [intros _; unfold says_fixed; rewrite T; eexists; split; [apply in_or_app; right; now left|reflexivity]|].
  split; [intros [N|N]; contradiction|]. split.
  - rewrite <- (app_nil_r l) at 1. apply ss_app; [apply ss_refl|apply ss_nil_l].
  - intros t Ht. apply in_app_iff in Ht as [Ht|[<-|[]]]; auto.
Qed.
Lemma fix_entry_version : forall e e', sane e -> fix_entry e = ret e' -> fixed_version e e'.
Proof.
  intros e e' S H. unfold fix_entry in H. minv H. minv H0. assert (L := is_literal_spec e a S H0). destruct a.
  2:{ injection H as <-. apply fixed_same. intros Q. assert (false = true) by (apply L; now left). discriminate. }
  minv H. unfold append_fixed in H. destruct (ifind (eattrs e) "typeAttributes") as [v|] eqn:E.
  - assert (E' := E). apply sane_ifind in E' as [V O]; [|exact S]. apply type_attributes_ok in O as (Hh & l & Hd & F). destruct v as [n m a h d]. cbn in Hh, Hd. subst.
    assert (Hf : forall b, any_string "fixed" l = Some b -> (b = true <-> says_fixed e)).
    { intros b Hb. assert (G : has_type_attribute e "fixed" = Some b) by (unfold has_type_attribute; now rewrite E).
      unfold says_fixed, type_entries, attr. rewrite E. cbn [edata]. clear - F Hb. revert b Hb. induction F as [|x l (Hx & s & Dx & _) F IH]; intros b H; cbn [found any_string] in H.
      + injection H as <-. split; [discriminate|now intros (t & [] & _)].
      + rewrite Dx, Hx in H. destruct (String.eqb_spec s "fixed") as [->|N].
        * injection H as <-. split; [|reflexivity]. intros _. exists x. split; [now left|exact Dx].
        * rewrite (IH b H). split; intros (t & Ht & Et); exists t; (split; [|exact Et]); [now right|]. destruct Ht as [<-|Ht]; [|exact Ht]. rewrite Dx in Et. congruence. }
    destruct (any_string "fixed" l) as [[|]|] eqn:A; [| |discriminate].
    + injection H as <-. apply fixed_same. intros _. now apply (proj1 (Hf true eq_refl)).
    + injection H as <-. assert (NF : ~ says_fixed e) by (intros Q; apply (proj2 (Hf false eq_refl)) in Q; discriminate).
      apply fixed_more; [|exact E|exact NF]. destruct (proj1 L eq_refl); [assumption|contradiction].
  - injection H as <-. apply fixed_new; [|exact E]. destruct (proj1 L eq_refl) as [?|(t & Ht & _)]; [assumption|]. unfold type_entries, attr in Ht. rewrite E in Ht. destruct Ht.
Qed.

Lemma set_enum_default_shape : forall l e e' w, attr e "default" = None -> set_enum_default l e = ret (e', w) ->
  ename e' = ename e /\ ehas e' = ehas e /\ edata e' = edata e /\ emeta e' = emeta e /\
  (forall k, attr e' k = if String.eqb "default" k then
     match l with [] => None | _ => Some match last_of (concat (map fst l)) with Some x => enum_element x | None => make_empty KEnum end end else attr e k) /\
  (w = [] \/ exists p, w = [mson_warning "multiple definitions of 'default' value" p]) /\
  (w = [] <-> match l with [] | [([], _)] | [([_], _)] => True | _ => False end).
Proof.
  intros l e e' w N H. unfold set_enum_default in H. destruct l as [|[v p] l].
  - minv H. subst. repeat (split; [reflexivity|]). split; [intros k; destruct (String.eqb_spec "default" k) as [<-|]; [exact N|reflexivity]|]. split; [now left|easy].
  - minv H. minv H. subst e'. repeat (split; [now destruct e|]). split.
    + intros k. rewrite attr_set. destruct (String.eqb "default" k); [|reflexivity]. f_equal. rewrite merge_concat. unfold last_of. now destruct (rev _).
    + subst. rewrite app_nil_r. unfold when in H0. destruct l as [|i l].
      * destruct v as [|x [|y v]].
        -- minv H0. subst. split; [now left|easy].
        -- minv H0. subst. split; [now left|easy].
        -- injection H0 as _ <-. split; [right; eexists; reflexivity|]. split; [discriminate|easy].
      * assert (G : w0 = [mson_warning "multiple definitions of 'default' value" (fold_left (fun p i => append_places p (snd i)) ((v, p) :: i :: l) [])]) by (injection H0 as _ <-; reflexivity).
        rewrite G. split; [right; eexists; reflexivity|]. split; [discriminate|]. now destruct v as [|? [|? ?]].
Qed.
Lemma single_eq : forall l : list (list element * places), single l = single_entry (map fst l).
Proof.
  intros [|[[|x [|y t]] p] l]; try reflexivity. cbn [single single_entry map fst]. unfold eempty. rewrite clone_all_id. now destruct (ehas x).
Qed.
Lemma repeat_dup : forall p n, Forall (fun a => exists p, a = duplicate_warning p) (repeat (duplicate_warning p) n).
Proof. intros p n. induction n; constructor; [now exists p|assumption]. Qed.
Lemma finish_enum_shape : forall d e e' w, sane_data d -> fresh_element e -> finish_enum d e = ret (e', w) ->
  exists es entries w1 w2, w = (w1 ++ w2)%list /\
    enumeration (concat (map fst (inlines d))) (concat (map fst (values d))) (concat (map fst (samples d))) (concat (map fst (defaults d)))
      (concat (map fst (hints d))) es (List.length w1) /\
    Forall (fun a => exists p, a = duplicate_warning p) w1 /\
    (w2 = [] \/ exists p, w2 = [mson_warning "multiple definitions of 'default' value" p]) /\
    (w2 = [] <-> match defaults d with [] | [([], _)] | [([_], _)] => True | _ => False end) /\
    Forall2 fixed_version es entries /\ attr e' "enumerations" = list_attribute entries /\
    match (match single_entry (map fst (inlines d)) with Some x => Some x | None => single_entry (map fst (values d)) end) with
    | Some x => ehas e' = true /\ edata e' = DEnum (Some x) | None => ehas e' = false end /\
    attr e' "samples" = list_attribute (map enum_element (concat (map fst (samples d)))) /\
    attr e' "default" = match defaults d with [] => None | _ => Some match last_of (concat (map fst (defaults d))) with Some x => enum_element x | None => make_empty KEnum end end /\
    kept e e' /\ attr e' "sourceMap" = attr e "sourceMap".
Proof.
  intros d e e' w S (F1 & F2 & F3 & F4) H. unfold finish_enum in H. minv H. rename a into e1. rename H0 into Hs. rename H into Hd.
  set (SL := concat (map fst (samples d))) in *.
  assert (P : exists es entries w1, w0 = w1 /\
    enumeration (concat (map fst (inlines d))) (concat (map fst (values d))) (concat (map fst (samples d))) (concat (map fst (defaults d)))
      (concat (map fst (hints d))) es (List.length w1) /\ Forall (fun a => exists p, a = duplicate_warning p) w1 /\ Forall2 fixed_version es entries /\
    (forall k, attr e1 k = if String.eqb "enumerations" k then list_attribute entries else attr e k) /\ ename e1 = ename e /\ emeta e1 = emeta e /\
    match (match single_entry (map fst (inlines d)) with Some x => Some x | None => single_entry (map fst (values d)) end) with
    | Some x => ehas e1 = true /\ edata e1 = DEnum (Some x) | None => ehas e1 = false end).
  { clear Hd E. unfold save_enum in Hs. rewrite !map_clone_infos, !single_eq in Hs.
    set (e0 := match single_entry (map fst (inlines d)) with Some x => _ | None => _ end) in Hs.
    assert (E0 : ename e0 = ename e /\ emeta e0 = emeta e /\ eattrs e0 = eattrs e /\
      match (match single_entry (map fst (inlines d)) with Some x => Some x | None => single_entry (map fst (values d)) end) with
      | Some x => ehas e0 = true /\ edata e0 = DEnum (Some x) | None => ehas e0 = false end).
    { unfold e0. destruct (single_entry (map fst (inlines d))); [destruct e; now repeat split|]. destruct (single_entry (map fst (values d))); [destruct e; now repeat split|now repeat split]. }
    clearbody e0. destruct E0 as (E1 & E2 & E3 & E4). destruct S as (S1 & S2 & S3 & S4 & S5). apply merge_sane in S1, S2, S3, S4, S5.
    destruct (merge_infos (inlines d)) as [il ip] eqn:M1, (merge_infos (values d)) as [vl vp] eqn:M2, (merge_infos (hints d)) as [hl hp] eqn:M3,
      (merge_infos (samples d)) as [sl sp] eqn:M4, (merge_infos (defaults d)) as [dl dp] eqn:M5. cbn [fst] in *.
    apply (f_equal fst) in M1, M2, M3, M4, M5. rewrite merge_concat in M1, M2, M3, M4, M5. cbn [fst] in *. rewrite M1, M2, M3, M5. unfold SL in *. rewrite M4. clear M1 M2 M3 M4 M5.
    minv Hs. minv H. minv H. rename a into il'. apply filter_unlike in H; [|assumption..]. assert (Si : Forall sane il').
    { apply Forall_forall. intros x Hx. rewrite Forall_forall in S1. apply S1. now apply (ss_in _ _ _ (proj1 H)). }
    minv Hs. apply add_fold in H0; [|constructor|exact Si|constructor]. destruct H0 as (ei & -> & Q1 & D1 & C1 & W1). cbn [app] in *.
    minv Hs. assert (T1 : Forall sane ei) by (apply Forall_forall; intros x Hx; rewrite Forall_forall in Si; apply Si; now apply (ss_in _ _ _ Q1)).
    apply add_fold in H0; [|exact T1|exact S2|exact D1]. destruct H0 as (ev & -> & Q2 & D2 & C2 & W2).
    assert (T2 : Forall sane (ei ++ ev)) by (apply Forall_app; split; [exact T1|]; apply Forall_forall; intros x Hx; rewrite Forall_forall in S2; apply S2; now apply (ss_in _ _ _ Q2)).
    minv Hs. apply add_fold in H0; [|exact T2|exact S4|exact D2]. destruct H0 as (ea & -> & Q3 & D3 & C3 & W3).
    assert (T3 : Forall sane ((ei ++ ev) ++ ea)) by (apply Forall_app; split; [exact T2|]; apply Forall_forall; intros x Hx; rewrite Forall_forall in S4; apply S4; now apply (ss_in _ _ _ Q3)).
    minv Hs. apply add_fold in H0; [|exact T3|exact S3|exact D3]. destruct H0 as (ed & -> & Q4 & D4 & C4 & W4).
    assert (T4 : Forall sane (((ei ++ ev) ++ ea) ++ ed)) by (apply Forall_app; split; [exact T3|]; apply Forall_forall; intros x Hx; rewrite Forall_forall in S3; apply S3; now apply (ss_in _ _ _ Q4)).
    minv Hs. apply add_fold in H0; [|exact T4|exact S5|exact D4]. destruct H0 as (eh & -> & Q5 & D5 & C5 & W5).
    assert (T5 : Forall sane ((((ei ++ ev) ++ ea) ++ ed) ++ eh)) by (apply Forall_app; split; [exact T4|]; apply Forall_forall; intros x Hx; rewrite Forall_forall in S5; apply S5; now apply (ss_in _ _ _ Q5)).
    set (es := ((((ei ++ ev) ++ ea) ++ ed) ++ eh)%list) in *.
    set (u1 := repeat (duplicate_warning ip) (List.length il' - List.length ei)) in *. set (u2 := repeat (duplicate_warning vp) (List.length vl - List.length ev)) in *.
    set (u3 := repeat (duplicate_warning hp) (List.length hl - List.length eh)) in *.
    assert (Fin : exists wl, w13 = wl /\ wl = [] /\ exists entries, Forall2 fixed_version es entries /\ (forall k, attr e1 k = if String.eqb "enumerations" k then list_attribute entries else attr e k) /\
      ename e1 = ename e /\ emeta e1 = emeta e /\ match (match single_entry (map fst (inlines d)) with Some x => Some x | None => single_entry (map fst (values d)) end) with
      | Some x => ehas e1 = true /\ edata e1 = DEnum (Some x) | None => ehas e1 = false end).
    { assert (A0 : forall k, attr e0 k = attr e k) by (intros k; unfold attr; now rewrite E3). exists w13. split; [reflexivity|]. destruct es as [|x es'].
      - minv Hs. subst e1. split; [assumption|]. exists []. split; [constructor|]. split; [|now repeat split]. intros k. rewrite A0.
        destruct (String.eqb_spec "enumerations" k) as [<-|]; [exact F4|reflexivity].
      - minv Hs. minv Hs. minv H0. subst e1. split; [subst; reflexivity|]. exists a. rewrite map_clone. apply mapR_ret in H0.
        assert (FV : Forall2 fixed_version (x :: es') a).
        { clear -H0 T5. remember (x :: es') as L. clear HeqL. induction H0 as [|y z L a Ey R IH]; [constructor|]. inversion T5; subst. constructor; [now apply fix_entry_version|auto]. }
        split; [exact FV|]. split; [|destruct e0; exact (conj E1 (conj E2 E4))]. intros k. rewrite attr_set, A0. inversion FV; subst. reflexivity. }
    destruct Fin as (wl & -> & -> & entries & G1 & G2 & G3 & G4 & G5).
    exists es, entries, w0. split; [reflexivity|]. 
    assert (W : w0 = (u1 ++ u2 ++ u3)%list). { subst. cbn [app]. rewrite ?app_nil_r. reflexivity. }
    split; [|split; [|now repeat (split; [assumption|])]].
    - exists il', ei, ev, ea, ed, eh. split; [exact H|]. split; [unfold es; now rewrite <- !app_assoc|]. repeat (split; [assumption|]). split.
      + intros x Hx. rewrite !in_app_iff in Hx.
        assert (Up : forall a b x, (exists y, In y a /\ alike x y) -> exists y, In y (a ++ b)%list /\ alike x y).
        { intros a b z (y & Hy & Ay). exists y. split; [apply in_or_app; now left|exact Ay]. }
        destruct Hx as [Hx|[Hx|[Hx|[Hx|Hx]]]].
        * destruct H as (_ & U & _). destruct (U x Hx) as [Hi|(y & Hy & Ay)]; [unfold es; do 4 apply Up; now apply C1|].
          destruct (C2 y Hy) as (z & Hz & Az). unfold es. do 3 apply Up. exists z. split; [exact Hz|]. apply alike_trans with y; [now apply alike_sym|exact Az].
        * unfold es. do 3 apply Up. now apply C2.
        * unfold es. do 2 apply Up. now apply C3.
        * unfold es. apply Up. now apply C4.
        * now apply C5.
      + rewrite W. rewrite !app_length. unfold u1, u2, u3. rewrite !repeat_length. apply ss_length in Q1, Q2, Q5. lia.
    - rewrite W. rewrite !Forall_app. repeat split; apply repeat_dup. }
  destruct P as (es & entries & w1' & -> & P1 & P2 & P3 & P4 & P5 & P6 & P7).
  exists es, entries, w1', w1. split; [exact E|]. split; [exact P1|]. split; [exact P2|].
  rewrite merge_concat in Hd. fold SL in Hd. change (map enum_of SL) with (map enum_element SL) in Hd.
  destruct (samples_same (map enum_element SL) e1) as (R1 & R2 & R3 & R4).
  assert (N1 : attr e1 "samples" = None) by (rewrite P4; exact F2). assert (A1 := fun k => attr_samples (map enum_element SL) e1 k N1).
  apply set_enum_default_shape in Hd; [|rewrite A1, P4; exact F3]. destruct Hd as (V1 & V2 & V3 & V4 & V5 & V6 & V7).
  split; [exact V6|]. split; [exact V7|]. split; [exact P3|]. split; [rewrite V5, A1, P4; reflexivity|]. split; [|split; [|split; [|split]]].
  - destruct (match single_entry (map fst (inlines d)) with Some x => Some x | None => single_entry (map fst (values d)) end); [destruct P7; split; congruence|congruence].
  - rewrite V5, A1. reflexivity.
  - rewrite V5. reflexivity.
  - split; [congruence|]. split; [congruence|]. intros k Nk. rewrite V5, A1, P4, !(not_among _ _ _ Nk) by (cbn; tauto). reflexivity.
  - rewrite V5, A1, P4. reflexivity.
Qed.
