(** Lemmas for C80: members, one-of items, type sections and attributes as wholes *)
From Verif Require Import Base StringUtility StringSpec StringProofs ByteBuffer ByteSpec Markdown MarkdownSpec Regex RegexSpec RegexProofs RegexCaps Keywords KeywordsSpec KeywordsProofs Prop_Keywords
  Signature SignatureSpec SignatureProofs SignatureWhole TypeTables SourceMap Mson Prop_Bytes Prop_Strings TypeDefs TypeDefsSpec TypeDefsProofs MembersTree MembersSpec MembersRead MembersLeaves MembersMixin MembersParts MembersSteps
  MembersSections MembersEntries.
From Verif Require SectionsSpec SectionsItems SectionsKinds SectionsDoc SectionsLoop Payloads PayloadsSpec PayloadsText PayloadsNodes.
Import SectionsSpec(a_header, an_item, include_item, one_of_item, object_base, value_base, primitive_base).
Import PayloadsSpec(the_text, place, opens, row, padded).
Local Open Scope string_scope.

Lemma single_of_most : forall l, at_most_text l -> single_text l.
Proof. intros l [->|(d & m & ->)] T; [discriminate|eauto]. Qed.
Lemma into_single : forall x l l', into x l l' -> single_text l'.
Proof. intros x l l' H T. exfalso. destruct H as [k d v es m n|l0 N]; unfold told in T; rewrite last_snoc in T; discriminate. Qed.

Ltac by_parts := repeat (split; [first [eassumption | reflexivity]|]); first [eassumption | reflexivity].
Section Wholes.
Context (known : list (string * base_type)) (source context : string) (Small : (slen source < 2 ^ 64)%N).
Notation reads := (reads known).

Section Once.
Context (member : bool -> tree -> st -> outcome (melement * st)) (one_of : tree -> st -> outcome (list melement * st))
  (section : section_type -> base_type -> tree -> st -> outcome (msection melement * st)).
Context (Member : bool -> tree -> melement -> located -> Prop) (OneOf : tree -> list melement -> located -> Prop)
  (Section_ : kind -> base_type -> tree -> msection melement -> located -> Prop) (P : tree -> Prop).
Hypothesis (P_fits : forall t, P t -> fits source t)
  (HM : forall property t, P t -> reads (member property t) (Member property t))
  (HO : forall t, P t -> reads (one_of t) (OneOf t))
  (HS : forall k b t, P t -> reads (section (kind_section k) b t) (Section_ k b t))
  (HC : forall k b t s e, Section_ k b t s e -> sc_class s <> BlockDescriptionClass).

Notation node_says := (node_says known source context Member OneOf Section_).
Lemma node_single : forall t a a' e b, single_text (fst a) -> node_says t a a' e b -> single_text (fst a').
Proof.
  intros t a a' e b Sg H. destruct H; cbn [fst] in *; try (eapply into_single; eassumption); try assumption.
  - intros _. eauto.
  - match goal with Y : Section_ _ _ _ _ _ |- _ => apply HC in Y; cbn [sc_class] in Y end.
    match goal with |- single_text (if match ?c with _ => _ end then _ else _) => destruct c; try exact Sg; intros T; unfold told in T; rewrite last_snoc in T; cbn [sc_class] in T; congruence end.
Qed.
Lemma walk_reads : forall l a, (forall t, In t l -> P t) -> single_text (fst a) ->
  reads (walk (member_step source context member one_of section) l a) (nodes_say node_says l a).
Proof.
  intros l a F Sg. apply (reads_walk known (fun a => single_text (fst a))); [| |exact Sg].
  - intros t a' I S'. exact (step_reads known source context Small member one_of section Member OneOf Section_ P P_fits HM HO HS t a' (F t I) S').
  - intros t a0 a' e b _ S' N. exact (node_single t a0 a' e b S' N).
Qed.
Lemma adds_most : forall texts l l', adds_texts source texts l l' -> at_most_text l -> at_most_text l'.
Proof. intros texts l l' H. induction H as [l|t r d m l H1 H2 IH|t r d m d' m' l H1 H2 IH]; intros A; [exact A|apply IH; right; eauto..]. Qed.
Lemma in_row : forall Q r texts others t, row Q r texts others -> In t others -> In t r.
Proof. intros Q r texts others t (-> & _) I. apply in_or_app. now right. Qed.

Lemma member_once : forall (property : bool) item, (forall t r u, opens item t r -> In u r -> P u) ->
  reads (fun s : st => andthen (Payloads.starting item) (fun l =>
    match l with
    | [] => ByteBuffer.Wild
    | t :: r =>
      andthen (signature_of (if property then member_traits else value_traits) (reconstructed t) t s) (fun '(sg, s) =>
      andthen (member_name context property t sg s) (fun '(name, s) =>
      andthen (use_signature context t sg s) (fun '(m, s) =>
      andthen (descriptions source r (m_sections m)) (fun o =>
      match o with
      | None => Val (made property name m (m_sections m) (td_base (vd_type (m_value m))), s)
      | Some (l, r) =>
        andthen (walk (member_step source context member one_of section) r (l, td_base (vd_type (m_value m))) s) (fun '(a, s) =>
        Val (made property name m (fst a) (finalize_base (snd a)), s))
      end))))
    end)) (member_by known source context Member OneOf Section_ property item).
Proof.
  intros property item HP.
  refine (reads_ext _ _ (reads_item known item _ (fun t r x e => exists name m e1 texts others l0 l b e2, opening_says known context property t name m e1 /\ row text_node r texts others /\
    adds_texts source texts (m_sections m) l0 /\ nodes_say node_says others (l0, td_base (vd_type (m_value m))) (l, b) e2 /\ x = member_with property name m l (finished b) /\ e = (e1 ++ e2)%list) _) _).
  2: { intros x e. split.
       - intros (t & r & O & name & m & e1 & texts & others & l0 & l & b & e2 & H1 & H2 & H3 & H4 & -> & ->). now apply (member_whole known source context Member OneOf Section_ property item t r name m e1 texts others l0 l b e2).
       - intros H. inversion H as [t r name m e1 texts others l0 l b e2 O H1 H2 H3 H4]; subst. exists t, r. split; [exact O|]. eauto 16. }
  intros t r O.
  assert (Tail : forall name m, at_most_text (m_sections m) -> reads (fun s => andthen (descriptions source r (m_sections m)) (fun o =>
      match o with
      | None => Val (made property name m (m_sections m) (td_base (vd_type (m_value m))), s)
      | Some (l, r) =>
        andthen (walk (member_step source context member one_of section) r (l, td_base (vd_type (m_value m))) s) (fun '(a, s) =>
        Val (made property name m (fst a) (finalize_base (snd a)), s))
      end)) (fun x e => exists texts others l0 l b, row text_node r texts others /\ adds_texts source texts (m_sections m) l0 /\
        nodes_say node_says others (l0, td_base (vd_type (m_value m))) (l, b) e /\ x = member_with property name m l (finished b))).
  { intros name m Mt.
    assert (Fr : Forall (fits source) r) by (apply Forall_forall; intros u I; apply P_fits; exact (HP t r u O I)).
    refine (reads_ext _ _ (reads_pure _ (fun o x e => exists l0 others l b, o = Some (l0, others) /\ nodes_say node_says others (l0, td_base (vd_type (m_value m))) (l, b) e /\ x = member_with property name m l (finished b))
      (fun o => descriptions_iff source Small r (m_sections m) o Mt Fr) _) _).
    - intros o (texts & others & l0 & R & A & ->).
      refine (reads_ext _ _ (reads_bind (fun a x e => x = made property name m (fst a) (finalize_base (snd a)) /\ e = []) (walk_reads others (l0, td_base (vd_type (m_value m))) _ _) _) _).
      + intros u I. apply (HP t r u O). exact (in_row _ _ _ _ _ R I).
      + apply single_of_most. exact (adds_most _ _ _ A Mt).
      + intros a e _. exact (reads_val known _).
      + intros x e. split.
        * intros ([l b] & e1 & e2 & N & [-> ->] & ->). rewrite app_nil_r. exists l0, others, l, b. split; [reflexivity|]. split; [exact N|]. reflexivity.
        * intros (l1 & o1 & l & b & H & N & ->). injection H as <- <-. exists (l, b), e, []. rewrite app_nil_r. split; [exact N|]. split; [split; reflexivity|reflexivity].
    - intros x e. split.
      + intros (o & (texts & others & l0 & R & A & ->) & l1 & o1 & l & b & H & N & ->). injection H as <- <-. exists texts, others, l0, l, b. auto.
      + intros (texts & others & l0 & l & b & R & A & N & ->). exists (Some (l0, others)). split; [eauto 8|]. exists l0, others, l, b. auto. }
  refine (reads_ext _ _ (reads_bind (fun sg x e => exists p name m e1 e2 e3, sg = sig_of p /\ named_says known context t property (p_id p) name e1 /\
     (exists td ed vs b mapped, definition_says known context (p_attributes p) td ed /\ values_say p (td_base td) vs b mapped /\
       m = Mem (p_content p) (VD vs (TD b (td_spec td) (td_attrs td))) (rest_section t (p_rest p)) (lies_unless (negb mapped) t) (lies_unless (String.eqb (p_content p) "") t)
          (lies_unless (value_empty (VD vs td)) t) /\ e2 = on t (ed ++ referring context false (refers_to (td_spec td)))) /\
     (exists texts others l0 l b, row text_node r texts others /\ adds_texts source texts (m_sections m) l0 /\
        nodes_say node_says others (l0, td_base (vd_type (m_value m))) (l, b) e3 /\ x = member_with property name m l (finished b)) /\ e = (on t e1 ++ e2 ++ e3)%list)
     (signature_reads known (if property then member_traits else value_traits) (reconstructed t) t) _) _).
  - intros sg e0 (p & mm & S1 & -> & ->).
    refine (reads_ext _ _ (reads_bind (fun name x e => exists m e2 e3, 
     (exists td ed vs b mapped, definition_says known context (p_attributes p) td ed /\ values_say p (td_base td) vs b mapped /\
       m = Mem (p_content p) (VD vs (TD b (td_spec td) (td_attrs td))) (rest_section t (p_rest p)) (lies_unless (negb mapped) t) (lies_unless (String.eqb (p_content p) "") t)
          (lies_unless (value_empty (VD vs td)) t) /\ e2 = on t (ed ++ referring context false (refers_to (td_spec td)))) /\
     (exists texts others l0 l b, row text_node r texts others /\ adds_texts source texts (m_sections m) l0 /\
        nodes_say node_says others (l0, td_base (vd_type (m_value m))) (l, b) e3 /\ x = member_with property name m l (finished b)) /\ e = (e2 ++ e3)%list)
     (name_reads known context property t (sig_of p)) _) _).
    + intros name e1 _.
      refine (reads_ext _ _ (reads_bind (fun m x e => exists texts others l0 l b, row text_node r texts others /\ adds_texts source texts (m_sections m) l0 /\
        nodes_say node_says others (l0, td_base (vd_type (m_value m))) (l, b) e /\ x = member_with property name m l (finished b)) (use_reads known source context Small t p) _) _).
      * intros m e2 (td & ed & vs & b & mapped & D & V & -> & ->). apply Tail. apply rest_most.
      * intros x e. split.
        -- intros (m & e2 & e3 & A & B & ->). exists m, e2, e3. auto.
        -- intros (m & e2 & e3 & A & B & ->). exists m, e2, e3. auto.
    + intros x e. split.
      * intros (name & e1 & e4 & (ne & N & ->) & (m & e2 & e3 & A & B & ->) & ->). exists p, name, m, ne, e2, e3. auto.
      * intros (q & name & m & e1 & e2 & e3 & E & N & A & B & ->).
        assert (p = q) as <- by (unfold sig_of in E; destruct p, q; cbn in E; now injection E as -> -> -> -> -> ->).
        exists name, (on t e1), (e2 ++ e3)%list. split; [now exists e1|]. split; [|reflexivity]. exists m, e2, e3. auto.
  - intros x e. split.
    + intros (sg & f1 & f2 & (p & mm & S1 & -> & ->) & (q & name & m & e1 & e2 & e3 & E & N & (td & ed & vs & b & mapped & D & V & Em & ->) & (texts & others & l0 & l & b' & R & A & Ns & ->) & ->) & ->).
      assert (p = q) as <- by (unfold sig_of in E; destruct p, q; cbn in E; now injection E as -> -> -> -> -> ->). clear E.
      exists name, m, (on t (map (Says 6) mm ++ e1 ++ ed ++ referring context false (refers_to (td_spec td)))), texts, others, l0, l, b', e3.
      split; [|split; [exact R|split; [exact A|split; [exact Ns|split; [reflexivity|]]]]].
      * subst m. apply (opening_by known context property t p mm name e1 td ed vs b mapped); try assumption. destruct property; exact S1.
      * rewrite !on_app, <- !app_assoc. reflexivity.
    + intros (name & m & e1 & texts & others & l0 & l & b' & e3 & Op & R & A & Ns & -> & ->).
      inversion Op as [p mm name0 ne td ed vs b mapped S1 N D V E1 E2 E3]; subst.
      exists (sig_of p), (on t (map (Says 6) mm)), (on t ne ++ on t (ed ++ referring context false (refers_to (td_spec td))) ++ e3)%list. split; [|split].
      * exists p, mm. split; [|split; reflexivity]. destruct property; exact S1.
      * eexists p, name, _, ne, _, e3. split; [reflexivity|]. split; [exact N|]. split; [exists td, ed, vs, b, mapped; split; [exact D|]; split; [exact V|]; split; reflexivity|]. split; [|reflexivity].
        exists texts, others, l0, l, b'. auto.
      * rewrite !on_app, <- !app_assoc. reflexivity.
Qed.
Lemma one_of_once : forall item, (forall t r u, opens item t r -> In u r -> P u) ->
  reads (fun s : st => andthen (Payloads.starting item) (fun l =>
    match l with
    | [] => ByteBuffer.Wild
    | t :: r =>
      andthen (signature_of one_of_traits "" t s) (fun '(_, s) =>
      andthen (walk (one_of_step context member one_of section) r [] s) (fun '(l, s) =>
      Val (l, match l with [] => note (spot item) [Warns EmptyDefinitionCode "one of type must have nested members"] s | _ => s end)))
    end)) (one_of_by known context Member OneOf Section_ item).
Proof.
  intros item HP.
  refine (reads_ext _ _ (reads_item known item _ (fun t r l e => exists p m e', signed one_of_shape (the_text t) "" (Some (p, m)) /\ nodes_say (choice_says known context Member OneOf Section_) r [] l e' /\
    e = (on t (map (Says 6) m) ++ e' ++ match l with [] => on item [Says 6 "one of type must have nested members"] | _ => [] end)%list) _) _).
  2: { intros l e. split.
       - intros (t & r & O & p & m & e' & S1 & N & ->). now apply (one_of_whole known context Member OneOf Section_ item t r p m).
       - intros H. inversion H as [t r p m l0 e' O S1 N]; subst. exists t, r. split; [exact O|]. eauto 8. }
  intros t r O.
  refine (reads_ext _ _ (reads_bind (fun sg l e => exists e', nodes_say (choice_says known context Member OneOf Section_) r [] l e' /\
    e = (e' ++ match l with [] => on item [Says 6 "one of type must have nested members"] | _ => [] end)%list) (signature_reads known one_of_traits "" t) _) _).
  - intros sg e0 _.
    assert (W : reads (walk (one_of_step context member one_of section) r []) (nodes_say (choice_says known context Member OneOf Section_) r [])).
    { apply (reads_walk known (fun _ => True)); [|trivial|exact I]. intros u l I _. exact (choice_reads known context member one_of section Member OneOf Section_ P HM HO HS u l (HP t r u O I)). }
    refine (reads_ext _ _ (reads_bind (fun l y e => y = l /\ e = match l with [] => on item [Says 6 "one of type must have nested members"] | _ => [] end) W _) _).
    + intros l e _. refine (reads_fun _ _ (reads_ret known l (match l with [] => on item [Says 6 "one of type must have nested members"] | _ => [] end)) _). intros s. now destruct l.
    + intros l e. split.
      * intros (l0 & e1 & e2 & N & [-> ->] & ->). exists e1. auto.
      * intros (e' & N & ->). eexists l, e', _. split; [exact N|]. split; [split; reflexivity|reflexivity].
  - intros l e. split.
    + intros (sg & e1 & e2 & (p & m & S1 & -> & ->) & (e' & N & ->) & ->). exists p, m, e'. auto.
    + intros (p & m & e' & S1 & N & ->). eexists (sig_of p), _, _. split; [exists p, m; split; [exact S1|]; split; reflexivity|]. split; [exists e'; split; [exact N|reflexivity]|reflexivity].
Qed.
Lemma section_once : forall k b item, (forall t r u, opens item t r -> In u r -> P u) ->
  reads (fun s : st => andthen (Payloads.starting item) (fun l => match l with [] => ByteBuffer.Wild | t :: r => section_body source context member one_of (kind_section k) b t r s end))
    (section_by known source context Member OneOf k b item).
Proof.
  intros k b item HP.
  refine (reads_ext _ _ (reads_item known item _ (fun t r x e => exists x0 on_ e1 e2, head_says b t x0 e1 on_ /\
    (if on_ : bool then nodes_say (entry_says known source context Member OneOf k b) r x0 x e2 else x = x0 /\ e2 = []) /\ e = (e1 ++ e2)%list) _) _).
  2: { intros x e. split.
       - intros (t & r & O & x0 & [] & e1 & e2 & H & N & ->).
         + now apply (section_whole known source context Member OneOf k b item t r x0 x).
         + destruct N as [-> ->]. rewrite app_nil_r. now apply (section_refused known source context Member OneOf k b item t r).
       - intros H. inversion H as [t r x0 x' e1 e2 O Hd N|t r x0 e1 O Hd]; subst; exists t, r; (split; [exact O|]).
         + exists x0, true, e1, e2. auto.
         + exists x, false, e, []. rewrite app_nil_r. auto. }
  intros t r O. unfold section_body.
  assert (W : forall x0, reads (walk (section_step source context member one_of (kind_section k) b) r x0) (nodes_say (entry_says known source context Member OneOf k b) r x0)).
  { intros x0. apply (reads_walk known (fun _ => True)); [|trivial|exact I]. intros u x I _. exact (entry_reads known source context Small member one_of Member OneOf P P_fits HM HO k b u x (HP t r u O I)). }
  assert (G : reads (fun s : st => andthen (section_head b t s) (fun '(x, s) => (fun (x : msection melement * bool) s => if snd x then walk (section_step source context member one_of (kind_section k) b) r (fst x) s else Val (fst x, s)) x s))
    (fun y e => exists x e1 e2, head_says b t (fst x) e1 (snd x) /\ (if snd x : bool then nodes_say (entry_says known source context Member OneOf k b) r (fst x) y e2 else y = fst x /\ e2 = []) /\ e = (e1 ++ e2)%list)).
  { apply (reads_bind (fun (x : msection melement * bool) y e2 => if snd x then nodes_say (entry_says known source context Member OneOf k b) r (fst x) y e2 else y = fst x /\ e2 = []) (head_reads known b t)).
    intros [x0 []] e _; cbn [fst snd]; [apply W|apply reads_val]. }
  refine (reads_fun _ _ (reads_ext _ _ G _) _).
  - intros x e. split.
    + intros ([x0 on_] & e1 & e2 & H & N & ->). exists x0, on_, e1, e2. auto.
    + intros (x0 & on_ & e1 & e2 & H & N & ->). exists (x0, on_), e1, e2. auto.
  - intros s. now destruct (section_head b t s) as [[[y []] s1]| | |].
Qed.
Lemma section_class : forall k b item s e, section_by known source context Member OneOf k b item s e -> sc_class s <> BlockDescriptionClass.
Proof.
  assert (Hh : forall b t s e on_, head_says b t s e on_ -> sc_class s <> BlockDescriptionClass).
  { intros b t s e on_ H. destruct H as [p m c v es n w S1 W O| | |]; cbn; try discriminate. destruct W; discriminate. }
  assert (He : forall k b t s s' e on_, entry_says known source context Member OneOf k b t s s' e on_ -> sc_class s' = sc_class s) by (intros k b t s s' e on_ H; destruct H; reflexivity).
  intros k b item s e H. destruct H as [t r s s' e e' O Hd N|t r s e O Hd]; [|exact (Hh _ _ _ _ _ Hd)]. apply Hh in Hd. clear O.
  induction N as [a|t0 r0 a a' a'' e1 e2 S1 N IH|t0 r0 a a' e1 S1]; [exact Hd|..].
  - apply IH. rewrite (He _ _ _ _ _ _ _ S1). exact Hd.
  - now rewrite (He _ _ _ _ _ _ _ S1).
Qed.
End Once.

(** ** all depths *)
Definition deep (n : nat) (t : tree) : Prop := depth t <= n /\ within_source source t.
Lemma deep_fits : forall n t, deep n t -> fits source t.
Proof. intros n [ty x z m cs] [_ H]. exact (proj1 H). Qed.
Lemma deep_below : forall n item t r u, deep (S n) item -> opens item t r -> In u r -> deep n u.
Proof.
  intros n [ty x z m cs] t r u [D W] O I. assert (I' : In u cs).
  { unfold opens in O. destruct ty; try contradiction. destruct O as [(a & -> & _)|[-> _]]; [apply in_or_app; right; now right|now right]. }
  clear O I r t. cbn [depth] in D. destruct W as [_ W]. assert (D' : fold_right (fun c n => Nat.max (depth c) n) 0 cs <= n) by lia. clear D.
  induction cs as [|c cs IH]; [contradiction|]. cbn [fold_right] in D', W. destruct W as [W W']. destruct I' as [->|I']; [split; [lia|exact W]|apply IH; [exact W'|exact I'|lia]].
Qed.
Lemma all_read : forall n,
  (forall property t, deep n t -> reads (parse_member source context n property t) (member_says known source context property t)) /\
  (forall t, deep n t -> reads (parse_one_of source context n t) (one_of_says known source context t)) /\
  (forall k b t, deep n t -> reads (parse_section source context n (kind_section k) b t) (section_says known source context k b t)).
Proof.
  assert (C : forall k b t s e, section_says known source context k b t s e -> sc_class s <> BlockDescriptionClass).
  { intros k b t s e H. inversion H as [k0 b0 i s0 e0 H0]; subst. exact (section_class _ _ _ _ _ _ _ H0). }
  induction n as [|n (IM & IO & IS)].
  - repeat split; intros; exfalso; match goal with D : deep 0 ?t |- _ => destruct t, D as [D _]; cbn in D; lia end.
  - split; [|split].
    + intros property t D. refine (reads_ext _ _ (member_once (parse_member source context n) (parse_one_of source context n) (parse_section source context n) _ _ _ (deep n) (deep_fits n) IM IO IS C property t _) _).
      * intros t' r u O I. exact (deep_below n t t' r u D O I).
      * intros x e. split; [intros H; now constructor|intros H; now inversion H].
    + intros t D. refine (reads_ext _ _ (one_of_once (parse_member source context n) (parse_one_of source context n) (parse_section source context n) _ _ _ (deep n) IM IO IS t _) _).
      * intros t' r u O I. exact (deep_below n t t' r u D O I).
      * intros x e. split; [intros H; now constructor|intros H; now inversion H].
    + intros k b t D. refine (reads_ext _ _ (section_once (parse_member source context n) (parse_one_of source context n) _ _ (deep n) (deep_fits n) IM IO k b t _) _).
      * intros t' r u O I. exact (deep_below n t t' r u D O I).
      * intros x e. split; [intros H; now constructor|intros H; now inversion H].
Qed.
Lemma attributes_read : forall n item, deep (S n) item -> reads (parse_attributes source context n item) (attributes_say known source context item).
Proof.
  intros n item D. destruct (all_read n) as (IM & IO & IS).
  assert (C : forall k b t s e, section_says known source context k b t s e -> sc_class s <> BlockDescriptionClass).
  { intros k b t s e H. inversion H as [k0 b0 i s0 e0 H0]; subst. exact (section_class _ _ _ _ _ _ _ H0). }
  unfold parse_attributes.
  refine (reads_ext _ _ (reads_item known item _ (fun t r x e => exists p m td ed texts others l0 l b e', signed names_shape (the_text t) "" (Some (p, m)) /\
    definition_says known context (p_attributes p) td ed /\ row text_node r texts others /\ adds_texts source texts (rest_section t (p_rest p)) l0 /\
    nodes_say (node_says known source context (member_says known source context) (one_of_says known source context) (section_says known source context)) others
      (l0, match td_base td with UndefinedBT => ImplicitObjectBT | b => b end) (l, b) e' /\
    x = Str (TN UndefinedTN (Sym "" false)) (TD b (td_spec td) (td_attrs td)) l (lies t) [] (lies_unless (def_empty td) t) /\ e = (on t (map (Says 6) m ++ ed) ++ e')%list) _) _).
  2: { intros x e. split.
       - intros (t & r & O & p & m & td & ed & texts & others & l0 & l & b & e' & H1 & H2 & H3 & H4 & H5 & -> & ->). eapply attributes_by; eassumption.
       - intros H. inversion H as [t r p m td ed texts others l0 l b e' O H1 H2 H3 H4 H5]; subst. exists t, r. split; [exact O|]. exists p, m, td, ed, texts, others, l0, l, b, e'. by_parts. }
  intros t r O.
  assert (Fr : Forall (fits source) r) by (apply Forall_forall; intros u I; apply (deep_fits n); exact (deep_below n item t r u D O I)).
  refine (reads_ext _ _ (reads_bind (fun sg x e => exists p td ed texts others l0 l b e', sg = sig_of p /\
    definition_says known context (p_attributes p) td ed /\ row text_node r texts others /\ adds_texts source texts (rest_section t (p_rest p)) l0 /\
    nodes_say (node_says known source context (member_says known source context) (one_of_says known source context) (section_says known source context)) others
      (l0, match td_base td with UndefinedBT => ImplicitObjectBT | b => b end) (l, b) e' /\
    x = Str (TN UndefinedTN (Sym "" false)) (TD b (td_spec td) (td_attrs td)) l (lies t) [] (lies_unless (def_empty td) t) /\ e = (on t ed ++ e')%list) (signature_reads known attributes_traits "" t) _) _).
  - intros sg e0 (p & m & S1 & -> & ->).
    refine (reads_ext _ _ (reads_bind (fun td x e => exists texts others l0 l b, row text_node r texts others /\ adds_texts source texts (rest_section t (p_rest p)) l0 /\
    nodes_say (node_says known source context (member_says known source context) (one_of_says known source context) (section_says known source context)) others
      (l0, match td_base td with UndefinedBT => ImplicitObjectBT | b => b end) (l, b) e /\
    x = Str (TN UndefinedTN (Sym "" false)) (TD b (td_spec td) (td_attrs td)) l (lies t) [] (lies_unless (def_empty td) t)) (define_reads known context t (attributes (sig_of p))) _) _).
    + intros td ed _. cbv zeta. cbn [sig_of Signature.remaining].
      refine (reads_ext _ _ (reads_pure _ (fun o x e => exists l0 others l b, o = Some (l0, others) /\
        nodes_say (node_says known source context (member_says known source context) (one_of_says known source context) (section_says known source context)) others
          (l0, match td_base td with UndefinedBT => ImplicitObjectBT | b => b end) (l, b) e /\
        x = Str (TN UndefinedTN (Sym "" false)) (TD b (td_spec td) (td_attrs td)) l (lies t) [] (lies_unless (def_empty td) t))
        (fun o => descriptions_iff source Small r (rest_section t (p_rest p)) o (rest_most t (p_rest p)) Fr) _) _).
      * intros o (texts & others & l0 & R & A & ->).
        refine (reads_ext _ _ (reads_bind (fun a x e => x = Str (TN UndefinedTN (Sym "" false)) (TD (snd a) (td_spec td) (td_attrs td)) (fst a) (lies t) [] (lies_unless (def_empty td) t) /\ e = [])
          (walk_reads (parse_member source context n) (parse_one_of source context n) (parse_section source context n) _ _ _ (deep n) (deep_fits n) IM IO IS C others
            (l0, match td_base td with UndefinedBT => ImplicitObjectBT | b => b end) _ _) _) _).
        -- intros u I. apply (deep_below n item t r u D O). exact (in_row _ _ _ _ _ R I).
        -- apply single_of_most. exact (adds_most _ _ _ A (rest_most t (p_rest p))).
        -- intros a e _. exact (reads_val known _).
        -- intros x e. split.
           ++ intros ([l b] & e1 & e2 & N & [-> ->] & ->). rewrite app_nil_r. exists l0, others, l, b. split; [reflexivity|]. split; [exact N|]. reflexivity.
           ++ intros (l1 & o1 & l & b & H & N & ->). injection H as <- <-. exists (l, b), e, []. rewrite app_nil_r. split; [exact N|]. split; [split; reflexivity|reflexivity].
      * intros x e. split.
        -- intros (o & (texts & others & l0 & R & A & ->) & l1 & o1 & l & b & H & N & ->). injection H as <- <-. exists texts, others, l0, l, b. auto.
        -- intros (texts & others & l0 & l & b & R & A & N & ->). exists (Some (l0, others)). split; [eauto 8|]. exists l0, others, l, b. auto.
    + intros x e. split.
      * intros (td & e1 & e2 & (ed & Dd & ->) & (texts & others & l0 & l & b & R & A & N & ->) & ->). exists p, td, ed, texts, others, l0, l, b, e2. by_parts.
      * intros (q & td & ed & texts & others & l0 & l & b & e' & E & Dd & R & A & N & -> & ->).
        assert (p = q) as <- by (unfold sig_of in E; destruct p, q; cbn in E; now injection E as -> -> -> -> -> ->).
        exists td, (on t ed), e'. split; [now exists ed|]. split; [|reflexivity]. exists texts, others, l0, l, b. auto.
  - intros x e. split.
    + intros (sg & e1 & e2 & (p & m & S1 & -> & ->) & (q & td & ed & texts & others & l0 & l & b & e' & E & Dd & R & A & N & -> & ->) & ->).
      assert (p = q) as <- by (unfold sig_of in E; destruct p, q; cbn in E; now injection E as -> -> -> -> -> ->).
      exists p, m, td, ed, texts, others, l0, l, b, e'. split; [exact S1|]. do 4 (split; [assumption|]). split; [reflexivity|]. now rewrite on_app, <- app_assoc.
    + intros (p & m & td & ed & texts & others & l0 & l & b & e' & S1 & Dd & R & A & N & -> & ->).
      exists (sig_of p), (on t (map (Says 6) m)), (on t ed ++ e')%list. split; [exists p, m; split; [exact S1|]; split; reflexivity|]. split; [|now rewrite on_app, <- app_assoc].
      exists p, td, ed, texts, others, l0, l, b, e'. by_parts.
Qed.
End Wholes.
