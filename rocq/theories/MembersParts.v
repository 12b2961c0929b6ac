(** Lemmas for C80: first nodes of members, included types, kinds of nodes *)
From Verif Require Import Base StringUtility StringSpec StringProofs ByteBuffer ByteSpec Markdown MarkdownSpec Regex RegexSpec RegexProofs RegexCaps Keywords KeywordsSpec KeywordsProofs Prop_Keywords
  Signature SignatureSpec SignatureProofs SignatureWhole TypeTables SourceMap Mson Prop_Bytes Prop_Strings TypeDefs TypeDefsSpec TypeDefsProofs MembersTree MembersSpec MembersRead MembersLeaves MembersMixin.
From Verif Require SectionsSpec SectionsItems SectionsKinds SectionsDoc Payloads PayloadsSpec PayloadsText PayloadsNodes.
Import SectionsSpec(a_header, an_item, include_item, one_of_item, object_base, value_base, primitive_base).
Import PayloadsSpec(the_text, place, opens, row, padded).
Local Open Scope string_scope.

Section Parts.
Context (known : list (string * base_type)) (source context : string).
Notation reads := (reads known).

Lemma reads_item : forall {B} item (F : tree -> list tree -> st -> outcome (B * st)) Q, (forall t r, opens item t r -> reads (F t r) (Q t r)) ->
  reads (fun s => andthen (Payloads.starting item) (fun l => match l with [] => ByteBuffer.Wild | t :: r => F t r s end)) (fun y e => exists t r, opens item t r /\ Q t r y e).
Proof.
  intros B item F Q H s y s' K. split.
  - intros E. destruct (Payloads.starting item) as [[|t r]| | |] eqn:S1; try discriminate. apply starting_iff in S1. cbn [andthen] in E. apply (H t r S1) in E as (e & E & ->); [|exact K]. eauto 8.
  - intros (e & (t & r & O & E) & ->). apply starting_iff in O as S1. rewrite S1. cbn [andthen]. apply (H t r O); [exact K|eauto].
Qed.
Lemma name_reads : forall property t sg, reads (member_name context property t sg) (fun n e => exists e0, named_says known context t property (identifier sg) n e0 /\ e = on t e0).
Proof.
  intros [] t sg s n s' K; unfold member_name.
  - assert (T : t_text t = the_text t) by now destruct t. rewrite T.
    assert (A := fun o H => property_ok (s_tables s) context (the_text t) (identifier sg) o H). rewrite K in A. split.
    + intros H. destruct (property_total known context (the_text t) (identifier sg)) as [o O]. rewrite (A o O) in H. destruct o as [[[x v] e]|]; [|discriminate].
      exists (on t e). split; [exists e; split; [|reflexivity]|].
      * destruct (performed (deps (s_tables s)) e) as [d w]. cbn [andthen] in H. injection H as <- _. now apply named_property.
      * rewrite <- (noted_performed t e s). destruct (performed (deps (s_tables s)) e) as [d w]. cbn [andthen] in H. now injection H as _ <-.
    + intros (e & (e0 & N & ->) & ->). inversion N as [|id x v e1 P]; subst. rewrite (A _ P). rewrite <- (noted_performed t e0 s). now destruct (performed (deps (s_tables s)) e0) as [d w].
  - split.
    + intros H. injection H as <- <-. exists []. split; [exists []; split; [constructor|reflexivity]|reflexivity].
    + intros (e & (e0 & N & ->) & ->). inversion N; subst. reflexivity.
Qed.
Lemma unexpected_performs : forall t s, unexpected t s = perform (unexpected_node t) s.
Proof. intros [[] x z m cs] s; reflexivity. Qed.
Lemma all_unexpected : forall l s, fold_left (fun s t => unexpected t s) l s = perform (flat_map unexpected_node l) s.
Proof. induction l as [|t l IH]; intros s; [reflexivity|]. cbn [fold_left flat_map]. now rewrite IH, perform_app, unexpected_performs. Qed.
Lemma on_app : forall t a b, on t (a ++ b)%list = (on t a ++ on t b)%list.
Proof. intros t a b. apply map_app. Qed.
Lemma mixin_reads : forall item, reads (parse_mixin context item) (mixin_says known context item).
Proof.
  intros item. unfold parse_mixin.
  refine (reads_ext _ _ (reads_item item _ (fun t r td e => exists p m attrs e1 e2 e3, signed names_shape (the_text t) "" (Some (p, m)) /\ included (p_id p) (p_attributes p) attrs /\
    definition_says known context attrs td e1 /\
    e2 = (match td_base td with PrimitiveBT | UndefinedBT => [Says 3 "mixin type may not include a type of a primitive sub-type"] | _ => [] end) /\
    e3 = (match n_base (t_name (td_spec td)) with UndefinedTN => referring context true [n_symbol (t_name (td_spec td))] | _ => [] end) /\
    e = (on t (map (Says 6) m ++ e1 ++ e2 ++ e3) ++ flat_map unexpected_node r)%list) _) _).
  - intros t r O.
    refine (reads_ext _ _ (reads_bind (fun sg td e => exists e1 e2 e3, definition_says known context (mixin_attributes (identifier sg) (attributes sg)) td e1 /\
      e2 = (match td_base td with PrimitiveBT | UndefinedBT => [Says 3 "mixin type may not include a type of a primitive sub-type"] | _ => [] end) /\
      e3 = (match n_base (t_name (td_spec td)) with UndefinedTN => referring context true [n_symbol (t_name (td_spec td))] | _ => [] end) /\
      e = (on t (e1 ++ e2 ++ e3) ++ flat_map unexpected_node r)%list) (signature_reads known names_traits "" t) _) _).
    + intros sg e0 _.
      refine (reads_ext _ _ (reads_bind (fun td0 td e => exists e2 e3, td = td0 /\
        e2 = (match td_base td with PrimitiveBT | UndefinedBT => [Says 3 "mixin type may not include a type of a primitive sub-type"] | _ => [] end) /\
        e3 = (match n_base (t_name (td_spec td)) with UndefinedTN => referring context true [n_symbol (t_name (td_spec td))] | _ => [] end) /\
        e = (on t (e2 ++ e3) ++ flat_map unexpected_node r)%list) (define_reads known context t (mixin_attributes (identifier sg) (attributes sg))) _) _).
      * intros td e1 _.
        set (e2 := match td_base td with PrimitiveBT | UndefinedBT => [Says 3 "mixin type may not include a type of a primitive sub-type"] | _ => [] end).
        set (e3 := match n_base (t_name (td_spec td)) with UndefinedTN => referring context true [n_symbol (t_name (td_spec td))] | _ => [] end).
        refine (reads_fun _ _ (reads_ext _ _ (reads_ret known td (on t (e2 ++ e3) ++ flat_map unexpected_node r)%list) _) _).
        -- intros x e. split; [intros [-> ->]; exists e2, e3; repeat split|intros (f2 & f3 & -> & -> & -> & ->); now split].
        -- intros s. cbv zeta. f_equal. f_equal. rewrite all_unexpected, perform_app, on_app, perform_app. f_equal.
           assert (E2 : match td_base td with PrimitiveBT | UndefinedBT => note (spot t) [Warns FormattingCode "mixin type may not include a type of a primitive sub-type"] s | _ => s end = perform (on t e2) s)
             by (unfold e2; destruct (td_base td); reflexivity).
           rewrite E2. unfold e3. destruct (n_base (t_name (td_spec td))); try reflexivity. apply depend_on_performs.
      * intros td e. split.
        -- intros (x & e1 & f & (g & D & ->) & (e2 & e3 & -> & -> & -> & ->) & ->). eexists g, _, _. repeat split; [exact D|]. now rewrite !on_app, !app_assoc.
        -- intros (e1 & e2 & e3 & D & -> & -> & ->). eexists td, (on t e1), _. split; [eauto|]. split; [eauto 8|]. now rewrite !on_app, !app_assoc.
    + intros td e. split.
      * intros (sg & f & g & (p & m & S1 & -> & ->) & (e1 & e2 & e3 & D & -> & -> & ->) & ->). cbn [sig_of identifier attributes] in D.
        eexists p, m, _, e1, _, _. split; [exact S1|]. split; [apply included_ok; exact (signed_no_blank _ _ _ _ _ S1)|]. split; [exact D|]. split; [reflexivity|]. split; [reflexivity|].
        rewrite !on_app, !app_assoc. reflexivity.
      * intros (p & m & attrs & e1 & e2 & e3 & S1 & I & D & -> & -> & ->). apply included_iff in I as ->; [|exact (signed_no_blank _ _ _ _ _ S1)].
        eexists (sig_of p), (on t (map (Says 6) m)), _. split; [exists p, m; repeat split; exact S1|]. split; [eexists e1, _, _; repeat split; exact D|]. now rewrite !on_app, !app_assoc.
  - intros td e. split.
    + intros (t & r & O & p & m & attrs & e1 & e2 & e3 & S1 & I & D & E2 & E3 & ->). eapply mixin_by; eassumption.
    + intros H. inversion H as [t r p m attrs td0 e1 e2 e3 O S1 I D E2 E3]; subst. exists t, r. split; [exact O|]. eexists p, m, attrs, e1, _, _. repeat split; eassumption.
Qed.

(** ** kinds of nodes *)
Lemma header_iff : forall t, is_header t = true <-> a_header t.
Proof. intros [[] x z m cs]; cbn; intuition discriminate. Qed.
Lemma item_iff : forall t, is_item t = true <-> an_item t.
Proof. intros [[] x z m cs]; cbn; intuition discriminate. Qed.
Definition kind_section (k : kind) : section_type :=
  match k with ValuesKind => MSONSampleDefaultSection | ItemsKind => MSONValueMembersSection | PropertiesKind => MSONPropertyMembersSection end.
Lemma kind_iff : forall t k, kind_says t k <-> type_section_type t = kind_section k.
Proof.
  intros t k. destruct (C75_type_sections t) as (A & B & C). split.
  - intros H. inversion H as [u S1|u S1|u S1]; subst; cbn; [now apply A|now apply B|now apply C].
  - destruct k; cbn; intros H; constructor; [now apply A|now apply B|now apply C].
Qed.
Lemma no_kind_iff : forall t, ~ section_node t <-> type_section_type t = UndefinedSection.
Proof.
  intros t. split.
  - intros N. destruct (SectionsKinds.type_section_range t) as [E|[E|[E|[E|[]]]]]; [now symmetry|elim N..];
      [exists ValuesKind|exists ItemsKind|exists PropertiesKind]; apply kind_iff; now symmetry.
  - intros E [k H]. apply kind_iff in H. rewrite E in H. now destruct k.
Qed.
Lemma kind_unique : forall t k k', kind_says t k -> kind_says t k' -> k = k'.
Proof. intros t k k' H H'. apply kind_iff in H, H'. rewrite H in H'. now destruct k, k'. Qed.
Lemma kind_cases : forall t, (exists k, kind_says t k /\ type_section_type t = kind_section k) \/ (~ section_node t /\ type_section_type t = UndefinedSection).
Proof.
  intros t. destruct (SectionsKinds.type_section_range t) as [E|[E|[E|[E|[]]]]]; symmetry in E; [right; split; [now apply no_kind_iff|exact E]|left..];
    [exists ValuesKind|exists ItemsKind|exists PropertiesKind]; (split; [now apply kind_iff|exact E]).
Qed.
Lemma include_an_item : forall t, include_item t -> an_item t /\ ~ a_header t.
Proof. intros t H. apply SectionsItems.item_not_h. now left. Qed.
Lemma one_of_an_item : forall t, one_of_item t -> an_item t /\ ~ a_header t.
Proof. intros t H. apply SectionsItems.item_not_h. now right. Qed.
Lemma base_cases : forall b, (object_base b /\ is_object b = true /\ is_values b = false /\ is_primitive b = false /\ ~ value_base b /\ ~ primitive_base b /\ b <> UndefinedBT) \/
  (value_base b /\ is_object b = false /\ is_values b = true /\ is_primitive b = false /\ ~ object_base b /\ ~ primitive_base b /\ b <> UndefinedBT) \/
  (primitive_base b /\ is_object b = false /\ is_values b = false /\ is_primitive b = true /\ ~ value_base b /\ ~ object_base b /\ b <> UndefinedBT) \/
  (b = UndefinedBT /\ is_object b = false /\ is_values b = false /\ is_primitive b = false /\ ~ value_base b /\ ~ object_base b /\ ~ primitive_base b).
Proof. intros []; unfold object_base, value_base, primitive_base; cbn; intuition discriminate. Qed.
Lemma same_iff : forall a b, same_base a b = true <-> same_kind a b.
Proof. intros [] []; unfold same_kind, object_base, value_base, primitive_base; cbn; intuition discriminate. Qed.
Lemma resolve_iff : forall t ty b b', In ty [MSONSection; MSONOneOfSection; MSONMixinSection] -> (b' = resolve t ty b <-> told_by_member t b b').
Proof.
  intros t ty b b' I. pose proof (item_iff t) as T. assert (E : resolve t ty b = match b with UndefinedBT => if is_item t then ImplicitObjectBT else b | _ => b end) by (destruct I as [<-|[<-|[<-|[]]]]; now destruct b).
  rewrite E. split.
  - intros ->. destruct b; try (apply told_known; discriminate). destruct (is_item t); [apply told_item; now apply T|apply told_nothing; intros H; apply T in H; discriminate].
  - intros H. destruct H as [b N|H|H]; [now destruct b|now rewrite (proj2 T H)|]. destruct (is_item t); [elim H; now apply T|reflexivity].
Qed.
Lemma resolve_section_iff : forall t k b b', b' = resolve t (kind_section k) b <-> told_by_section k b b'.
Proof.
  intros t k b b'. split.
  - intros ->. assert (D : b = UndefinedBT \/ b <> UndefinedBT) by (destruct b; ((left; reflexivity) || (right; discriminate))). destruct D as [->|N]; [destruct k; [apply section_values|apply section_items|apply section_properties]|].
    replace (resolve t (kind_section k) b) with b by (destruct k, b; (reflexivity || contradiction)). now constructor.
  - intros H. destruct H as [k b N| | |]; [|reflexivity..]. now destruct b, k.
Qed.
End Parts.
