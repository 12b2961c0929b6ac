(** Lemmas for C80: the nodes below the first one of type sections and one-of items *)
From Verif Require Import Base StringUtility StringSpec StringProofs ByteBuffer ByteSpec Markdown MarkdownSpec Regex RegexSpec RegexProofs RegexCaps Keywords KeywordsSpec KeywordsProofs Prop_Keywords
  Signature SignatureSpec SignatureProofs SignatureWhole TypeTables SourceMap Mson Prop_Bytes Prop_Strings TypeDefs TypeDefsSpec TypeDefsProofs MembersTree MembersSpec MembersRead MembersLeaves MembersMixin MembersParts MembersSteps
  MembersSections.
From Verif Require SectionsSpec SectionsItems SectionsKinds SectionsDoc SectionsLoop Payloads PayloadsSpec PayloadsText PayloadsNodes.
Import SectionsSpec(a_header, an_item, include_item, one_of_item, object_base, value_base, primitive_base).
Import PayloadsSpec(the_text, place, opens, row, padded).
Local Open Scope string_scope.

Section Entries.
Context (known : list (string * base_type)) (source context : string) (Small : (slen source < 2 ^ 64)%N).
Notation reads := (reads known).
Context (member : bool -> tree -> st -> outcome (melement * st)) (one_of : tree -> st -> outcome (list melement * st))
  (section : section_type -> base_type -> tree -> st -> outcome (msection melement * st)).
Context (Member : bool -> tree -> melement -> located -> Prop) (OneOf : tree -> list melement -> located -> Prop)
  (Section_ : kind -> base_type -> tree -> msection melement -> located -> Prop) (P : tree -> Prop).
Hypothesis (P_fits : forall t, P t -> fits source t)
  (HM : forall property t, P t -> reads (member property t) (Member property t))
  (HO : forall t, P t -> reads (one_of t) (OneOf t))
  (HS : forall k b t, P t -> reads (section (kind_section k) b t) (Section_ k b t)).

Notation entry_says := (entry_says known source context Member OneOf).
Notation choice_says := (choice_says known context Member OneOf Section_).

Lemma add_reads : forall x (f : st -> outcome (melement * st)) (R : melement -> located -> Prop), reads f R ->
  reads (fun s => add x (f s)) (fun y e => exists z, R z e /\ y = (with_element z x, true)).
Proof.
  intros x f R F. unfold add. refine (reads_ext _ _ (reads_bind (fun z y e => y = (with_element z x, true) /\ e = []) F _) _).
  - intros z e _. exact (reads_val known (with_element z x, true)).
  - intros y e. split.
    + intros (z & e1 & e2 & H & [-> ->] & ->). rewrite app_nil_r. now exists z.
    + intros (z & H & ->). exists z, e, []. rewrite app_nil_r. auto.
Qed.
Lemma wrap_reads : forall {A} (f : st -> outcome (A * st)) (R : A -> located -> Prop) (h : A -> melement), reads f R ->
  reads (fun s => andthen (f s) (fun '(x, s) => Val (h x, s))) (fun y e => exists x, R x e /\ y = h x).
Proof.
  intros A f R h F. refine (reads_ext _ _ (reads_bind (fun z y e => y = h z /\ e = []) F _) _).
  - intros z e _. exact (reads_val known (h z)).
  - intros y e. split.
    + intros (z & e1 & e2 & H & [-> ->] & ->). rewrite app_nil_r. now exists z.
    + intros (z & H & ->). exists z, e, []. rewrite app_nil_r. auto.
Qed.
Ltac clash :=
  exfalso;
  repeat match goal with
  | H : an_item ?t, N : a_header ?t |- _ => elim (item_header t H N)
  | H : kind_says ?t ?k, N : ~ an_item ?t |- _ => apply kind_place in H; tauto
  | H : include_item ?t, N : a_header ?t |- _ => elim (proj2 (include_an_item _ H)); exact N
  | H : one_of_item ?t, N : a_header ?t |- _ => elim (proj2 (one_of_an_item _ H)); exact N
  end; tauto || (intuition (congruence || discriminate)).
Lemma text_entry : forall t x b, P t -> is_header t = false -> ~ include_item t -> ~ one_of_item t -> primitive_base b ->
  reads (fun s => andthen (if String.eqb (sc_value x) "" then Val "" else two_new_lines (sc_value x)) (fun v =>
             andthen (map_ranges (t_map t) source) (fun c =>
             Val (Sec (sc_class x) (sc_description x) (v +++ c) (sc_elements x) (sc_description_map x)
                      (if String.eqb c "" then sc_value_map x else append_places (sc_value_map x) (spot t)), true, s))))
    (fun y e => entry_says ValuesKind b t x (fst y) e (snd y)).
Proof.
  intros t x b Pt Hd Ni No B. assert (Nh : ~ a_header t) by (rewrite <- header_iff, Hd; discriminate).
  refine (reads_ext _ _ (reads_pure _ (fun v y e => y = (Sec (sc_class x) (sc_description x) (v +++ source_of source t) (sc_elements x) (sc_description_map x)
                      (if String.eqb (source_of source t) "" then sc_value_map x else append_places (sc_value_map x) (lies t)), true) /\ e = []) (spaced_iff (sc_value x)) _) _).
  - intros v _. cbv beta. rewrite (mapped source Small t (P_fits t Pt)). cbn [andthen]. apply reads_val.
  - intros [y on_] e. cbn [fst snd]. split.
    + intros (v & Sp & H & ->). injection H as -> ->. now apply entry_text.
    + intros H. inversion H as [X|td e0 K X Y|z e0 K X Y|K X|z e0 K X1 X2 X3 X4|K X|K X|z e0 pr K X1 X2 X3 X4 X5|v K X1 X2 X3 X4 X5|K X1 X2 X3 X4 X5]; subst; try clash.
      * exfalso. destruct (base_cases b) as [(_ & _ & _ & _ & _ & N & _)|[(_ & _ & _ & _ & _ & N & _)|[(_ & _ & _ & _ & N1 & N2 & _)|(_ & _ & _ & _ & _ & _ & N)]]]; try contradiction. destruct pr; contradiction.
      * exists v. now split.
Qed.
Lemma entry_reads : forall k b t x, P t -> reads (section_step source context member one_of (kind_section k) b t x) (fun y e => entry_says k b t x (fst y) e (snd y)).
Proof.
  intros k b t x Pt. unfold section_step. destruct (is_header t) eqn:Hd.
  { apply header_iff in Hd. refine (reads_ext _ _ (reads_val known (x, false)) _). intros [y on_] e. cbn [fst snd]. split.
    - intros [H ->]. injection H as -> ->. now apply entry_header.
    - intros H. inversion H; subst; try clash. now split. }
  assert (Nh : ~ a_header t) by (rewrite <- header_iff, Hd; discriminate).
  assert (Kc : k = ValuesKind \/ ((k = ItemsKind \/ k = PropertiesKind) /\ k <> ValuesKind)) by (destruct k; [now left|right; split; [auto|discriminate]..]).
  destruct (SectionsItems.member_kind t) as [(In_ & No & ->)|[(On & Ni & ->)|(Ni & No & ->)]].
  - destruct Kc as [->|[K Kn]].
    + cbn [kind_section]. refine (reads_ext _ _ (reads_ret known (x, false) (on t [Says 8 "sample and default type sections cannot have `mixin` type"])) _). intros [y on_] e. cbn [fst snd]. split.
      * intros [H ->]. injection H as -> ->. now apply entry_no_include.
      * intros H. inversion H; subst; try clash. now split.
    + assert (F := add_reads x _ _ (wrap_reads _ _ MMixin (mixin_reads known context t))). refine (reads_fun _ _ (reads_ext _ _ F _) _).
      * intros [y on_] e. cbn [fst snd]. split.
        -- intros (z & (td & M & ->) & H). injection H as -> ->. now apply entry_include.
        -- intros H. inversion H; subst; try clash. eexists. split; [eexists; split; [eassumption|reflexivity]|reflexivity].
      * intros s. destruct K as [-> | ->]; reflexivity.
  - destruct k; cbn [kind_section].
    + refine (reads_ext _ _ (reads_ret known (x, false) (on t [Says 8 "sample and default type sections cannot have `one of` type"])) _). intros [y on_] e. cbn [fst snd]. split.
      * intros [H ->]. injection H as -> ->. now apply entry_no_choice.
      * intros H. inversion H; subst; try clash. now split.
    + refine (reads_ext _ _ (reads_ret known (x, false) (on t [Says 8 "one-of can not be a nested member for a type not sub typed from object"])) _). intros [y on_] e. cbn [fst snd]. split.
      * intros [H ->]. injection H as -> ->. now apply entry_no_one_of.
      * intros H. inversion H; subst; try clash. now split.
    + assert (F := add_reads x _ _ (wrap_reads _ _ MOneOf (HO t Pt))). refine (reads_ext _ _ F _).
      intros [y on_] e. cbn [fst snd]. split.
      * intros (z & (td & M & ->) & H). injection H as -> ->. now apply entry_one_of.
      * intros H. inversion H; subst; try clash. eexists. split; [eexists; split; [eassumption|reflexivity]|reflexivity].
  - destruct Kc as [->|[K Kn]].
    + cbn [kind_section]. destruct (is_item t) eqn:Ii.
      * apply item_iff in Ii. destruct (base_cases b) as [(B & Bo & Bv & Bp & N1 & N2 & Nu)|[(B & Bo & Bv & Bp & N1 & N2 & Nu)|[(B & Bo & Bv & Bp & N1 & N2 & Nu)|(B & Bo & Bv & Bp & N1 & N2 & Nu)]]]; rewrite Bv, ?Bo, ?Bp; cbn [andb].
        -- refine (reads_ext _ _ (add_reads x _ _ (HM true t Pt)) _). intros [y on_] e. cbn [fst snd]. split.
           ++ intros (z & M & H). injection H as -> ->. now apply (entry_sample known source context Member OneOf ValuesKind b t x z e true).
           ++ intros H. inversion H as [X|td e0 K X Y|z e0 K X Y|K X|z e0 K X1 X2 X3 X4|K X|K X|z e0 pr K X1 X2 X3 X4 X5|v K X1 X2 X3 X4 X5|K X1 X2 X3 X4 X5]; subst; try clash.
              destruct pr; [|contradiction]. eauto.
        -- refine (reads_ext _ _ (add_reads x _ _ (HM false t Pt)) _). intros [y on_] e. cbn [fst snd]. split.
           ++ intros (z & M & H). injection H as -> ->. now apply (entry_sample known source context Member OneOf ValuesKind b t x z e false).
           ++ intros H. inversion H as [X|td e0 K X Y|z e0 K X Y|K X|z e0 K X1 X2 X3 X4|K X|K X|z e0 pr K X1 X2 X3 X4 X5|v K X1 X2 X3 X4 X5|K X1 X2 X3 X4 X5]; subst; try clash.
              destruct pr; [contradiction|]. eauto.
        -- now apply text_entry.
        -- refine (reads_ext _ _ (reads_val known (x, false)) _). intros [y on_] e. cbn [fst snd]. split.
           ++ intros [H ->]. injection H as -> ->. apply entry_end; auto.
           ++ intros H. inversion H as [X|td e0 K X Y|z e0 K X Y|K X|z e0 K X1 X2 X3 X4|K X|K X|z e0 pr K X1 X2 X3 X4 X5|v K X1 X2 X3 X4 X5|K X1 X2 X3 X4 X5]; subst; try clash.
              ** destruct pr; contradiction.
              ** now split.
      * assert (Nn : ~ an_item t) by (rewrite <- item_iff, Ii; discriminate). rewrite !andb_false_r. destruct (is_primitive b) eqn:Bp.
        -- apply text_entry; try assumption. destruct b; try discriminate; [now left|now right] || (destruct (base_cases b) as [(_ & _ & _ & X & _)|[(_ & _ & _ & X & _)|[(O & _)|(_ & _ & _ & X & _)]]]; [congruence|congruence|exact O|congruence]).
        -- assert (Np : ~ primitive_base b) by (intros [-> | ->]; discriminate). refine (reads_ext _ _ (reads_val known (x, false)) _). intros [y on_] e. cbn [fst snd]. split.
           ++ intros [H ->]. injection H as -> ->. apply entry_end; auto.
           ++ intros H. inversion H; subst; try clash. now split.
    + refine (reads_fun _ _ (reads_ext _ _ (add_reads x _ _ (HM (match k with PropertiesKind => true | _ => false end) t Pt)) _) _).
      * intros [y on_] e. cbn [fst snd]. split.
        -- intros (z & M & H). injection H as -> ->. now apply entry_member.
        -- intros H. inversion H; subst; try clash. eauto.
      * intros s. destruct K as [-> | ->]; reflexivity.
Qed.

(** ** one of *)
Lemma choice_kind : forall t,
  (include_item t /\ ~ one_of_item t /\ one_of_nested_type t = MSONMixinSection) \/ (one_of_item t /\ ~ include_item t /\ one_of_nested_type t = MSONOneOfSection) \/
  (~ include_item t /\ ~ one_of_item t /\ exists k, kind_says t k /\ one_of_nested_type t = kind_section k) \/
  (~ section_node t /\ ~ include_item t /\ ~ one_of_item t /\ an_item t /\ one_of_nested_type t = MSONPropertyMemberSection) \/
  (~ section_node t /\ ~ an_item t /\ one_of_nested_type t = UndefinedSection).
Proof.
  intros t. pose proof (SectionsItems.member_kind t) as M. unfold type_section_nested_type in M. unfold one_of_nested_type.
  destruct M as [(A & B & E)|[(A & B & E)|(A & B & E)]].
  - left. do 2 (split; [assumption|]). destruct (mixin_type t) eqn:X; try discriminate; [|reflexivity].
    cbn [or_else] in E. destruct (one_of_type t) eqn:Y; try discriminate. exfalso. unfold one_of_type in Y. destruct (regex_match _ _) in Y; discriminate.
  - right; left. do 2 (split; [assumption|]). destruct (mixin_type t) eqn:X; try discriminate; cbn [or_else] in *; [|unfold mixin_type in X; destruct (regex_match _ _) in X; discriminate].
    destruct (one_of_type t); try discriminate. reflexivity.
  - assert (X : mixin_type t = UndefinedSection) by (unfold mixin_type in *; destruct (regex_match (item_whole t) MSONMixinRegex); [discriminate|reflexivity]).
    assert (Y : one_of_type t = UndefinedSection) by (rewrite X in E; cbn [or_else] in E; unfold one_of_type in *; destruct (regex_match (item_line t) MSONOneOfRegex); [discriminate|reflexivity]).
    rewrite X, Y. cbn [or_else]. right; right. destruct (kind_cases t) as [(k & K & E1)|[K E1]]; rewrite E1.
    + left. do 2 (split; [assumption|]). exists k. split; [exact K|]. now destruct k.
    + cbn [or_else]. right. destruct (is_item t) eqn:Ii; [left|right]; [do 3 (split; [assumption|]); split; [now apply item_iff|reflexivity]|split; [assumption|]; split; [rewrite <- item_iff, Ii; discriminate|reflexivity]].
Qed.
Lemma then_reads : forall {A B} (f : st -> outcome (A * st)) (R : A -> located -> Prop) (h : A -> B), reads f R ->
  reads (fun s => andthen (f s) (fun '(x, s) => Val (h x, true, s))) (fun y e => exists x, R x e /\ y = (h x, true)).
Proof.
  intros A B f R h F. refine (reads_ext _ _ (reads_bind (fun z y e => y = (h z, true) /\ e = []) F _) _).
  - intros z e _. exact (reads_val known (h z, true)).
  - intros y e. split.
    + intros (z & e1 & e2 & H & [-> ->] & ->). rewrite app_nil_r. now exists z.
    + intros (z & H & ->). exists z, e, []. rewrite app_nil_r. auto.
Qed.
Ltac clash2 :=
  exfalso;
  repeat match goal with
  | H : other_item _ |- _ => destruct H as (? & ? & ? & ?)
  | H : include_item ?t, N : ~ an_item ?t |- _ => elim N; exact (proj1 (include_an_item t H))
  | H : one_of_item ?t, N : ~ an_item ?t |- _ => elim N; exact (proj1 (one_of_an_item t H))
  | H : kind_says ?t ?k, N : ~ section_node ?t |- _ => elim N; now exists k
  | H : kind_says ?t ?k, H' : kind_says ?t ?k' |- _ => assert (k = k') by exact (kind_unique t k k' H H'); clear H'; try subst
  end; tauto || (intuition (congruence || discriminate)).
Lemma choice_reads : forall t l, P t -> reads (one_of_step context member one_of section t l) (fun y e => choice_says t l (fst y) e (snd y)).
Proof.
  intros t l Pt. unfold one_of_step. destruct (choice_kind t) as [(In_ & No & ->)|[(On & Ni & ->)|[(Ni & No & k & K & ->)|[(Ns & Ni & No & Ii & ->)|(Ns & Nn & ->)]]]].
  - refine (reads_ext _ _ (then_reads _ _ (fun td => (l ++ [MMixin td])%list) (mixin_reads known context t)) _). intros [y on_] e. cbn [fst snd]. split.
    + intros (td & M & H). injection H as -> ->. now apply choice_include.
    + intros H. inversion H; subst; try clash2. eauto.
  - refine (reads_ext _ _ (then_reads _ _ (fun x => (l ++ [MOneOf x])%list) (HO t Pt)) _). intros [y on_] e. cbn [fst snd]. split.
    + intros (td & M & H). injection H as -> ->. now apply choice_one_of.
    + intros H. inversion H; subst; try clash2. eauto.
  - assert (D : k = PropertiesKind \/ k <> PropertiesKind) by (destruct k; [right|right|left]; (discriminate || reflexivity)). destruct D as [->|D].
    + cbn [kind_section]. refine (reads_ext _ _ (then_reads _ _ (fun x => (l ++ [MGroup (sc_elements x)])%list) (HS PropertiesKind ObjectBT t Pt)) _). intros [y on_] e. cbn [fst snd]. split.
      * intros (td & M & H). injection H as -> ->. now apply choice_group.
      * intros H. inversion H; subst; try clash2. eauto.
    + refine (reads_fun _ _ (reads_ext _ _ (reads_val known (l, false)) _) _).
      * intros [y on_] e. cbn [fst snd]. split.
        -- intros [H ->]. injection H as -> ->. now apply (choice_end known context Member OneOf Section_ t l k).
        -- intros H. inversion H; subst; try clash2. now split.
      * intros s. destruct k; [reflexivity|reflexivity|now elim D].
  - refine (reads_ext _ _ (then_reads _ _ (fun x => (l ++ [x])%list) (HM true t Pt)) _). intros [y on_] e. cbn [fst snd]. split.
    + intros (td & M & H). injection H as -> ->. apply choice_member; [do 3 (split; [assumption|]); assumption|exact M].
    + intros H. inversion H; subst; try clash2. eauto.
  - refine (reads_fun _ _ (reads_ext _ _ (reads_ret known (l, true) (unexpected_node t)) _) _).
    + intros [y on_] e. cbn [fst snd]. split.
      * intros [H ->]. injection H as -> ->. now apply choice_ignored.
      * intros H. inversion H; subst; try clash2. now split.
    + intros s. now rewrite unexpected_performs.
Qed.
End Entries.
