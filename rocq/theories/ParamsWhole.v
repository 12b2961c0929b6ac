(** Lemmas for C81: parameters in either form, and their section *)
From Verif Require Import Base StringUtility StringSpec StringProofs ByteBuffer ByteSpec Markdown MarkdownSpec Regex RegexSpec RegexProofs RegexCaps Keywords KeywordsSpec KeywordsProofs Prop_Keywords
  Signature SignatureSpec SignatureProofs SignatureWhole Prop_Signature TypeTables SourceMap Mson Prop_Bytes Prop_Strings TypeDefs TypeDefsSpec TypeDefsProofs MembersTree MembersSpec MembersRead MembersLeaves MembersParts
  MembersSections MembersWhole Params ParamsSpec ParamsText ParamsLine ParamsTraits ParamsRead.
From Verif Require SectionsSpec Payloads PayloadsSpec PayloadsText PayloadsNodes Blueprint.
Import SectionsSpec(a_header, an_item).
Import PayloadsSpec(the_text, place, opens, row, lines).
Import Blueprint(text, blank, parameter_use, UndefinedUse, OptionalUse, RequiredUse, parameter, Param, pa_name, pa_description, pa_type, pa_use, pa_default, pa_example, pa_values).
Local Open Scope string_scope.

Section Whole.
Context (known : list (string * base_type)) (source context : string) (Small : (slen source < 2 ^ 64)%N).
Notation reads := (reads known).

Lemma values_iff : forall t, values_item t <-> values_type t = ValuesSection.
Proof. intros t. symmetry. unfold values_type. apply if_iff; [discriminate|]. apply check_item_whole; [discriminate|exact values_text]. Qed.
Lemma values_cases : forall t, values_type t = ValuesSection \/ values_type t = UndefinedSection.
Proof. intros t. unfold values_type, if_. destruct (regex_match _ _); auto. Qed.
Lemma not_values_iff : forall t, ~ values_item t <-> values_type t = UndefinedSection.
Proof. intros t. rewrite values_iff. destruct (values_cases t) as [E|E]; rewrite E; intuition discriminate. Qed.
Lemma other_reads : forall {A} t (a : A) (R : A -> located -> bool -> Prop), (forall x e b, R x e b <-> x = a /\ e = unexpected_node t /\ b = true) ->
  reads (fun s => Val (a, true, unexpected t s)) (fun x e => R (fst x) e (snd x)).
Proof.
  intros A t a R H. refine (reads_fun _ _ (reads_ext _ _ (reads_ret known (a, true) (unexpected_node t)) _) _); [|intros s; now rewrite unexpected_performs].
  intros [x b] e. cbn [fst snd]. rewrite H. split; [intros [E ->]; injection E as -> ->; auto|intros (-> & -> & ->); auto].
Qed.
(** what is said whatever the state is *)
Lemma reads_before : forall {A} e0 (f : st -> outcome (A * st)) (R : A -> located -> Prop), reads f R -> reads (fun s => f (perform e0 s)) (fun x e => exists e', R x e' /\ e = (e0 ++ e')%list).
Proof.
  intros A e0 f R H s x s' K. rewrite (H (perform e0 s) x s'); [|now rewrite perform_bases]. split.
  - intros (e & Rx & ->). exists (e0 ++ e)%list. split; [eauto|]. now rewrite perform_app.
  - intros (e & (e' & Rx & ->) & ->). exists e'. split; [exact Rx|]. now rewrite perform_app.
Qed.
Lemma reads_map : forall {A B} (f : st -> outcome (A * st)) (R : A -> located -> Prop) (g : A -> B) (w : A -> located), reads f R ->
  reads (fun s => andthen (f s) (fun '(x, s) => Val (g x, perform (w x) s))) (fun y e => exists x e', R x e' /\ y = g x /\ e = (e' ++ w x)%list).
Proof.
  intros A B f R g w H. refine (reads_ext _ _ (reads_bind (fun x y e => y = g x /\ e = w x) H (fun x e _ => reads_ret known (g x) (w x))) _).
  intros y e. split; [intros (x & e1 & e2 & Rx & [-> ->] & ->); eauto|intros (x & e' & Rx & -> & ->); exists x, e', (w x); auto].
Qed.
Lemma old_step_reads : forall name t l, reads (old_step name t l) (fun x e => old_node name t l (fst x) e (snd x)).
Proof.
  intros name t l. destruct (values_cases t) as [E|E].
  - assert (V : values_item t) by now apply values_iff.
    set (e0 := match l with [] => [] | _ => on t [Says 4 ("overshadowing previous 'values' definition for parameter '" +++ name +++ "'")] end).
    set (w := fun l' : list text => match l' with [] => on t [Says 6 ("no possible values specified for parameter '" +++ name +++ "'")] | _ => [] end).
    refine (reads_fun _ _ (reads_ext _ _ (reads_before e0 _ _ (reads_map (parse_values t) _ (fun l' => (l', true)) w (values_read known t))) _) _).
    + intros [x b] e. cbn [fst snd]. split.
      * intros (e' & (l' & e1 & H & Ex & ->) & ->). injection Ex as -> ->. now apply (old_values name t l l' e1).
      * intros H. inversion H as [l' e1 V' H'|N]; subst; [|now elim N]. exists (e1 ++ w x)%list. split; [|reflexivity]. now exists x, e1.
    + intros s. unfold old_step. rewrite E. cbv zeta. assert (Es : match l with [] => s | _ => note (spot t) [Warns RedefinitionCode ("overshadowing previous 'values' definition for parameter '" +++ name +++ "'")] s end = perform e0 s).
      { unfold e0. destruct l; [reflexivity|]. exact (perform_warns t 4 [_] s). }
      rewrite Es. destruct (parse_values t (perform e0 s)) as [[l' s1]| | |]; try reflexivity. cbn [andthen]. f_equal. f_equal. unfold w. destruct l'; [|reflexivity]. exact (perform_warns t 6 [_] s1).
  - refine (reads_fun _ _ (other_reads t l (old_node name t l) _) _); [|intros s; unfold old_step; now rewrite E].
    intros x e b. assert (N : ~ values_item t) by now apply not_values_iff. split; [intros H; inversion H; subst; [contradiction|auto]|intros (-> & -> & ->); now constructor].
Qed.
Lemma spot_of : forall t x, placed t x = of_node t x.
Proof. intros t x. unfold placed, of_node, lies_unless. now destruct (String.eqb x ""). Qed.
Lemma lines_of : forall a b e, (if String.eqb b "" then a else a +++ String "010" (b +++ e)) = lines_below a b e.
Proof. reflexivity. Qed.
Lemma lines_plain : forall a b, (if String.eqb b "" then a else a +++ String "010" b) = lines_below a b "".
Proof. intros a b. unfold lines_below. now rewrite append_nil_r. Qed.
(** the checks at the end *)
Lemma finish_reads : forall {A} item (p : A -> parameter) f (R : A -> located -> Prop), reads f R ->
  reads (fun s => andthen (f s) (fun '(x, s) => Val (p x, final_checks item (p x) s))) (fun q e => exists x e1 e2, R x e1 /\ checked item (p x) e2 /\ q = p x /\ e = (e1 ++ e2)%list).
Proof.
  intros A item p f R H.
  assert (G : forall x, reads (fun s => Val (p x, final_checks item (p x) s)) (fun q e => checked item (p x) e /\ q = p x)).
  { intros x. destruct (checked_total item (p x)) as [e C]. refine (reads_fun _ _ (reads_ext _ _ (reads_ret known (p x) e) _) _); [|intros s; now rewrite (checked_performs _ _ _ C)].
    intros q e'. split; [intros [-> ->]; auto|intros [C' ->]; split; [reflexivity|exact (checked_unique _ _ _ _ C' C)]]. }
  refine (reads_ext _ _ (reads_bind _ H (fun x _ _ => G x)) _). intros q e. split; [intros (x & e1 & e2 & Rx & [C ->] & ->); eauto 8|intros (x & e1 & e2 & Rx & C & -> & ->); exists x, e1, e2; auto].
Qed.
Lemma remark_of : forall f, [traits_remark (is_old f)] = map (Warns 3) [too_many_traits f].
Proof. intros []; reflexivity. Qed.
(** attributes: what they say is unique *)
Lemma traits_same : forall f l ex u ty x e u' ty' x' e', Forall (fun a => a <> "") l -> traits_say f ex l u ty x e -> traits_say f ex l u' ty' x' e' -> u' = u /\ ty' = ty /\ x' = x /\ e' = e.
Proof.
  intros f l ex u ty x e u' ty' x' e' F H H'.
  assert (C : forall u ty x e, traits_say f ex l u ty x e -> exists failed : bool, e = (if failed then [Says 3 (too_many_traits f)] else []) /\ parse_traits (is_old f) l ex = (u, ty, x, failed)).
  { intros u0 ty0 x0 e0 T. assert (exists failed : bool, e0 = (if failed then [Says 3 (too_many_traits f)] else [])) as [failed ->] by (inversion T; [now exists false|now exists true]).
    exists failed. split; [reflexivity|]. now apply traits_iff. }
  apply C in H as (b & -> & H). apply C in H' as (b' & -> & H'). rewrite H in H'. injection H' as <- <- <- <-. auto.
Qed.
Lemma old_read : forall item, (forall t r, opens item t r -> Forall (fits source) r) -> reads (parse_old source item) (old_says source item).
Proof.
  intros item HP. unfold parse_old.
  refine (reads_ext _ _ (reads_item known item _ (fun t r q e => exists p m d0 use ty ex e1 texts others d vs e2 e3, signed old_shape (the_text t) "" (Some (p, m)) /\
    PayloadsSpec.trims (lines_below (p_content p) (p_rest p) "") d0 /\ traits_say OldForm "" (p_attributes p) use ty ex e1 /\
    row (fun t => ~ values_item t) r texts others /\ described_by source texts (of_node t d0) d /\ nodes_say (old_node (p_id p)) others [] vs e2 /\
    q = Param (of_node t (p_id p)) d (of_node t ty) use (of_node t (p_value p)) (of_node t ex) vs /\ checked item q e3 /\ e = (on t (map (Says 6) m ++ e1) ++ e2 ++ e3)%list) _) _).
  2: { intros q e. split.
       - intros (t & r & O & p & m & d0 & use & ty & ex & e1 & texts & others & d & vs & e2 & e3 & H1 & H2 & H3 & H4 & H5 & H6 & -> & H7 & ->). now apply (old_by source item t r p m d0 use ty ex e1 texts others d vs e2 e3).
       - intros H. destruct H as [t r p m d0 use ty ex e1 texts others d vs e2 e3 O H1 H2 H3 H4 H5 H6 q H7]. exists t, r. split; [exact O|].
         exists p, m, d0, use, ty, ex, e1, texts, others, d, vs, e2, e3. by_parts. }
  intros t r O. specialize (HP t r O).
  refine (reads_ext _ _ (reads_bind (fun sg q e => exists p d0 use ty ex e1 texts others d vs e2 e3, sg = sig_of p /\ 
    PayloadsSpec.trims (lines_below (p_content p) (p_rest p) "") d0 /\ traits_say OldForm "" (p_attributes p) use ty ex e1 /\
    row (fun t => ~ values_item t) r texts others /\ described_by source texts (of_node t d0) d /\ nodes_say (old_node (p_id p)) others [] vs e2 /\
    q = Param (of_node t (p_id p)) d (of_node t ty) use (of_node t (p_value p)) (of_node t ex) vs /\ checked item q e3 /\ e = (on t e1 ++ e2 ++ e3)%list)
    (signature_reads known old_traits "" t) _) _).
  - intros sg e0 (p & m & Sg & -> & ->). pose proof (kept_attributes _ _ _ _ _ Sg) as Ka. cbn [sig_of Signature.remaining Signature.content Signature.attributes Signature.identifier Signature.value].
    destruct (parse_traits true (p_attributes p) "") as [[[use ty] ex] failed] eqn:T. apply (traits_iff OldForm _ _ _ _ _ _ Ka) in T as Ts.
    set (e1 := if failed then [Says 3 (too_many_traits OldForm)] else []) in *. cbv zeta. rewrite lines_plain, spot_of.
    set (d0 := trim (lines_below (p_content p) (p_rest p) "")).
    assert (G : reads (fun s => andthen (described source values_type r (of_node t d0)) (fun '(d, r) =>
      andthen (walk (old_step (p_id p)) r [] s) (fun '(vs, s) =>
      Val (Param (placed t (p_id p)) d (placed t ty) use (placed t (p_value p)) (placed t ex) vs, final_checks item (Param (placed t (p_id p)) d (placed t ty) use (placed t (p_value p)) (placed t ex) vs) s))))
     (fun q e => exists texts others d vs e2 e3, row (fun t => ~ values_item t) r texts others /\ described_by source texts (of_node t d0) d /\ nodes_say (old_node (p_id p)) others [] vs e2 /\
        q = Param (of_node t (p_id p)) d (of_node t ty) use (of_node t (p_value p)) (of_node t ex) vs /\ checked item q e3 /\ e = (e2 ++ e3)%list)).
    { set (F := fun (o : text * list tree) (s : st) => andthen (walk (old_step (p_id p)) (snd o) [] s) (fun '(vs, s) =>
        Val (Param (placed t (p_id p)) (fst o) (placed t ty) use (placed t (p_value p)) (placed t ex) vs, final_checks item (Param (placed t (p_id p)) (fst o) (placed t ty) use (placed t (p_value p)) (placed t ex) vs) s))).
      refine (reads_fun _ _ (reads_ext _ _ (reads_pure (g := F) (fun o => exists texts, row (fun t => ~ values_item t) r texts (snd o) /\ described_by source texts (of_node t d0) (fst o))
        (fun o q e => exists vs e2 e3, nodes_say (old_node (p_id p)) (snd o) [] vs e2 /\
        q = Param (of_node t (p_id p)) (fst o) (of_node t ty) use (of_node t (p_value p)) (of_node t ex) vs /\ checked item q e3 /\ e = (e2 ++ e3)%list)
        (fun o => described_iff source Small values_type _ not_values_iff r (of_node t d0) o HP) _) _) _).
      - intros [d others] (texts & _). unfold F. cbn [fst snd].
        refine (reads_ext _ _ (finish_reads item (fun vs => Param (placed t (p_id p)) d (placed t ty) use (placed t (p_value p)) (placed t ex) vs) _ _
          (reads_walk known (fun _ => True) (old_step (p_id p)) (old_node (p_id p)) others (fun u l _ _ => old_step_reads (p_id p) u l) (fun _ _ _ _ _ _ _ _ => I) [] I)) _).
        intros q e. rewrite !spot_of. split; [intros (vs & e2 & e3 & N & C & -> & ->)|intros (vs & e2 & e3 & N & -> & C & ->)]; exists vs, e2, e3; auto.
      - intros q e. split.
        + intros ([d others] & (texts & R & D) & vs & e2 & e3 & N & -> & C & ->). exists texts, others, d, vs, e2, e3. by_parts.
        + intros (texts & others & d & vs & e2 & e3 & R & D & N & -> & C & ->). exists (d, others). split; [now exists texts|]. exists vs, e2, e3. by_parts.
      - intros s. destruct (described source values_type r (of_node t d0)) as [[d others]| | |]; reflexivity. }
    refine (reads_fun _ _ (reads_ext _ _ (reads_before (on t e1) _ _ G) _) _).
    + intros q e. split.
      * intros (e' & (texts & others & d & vs & e2 & e3 & R & D & N & -> & C & ->) & ->). exists p, d0, use, ty, ex, e1, texts, others, d, vs, e2, e3.
        split; [reflexivity|]. split; [apply trim_trims|]. by_parts.
      * intros (p' & d0' & use' & ty' & ex' & e1' & texts & others & d & vs & e2 & e3 & E & D0 & Ts' & R & D & N & -> & C & ->).
        assert (p = p') as <- by (unfold sig_of in E; destruct p, p'; cbn in E; now injection E as -> -> -> -> -> ->).
        apply trims_is' in D0 as ->. destruct (traits_same _ _ _ _ _ _ _ _ _ _ _ Ka Ts Ts') as (-> & -> & -> & ->).
        exists (e2 ++ e3)%list. split; [|reflexivity]. exists texts, others, d, vs, e2, e3. by_parts.
    + intros s. assert (Es : (if failed then note (spot t) [traits_remark true] s else s) = perform (on t e1) s).
      { unfold e1. destruct failed; [|reflexivity]. exact (perform_warns t 3 [too_many_traits OldForm] s). }
      rewrite Es. reflexivity.
  - intros q e. split.
    + intros (sg & f1 & f2 & (p & m & S1 & -> & ->) & (p' & d0 & use & ty & ex & e1 & texts & others & d & vs & e2 & e3 & E & D0 & Ts & R & D & N & Eq & C & ->) & ->).
      assert (p = p') as <- by (unfold sig_of in E; destruct p, p'; cbn in E; now injection E as -> -> -> -> -> ->). clear E.
      exists p, m, d0, use, ty, ex, e1, texts, others, d, vs, e2, e3. do 8 (split; [assumption|]). now rewrite on_app, <- app_assoc.
    + intros (p & m & d0 & use & ty & ex & e1 & texts & others & d & vs & e2 & e3 & S1 & D0 & Ts & R & D & N & Eq & C & ->).
      exists (sig_of p), (on t (map (Says 6) m)), (on t e1 ++ e2 ++ e3)%list. split; [exists p, m; auto|]. split; [|now rewrite on_app, <- app_assoc].
      exists p, d0, use, ty, ex, e1, texts, others, d, vs, e2, e3. by_parts.
Qed.
Lemma single_same : forall l, values_of l = single_values l.
Proof.
  induction l as [|x l IH]; [reflexivity|]. unfold values_of in *. cbn [flat_map]. rewrite IH. destruct x; try reflexivity. destruct m as [d v s m1 m2 m3]. destruct v as [vs td]. cbn [m_value vd_values m_value_map].
  destruct vs as [|v [|v' vs]]; reflexivity.
Qed.
Lemma sections_read : forall n k b t, deep source n t -> reads (parse_section source context n (kind_section k) b t) (section_says known source context k b t).
Proof. intros n. exact (proj2 (proj2 (all_read known source context Small n))). Qed.
Lemma new_step_reads : forall n t a, deep source n t -> reads (new_step source context n t a) (fun x e => new_node known source context t a (fst x) e (snd x)).
Proof.
  intros n t [[d v] l] D. destruct (kind_cases t) as [(k & K & E)|[N E]].
  - assert (U : forall k', kind_says t k' -> k' = k) by (intros k' H; exact (kind_unique t k' k H K)).
    assert (NN : ~ (~ section_node t)) by (intros H; apply H; now exists k). destruct k.
    + set (out := fun x : msection melement => if String.eqb (sc_value x) "" then (d, v, l)
         else match sc_class x with DefaultClass => ((sc_value x, sc_value_map x), v, l) | SampleClass => (d, (sc_value x, sc_value_map x), l) | _ => (d, v, l) end).
      refine (reads_fun _ _ (reads_ext _ _ (reads_map _ _ (fun x => (out x, true)) (fun _ => []) (sections_read n ValuesKind ImplicitPrimitiveBT t D)) _) _).
      * intros [y b] e. cbn [fst snd]. split.
        -- intros (x & e' & S1 & Ey & ->). injection Ey as -> ->. rewrite app_nil_r. unfold out. destruct (String.eqb_spec (sc_value x) "") as [V|V].
           ++ apply (new_nothing known source context t x e'); auto.
           ++ destruct (sc_class x) eqn:C; try (apply (new_nothing known source context t x e'); [exact K|exact S1|left; split; congruence]).
              ** now apply (new_example known source context t x e').
              ** now apply (new_default known source context t x e').
        -- intros H. inversion H as [x e0 d0 v0 l0 K' S1 C V|x e0 d0 v0 l0 K' S1 C V|x e0 a0 K' S1 C|x e0 d0 v0 l0 K' S1|a0 K'|a0 K']; subst; try (apply U in K'; discriminate); try contradiction;
             exists x, e; rewrite app_nil_r; (split; [exact S1|]); (split; [|reflexivity]); unfold out.
           ++ destruct (String.eqb_spec (sc_value x) ""); [contradiction|]. now rewrite C.
           ++ destruct (String.eqb_spec (sc_value x) ""); [contradiction|]. now rewrite C.
           ++ destruct (String.eqb_spec (sc_value x) "") as [V|V]; [reflexivity|]. destruct C as [[C1 C2]|C]; [|contradiction]. destruct (sc_class x); try reflexivity; congruence.
      * intros s. unfold new_step. rewrite E. cbn [kind_section]. destruct (parse_section source context n MSONSampleDefaultSection ImplicitPrimitiveBT t s) as [[x s']| | |]; reflexivity.
    + refine (reads_fun _ _ (reads_ext _ _ (reads_map _ _ (fun x : msection melement => ((d, v, single_values (sc_elements x)), true)) (fun _ => []) (sections_read n ItemsKind ImplicitValueBT t D)) _) _).
      * intros [y b] e. cbn [fst snd]. split.
        -- intros (x & e' & S1 & Ey & ->). injection Ey as -> ->. rewrite app_nil_r. now apply (new_values known source context t x e').
        -- intros H. inversion H as [x e0 d0 v0 l0 K' S1 C V|x e0 d0 v0 l0 K' S1 C V|x e0 a0 K' S1 C|x e0 d0 v0 l0 K' S1|a0 K'|a0 K']; subst; try (apply U in K'; discriminate); try contradiction.
           exists x, e. rewrite app_nil_r. auto.
      * intros s. unfold new_step. rewrite E. cbn [kind_section]. destruct (parse_section source context n MSONValueMembersSection ImplicitValueBT t s) as [[x s']| | |]; try reflexivity. cbn [andthen]. now rewrite single_same.
    + refine (reads_fun _ _ (reads_ext _ _ (reads_val known ((d, v, l), false)) _) _).
      * intros [y b] e. cbn [fst snd]. split.
        -- intros [Ey ->]. injection Ey as -> ->. now apply new_end.
        -- intros H. inversion H as [x e0 d0 v0 l0 K' S1 C V|x e0 d0 v0 l0 K' S1 C V|x e0 a0 K' S1 C|x e0 d0 v0 l0 K' S1|a0 K'|a0 K']; subst; try (apply U in K'; discriminate); try contradiction. auto.
      * intros s. unfold new_step. now rewrite E.
  - refine (reads_fun _ _ (other_reads t (d, v, l) (new_node known source context t (d, v, l)) _) _); [|intros s; unfold new_step; now rewrite E].
    intros y e b. assert (Nk : forall k, ~ kind_says t k) by (intros k K; apply N; now exists k). split.
    + intros H. inversion H as [x e0 d0 v0 l0 K' S1 C V|x e0 d0 v0 l0 K' S1 C V|x e0 a0 K' S1 C|x e0 d0 v0 l0 K' S1|a0 K'|a0 K']; subst; try (now elim (Nk _ K')). auto.
    + intros (-> & -> & ->). now apply new_other.
Qed.
Lemma section_none_iff : forall t, ~ section_node t <-> type_section_type t = UndefinedSection.
Proof. exact no_kind_iff. Qed.
Lemma new_read : forall n item, (forall t r u, opens item t r -> In u r -> deep source n u) -> reads (parse_new source context n item) (new_says known source context item).
Proof.
  intros n item HP. unfold parse_new.
  refine (reads_ext _ _ (reads_item known item _ (fun t r q e => exists p m name use ty ex e1 texts others d default example vs e2 e3, signed new_shape (the_text t) "" (Some (p, m)) /\
    bare (p_id p) name /\ traits_say NewForm (p_value p) (p_attributes p) use ty ex e1 /\
    row (fun t => ~ section_node t) r texts others /\ described_by source texts (of_node t (lines_below (p_content p) (p_rest p) (String "010" ""))) d /\
    nodes_say (new_node known source context) others (("", []), of_node t ex, []) (default, example, vs) e2 /\
    q = Param (of_node t name) d (of_node t ty) use default example vs /\ checked item q e3 /\ e = (on t (map (Says 6) m ++ e1) ++ e2 ++ e3)%list) _) _).
  2: { intros q e. split.
       - intros (t & r & O & p & m & name & use & ty & ex & e1 & texts & others & d & default & example & vs & e2 & e3 & H1 & H2 & H3 & H4 & H5 & H6 & -> & H7 & ->).
         now apply (new_by known source context item t r p m name use ty ex e1 texts others d default example vs e2 e3).
       - intros H. destruct H as [t r p m name use ty ex e1 texts others d default example vs e2 e3 O H1 H2 H3 H4 H5 H6 q H7]. exists t, r. split; [exact O|].
         exists p, m, name, use, ty, ex, e1, texts, others, d, default, example, vs, e2, e3. by_parts. }
  intros t r O. assert (Fr : Forall (fits source) r) by (apply Forall_forall; intros u I; apply (deep_fits source n); exact (HP t r u O I)).
  refine (reads_ext _ _ (reads_bind (fun sg q e => exists p name use ty ex e1 texts others d default example vs e2 e3, sg = sig_of p /\ 
    bare (p_id p) name /\ traits_say NewForm (p_value p) (p_attributes p) use ty ex e1 /\
    row (fun t => ~ section_node t) r texts others /\ described_by source texts (of_node t (lines_below (p_content p) (p_rest p) (String "010" ""))) d /\
    nodes_say (new_node known source context) others (("", []), of_node t ex, []) (default, example, vs) e2 /\
    q = Param (of_node t name) d (of_node t ty) use default example vs /\ checked item q e3 /\ e = (on t e1 ++ e2 ++ e3)%list)
    (signature_reads known new_traits "" t) _) _).
  - intros sg e0 (p & m & Sg & -> & ->). pose proof (kept_attributes _ _ _ _ _ Sg) as Ka. cbn [sig_of Signature.remaining Signature.content Signature.attributes Signature.identifier Signature.value].
    destruct (bare_total (p_id p)) as [name Bn]. destruct (strip_bare _ _ Bn) as [left Sb].
    destruct (parse_traits false (p_attributes p) (p_value p)) as [[[use ty] ex] failed] eqn:T. apply (traits_iff NewForm _ _ _ _ _ _ Ka) in T as Ts.
    set (e1 := if failed then [Says 3 (too_many_traits NewForm)] else []) in *.
    set (d0 := of_node t (lines_below (p_content p) (p_rest p) (String "010" ""))).
    set (F := fun (o : text * list tree) (s : st) => andthen (walk (new_step source context n) (snd o) (("", []), of_node t ex, []) s) (fun '(a, s) =>
        Val ((fun a : text * text * list text => let '(default, example, vs) := a in Param (of_node t name) (fst o) (of_node t ty) use default example vs) a,
             final_checks item ((fun a : text * text * list text => let '(default, example, vs) := a in Param (of_node t name) (fst o) (of_node t ty) use default example vs) a) s))).
    assert (G : reads (fun s => andthen (described source type_section_type r d0) (fun o => F o s))
     (fun q e => exists texts others d default example vs e2 e3, row (fun t => ~ section_node t) r texts others /\ described_by source texts d0 d /\
        nodes_say (new_node known source context) others (("", []), of_node t ex, []) (default, example, vs) e2 /\
        q = Param (of_node t name) d (of_node t ty) use default example vs /\ checked item q e3 /\ e = (e2 ++ e3)%list)).
    { refine (reads_ext _ _ (reads_pure (g := F) (fun o => exists texts, row (fun t => ~ section_node t) r texts (snd o) /\ described_by source texts d0 (fst o))
        (fun o q e => exists default example vs e2 e3, nodes_say (new_node known source context) (snd o) (("", []), of_node t ex, []) (default, example, vs) e2 /\
        q = Param (of_node t name) (fst o) (of_node t ty) use default example vs /\ checked item q e3 /\ e = (e2 ++ e3)%list)
        (fun o => described_iff source Small type_section_type _ section_none_iff r d0 o Fr) _) _).
      - intros [d others] (texts & Rw & _). unfold F. cbn [fst snd].
        refine (reads_ext _ _ (finish_reads item (fun a : text * text * list text => let '(default, example, vs) := a in Param (of_node t name) d (of_node t ty) use default example vs) _ _
          (reads_walk known (fun _ => True) (new_step source context n) (new_node known source context) others
             (fun u a Iu _ => new_step_reads n u a (HP t r u O (in_row _ _ _ _ _ Rw Iu))) (fun _ _ _ _ _ _ _ _ => I) (("", []), of_node t ex, []) I)) _).
        intros q e. split; [intros ([[default example] vs] & e2 & e3 & N & C & -> & ->)|intros (default & example & vs & e2 & e3 & N & -> & C & ->)].
        + exists default, example, vs, e2, e3. auto.
        + exists (default, example, vs), e2, e3. auto.
      - intros q e. split.
        + intros ([d others] & (texts & R & D) & default & example & vs & e2 & e3 & N & -> & C & ->). exists texts, others, d, default, example, vs, e2, e3. by_parts.
        + intros (texts & others & d & default & example & vs & e2 & e3 & R & D & N & -> & C & ->). exists (d, others). split; [now exists texts|]. exists default, example, vs, e2, e3. by_parts. }
    refine (reads_fun _ _ (reads_ext _ _ (reads_before (on t e1) _ _ G) _) _).
    + intros q e. split.
      * intros (e' & (texts & others & d & default & example & vs & e2 & e3 & R & D & N & -> & C & ->) & ->). exists p, name, use, ty, ex, e1, texts, others, d, default, example, vs, e2, e3.
        split; [reflexivity|]. by_parts.
      * intros (p' & name' & use' & ty' & ex' & e1' & texts & others & d & default & example & vs & e2 & e3 & E & Bn' & Ts' & R & D & N & -> & C & ->).
        assert (p = p') as <- by (unfold sig_of in E; destruct p, p'; cbn in E; now injection E as -> -> -> -> -> ->).
        rewrite (bare_unique _ _ _ Bn' Bn) in *. destruct (traits_same _ _ _ _ _ _ _ _ _ _ _ Ka Ts Ts') as (-> & -> & -> & ->).
        exists (e2 ++ e3)%list. split; [|reflexivity]. exists texts, others, d, default, example, vs, e2, e3. by_parts.
    + intros s. rewrite Sb. cbn [andthen]. cbv zeta. rewrite lines_of. assert (Es : (if failed then note (spot t) [traits_remark false] s else s) = perform (on t e1) s).
      { unfold e1. destruct failed; [|reflexivity]. exact (perform_warns t 3 [too_many_traits NewForm] s). }
      rewrite Es, !spot_of. unfold d0. destruct (described source type_section_type r _) as [[d others]| | |]; try reflexivity. cbn [andthen]. unfold F. cbn [fst snd].
      destruct (walk (new_step source context n) others _ (perform (on t e1) s)) as [[[[default example] vs] s']| | |]; reflexivity.
  - intros q e. split.
    + intros (sg & f1 & f2 & (p & m & S1 & -> & ->) & (p' & name & use & ty & ex & e1 & texts & others & d & default & example & vs & e2 & e3 & E & Bn & Ts & R & D & N & Eq & C & ->) & ->).
      assert (p = p') as <- by (unfold sig_of in E; destruct p, p'; cbn in E; now injection E as -> -> -> -> -> ->). clear E.
      exists p, m, name, use, ty, ex, e1, texts, others, d, default, example, vs, e2, e3. do 8 (split; [assumption|]). now rewrite on_app, <- app_assoc.
    + intros (p & m & name & use & ty & ex & e1 & texts & others & d & default & example & vs & e2 & e3 & S1 & Bn & Ts & R & D & N & Eq & C & ->).
      exists (sig_of p), (on t (map (Says 6) m)), (on t e1 ++ e2 ++ e3)%list. split; [exists p, m; auto|]. split; [|now rewrite on_app, <- app_assoc].
      exists p, name, use, ty, ex, e1, texts, others, d, default, example, vs, e2, e3. by_parts.
Qed.

(** ** all the parameters *)
Notation names l := (map (fun q => fst (pa_name q)) l).
Lemma removed : forall x l, match remove_named x l with
  | Some l' => exists a q b, l = (a ++ q :: b)%list /\ l' = (a ++ b)%list /\ ~ In x (names a) /\ fst (pa_name q) = x
  | None => ~ In x (names l)
  end.
Proof.
  intros x. induction l as [|p r IH]; cbn [remove_named map]; [intros []|]. destruct (String.eqb_spec (fst (pa_name p)) x) as [E|E].
  - exists [], p, r. repeat split; auto.
  - destruct (remove_named x r) as [l'|]; cbn [option_map].
    + destruct IH as (a & q & b & -> & -> & N & Q). exists (p :: a), q, b. split; [reflexivity|]. split; [reflexivity|]. split; [|exact Q]. intros [H|H]; [now apply E|now apply N].
    + intros [H|H]; [now apply E|now apply IH].
Qed.
Lemma first_named : forall x a q b a' q' b', (a ++ q :: b)%list = (a' ++ q' :: b')%list -> ~ In x (names a) -> fst (pa_name q) = x -> ~ In x (names a') -> fst (pa_name q') = x -> a = a' /\ q = q' /\ b = b'.
Proof.
  intros x. induction a as [|p a IH]; intros q b [|p' a'] q' b' E N Q N' Q'; cbn in E, N, N'.
  - injection E as -> ->. auto.
  - injection E as <- _. elim N'. now left.
  - injection E as -> _. elim N. now left.
  - injection E as -> E. destruct (IH q b a' q' b' E) as (-> & -> & ->); auto.
Qed.
Lemma add_reads : forall t p l, reads (fun s => Val (add_parameter t p l s)) (fun l' e => adds t p l l' e).
Proof.
  intros t p l. pose proof (removed (fst (pa_name p)) l) as R. destruct (remove_named (fst (pa_name p)) l) as [l'|] eqn:E.
  - destruct R as (a & q & b & -> & -> & N & Q).
    refine (reads_fun _ _ (reads_ext _ _ (reads_ret known (a ++ b ++ [p])%list (on t [Says 4 ("overshadowing previous parameter '" +++ fst (pa_name p) +++ "' definition")])) _) _).
    + intros l' e. split.
      * intros [-> ->]. now apply (adds_again t p a q b).
      * intros H. remember (a ++ q :: b)%list as l0 eqn:El. destruct H as [l0 N'|a' q' b' N' Q'].
        -- elim N'. rewrite El, map_app. apply in_or_app. right. now left.
        -- destruct (first_named _ _ _ _ _ _ _ El N' Q' N Q) as (-> & -> & ->). auto.
    + intros s. unfold add_parameter. rewrite E. rewrite <- app_assoc. reflexivity.
  - refine (reads_fun _ _ (reads_ext _ _ (reads_val known (l ++ [p])%list) _) _); [|intros s; unfold add_parameter; now rewrite E].
    intros l' e. split; [intros [-> ->]; now constructor|]. intros H. destruct H as [l N|a q b N Q]; [auto|]. elim R. rewrite map_app. apply in_or_app. right. left. now rewrite Q.
Qed.
Lemma step_reads : forall n t l, deep source (S n) t -> reads (parameters_step source context n t l) (fun x e => parameter_node known source context t l (fst x) e (snd x)).
Proof.
  intros n t l D. destruct (item_tells t) as (o & T & E).
  assert (Fr : forall u r, opens t u r -> Forall (fits source) r).
  { intros u r O. apply Forall_forall. intros v I. apply (deep_fits source n). exact (deep_below source Small n t u r v D O I). }
  assert (Then : forall f (R : parameter -> located -> Prop), reads f R -> reads (fun s => andthen (f s) (fun '(p, s) => let '(l, s) := add_parameter t p l s in Val (l, true, s)))
    (fun x e => exists p e1 e2, R p e1 /\ adds t p l (fst x) e2 /\ snd x = true /\ e = (e1 ++ e2)%list)).
  { intros f R H. refine (reads_ext _ _ (reads_bind (fun p x e => adds t p l (fst x) e /\ snd x = true) H _) _).
    - intros p e _. refine (reads_fun _ _ (reads_ext _ _ (reads_map _ _ (fun l' => (l', true)) (fun _ => []) (add_reads t p l)) _) _).
      + intros [x b] e1. cbn [fst snd]. split; [intros (l' & e2 & A & Ex & ->); injection Ex as -> ->; now rewrite app_nil_r|intros [A ->]; exists x, e1; now rewrite app_nil_r].
      + intros s. cbn [andthen]. now destruct (add_parameter t p l s).
    - intros x e. split; [intros (p & e1 & e2 & Rp & [A B] & ->); exists p, e1, e2; auto|intros (p & e1 & e2 & Rp & A & B & ->); exists p, e1, e2; auto]. }
  destruct o as [[]|]; cbn [tells section_of] in *.
  - destruct T as [T U]. refine (reads_fun _ _ (reads_ext _ _ (Then _ _ (old_read t Fr)) _) _); [|intros s; unfold parameters_step; now rewrite E].
    intros [x b] e. cbn [fst snd]. split; [intros (p & e1 & e2 & Rp & A & -> & ->); now apply (parameter_old known source context t l p)|].
    intros H. inversion H as [p e1 l' e2 T' S1 A|p e1 l' e2 T' S1 A|N]; subst; [exists p, e1, e2; auto|discriminate (U _ T')|now elim (N OldForm)].
  - destruct T as [T U]. refine (reads_fun _ _ (reads_ext _ _ (Then _ _ (new_read n t (fun u r v => deep_below source Small n t u r v D))) _) _); [|intros s; unfold parameters_step; now rewrite E].
    intros [x b] e. cbn [fst snd]. split; [intros (p & e1 & e2 & Rp & A & -> & ->); now apply (parameter_new known source context t l p)|].
    intros H. inversion H as [p e1 l' e2 T' S1 A|p e1 l' e2 T' S1 A|N]; subst; [discriminate (U _ T')|exists p, e1, e2; auto|now elim (N NewForm)].
  - refine (reads_fun _ _ (other_reads t l (parameter_node known source context t l) _) _); [|intros s; unfold parameters_step; now rewrite E].
    intros y e b. split; [intros H; inversion H as [p e1 l' e2 T' S1 A|p e1 l' e2 T' S1 A|N]; subst; [now elim (T _ T')..|auto]|intros (-> & -> & ->); now apply parameter_other].
Qed.
Lemma parameters_read : forall n item, deep source (S (S n)) item -> reads (parse_parameters source context n item) (parameters_say known source context item).
Proof.
  intros n item D. unfold parse_parameters.
  set (e0 := fun t => if String.eqb (Payloads.remaining t) "" then [] else
          on t [Says 5 "ignoring additional content after 'parameters' keyword, expected a nested list of parameters, one parameter per list item"]).
  set (w := fun l : list parameter => match l with [] => on item [Says 3 "no parameters specified, expected a nested list of parameters, one parameter per list item"] | _ => [] end).
  refine (reads_ext _ _ (reads_item known item _ (fun t r l e => exists e', (exists l' e1, nodes_say (parameter_node known source context) r [] l' e1 /\ l = l' /\ e' = (e1 ++ w l')%list) /\ e = (e0 t ++ e')%list) _) _).
  - intros t r O.
    refine (reads_fun _ _ (reads_before (e0 t) _ _ (reads_map (walk (parameters_step source context n) r []) _ (fun l => l) w
      (reads_walk known (fun _ => True) _ (parameter_node known source context) r (fun u l I _ => step_reads n u l (deep_below source Small (S n) item t r u D O I)) (fun _ _ _ _ _ _ _ _ => I) [] I))) _).
    intros s. cbv zeta. assert (Es : (if String.eqb (Payloads.remaining t) "" then s
             else note (spot t) [Warns IgnoringCode "ignoring additional content after 'parameters' keyword, expected a nested list of parameters, one parameter per list item"] s) = perform (e0 t) s).
    { unfold e0. destruct (String.eqb _ ""); [reflexivity|]. exact (perform_warns t 5 [_] s). }
    rewrite Es. destruct (walk (parameters_step source context n) r [] (perform (e0 t) s)) as [[l s1]| | |]; try reflexivity. cbn [andthen]. f_equal. f_equal. unfold w. destruct l; [|reflexivity]. exact (perform_warns item 3 [_] s1).
  - assert (L : forall t, exists a, lines (the_text t) a (Payloads.remaining t)).
    { intros t. exists (fst (first_line (the_text t) "")). apply PayloadsText.lines_iff. unfold Payloads.remaining. assert (E : t_text t = the_text t) by now destruct t. rewrite E. now destruct (first_line (the_text t) ""). }
    assert (Lu : forall t a b, lines (the_text t) a b -> b = Payloads.remaining t).
    { intros t a b H. apply PayloadsText.lines_iff in H. unfold Payloads.remaining. assert (E : t_text t = the_text t) by now destruct t. now rewrite E, H. }
    intros l e. split.
    + intros (t & r & O & e' & (l' & e1 & N & <- & ->) & ->). destruct (L t) as [a La]. exact (parameters_by known source context item t r a (Payloads.remaining t) l e1 O La N).
    + intros H. destruct H as [t r a b l e1 O La N]. apply Lu in La as ->. exists t, r. split; [exact O|]. exists (e1 ++ w l)%list. split; [|reflexivity]. exists l, e1. auto.
Qed.
End Whole.
