(** Lemmas for C80: signatures, texts and the first nodes of members *)
From Verif Require Import Base StringUtility StringSpec StringProofs ByteBuffer ByteSpec Markdown MarkdownSpec Regex RegexSpec RegexProofs RegexCaps Keywords KeywordsSpec KeywordsProofs Prop_Keywords
  Signature SignatureSpec SignatureProofs SignatureWhole TypeTables SourceMap Mson Prop_Bytes Prop_Strings TypeDefs TypeDefsSpec TypeDefsProofs MembersTree MembersSpec MembersRead.
From Verif Require SectionsSpec SectionsItems SectionsDoc Payloads PayloadsSpec PayloadsText PayloadsNodes.
Import SectionsSpec(a_header, an_item, include_item, one_of_item, object_base, value_base, primitive_base).
Import PayloadsSpec(the_text, place, opens, row, padded).
Local Open Scope string_scope.

(** ** the first node *)
Lemma start_val : forall l o, Payloads.start_loop l = Val o -> match o with
  | None => Forall PayloadsSpec.takes_nothing l
  | Some m => exists a t r, l = (a ++ t :: r)%list /\ m = t :: r /\ Forall PayloadsSpec.takes_nothing a /\ PayloadsSpec.takes_source t
  end.
Proof.
  induction l as [|t l IH]; intros o H; cbn [Payloads.start_loop] in H; [injection H as <-; constructor|].
  destruct (t_map t) as [|x m] eqn:E; [discriminate|]. destruct (N.eqb_spec (length x) 0) as [Z|Z].
  - apply IH in H. assert (T : PayloadsSpec.takes_nothing t) by (unfold PayloadsSpec.takes_nothing; destruct t; cbn in *; now rewrite E). destruct o as [p|].
    + destruct H as (a & u & r & -> & -> & F & S). exists (t :: a), u, r. split; [reflexivity|]. split; [reflexivity|]. split; [now constructor|exact S].
    + now constructor.
  - injection H as <-. exists [], t, l. split; [reflexivity|]. split; [reflexivity|]. split; [constructor|]. unfold PayloadsSpec.takes_source. destruct t; cbn in *. now rewrite E.
Qed.
Lemma starting_iff : forall item t r, Payloads.starting item = Val (t :: r) <-> opens item t r.
Proof.
  intros item t r. split; [|apply PayloadsNodes.opens_of]. intros H. unfold Payloads.starting in H. destruct item as [ty x z m cs]. cbn [is_item t_type t_children] in H.
  destruct ty; try discriminate. destruct (Payloads.start_loop cs) as [o| | |] eqn:E; try discriminate. apply start_val in E. cbn [andthen] in H. injection H as H. destruct o as [l|].
  - destruct E as (a & u & q & -> & -> & F & S). injection H as -> ->. left. now exists a.
  - right. subst cs. now split.
Qed.

Section Leaves.
Context (known : list (string * base_type)) (source context : string) (Small : (slen source < 2 ^ 64)%N).
Notation reads := (reads known).
Definition fits (t : tree) : Prop := Forall (fun r => ByteBuffer.location r + ByteBuffer.length r <= slen source)%N (place t).

Lemma signature_reads : forall tr given t, reads (signature_of tr given t)
  (fun sg e => exists p m, signed (shape_of tr) (the_text t) given (Some (p, m)) /\ sg = sig_of p /\ e = on t (map (Says 6) m)).
Proof.
  intros tr given t s sg s' K. unfold signature_of. assert (T : t_text t = the_text t) by now destruct t. rewrite T.
  assert (A := fun o H => signed_ok tr (the_text t) given o H _ (enough_two _ _)). split.
  - intros H. destruct (signed_total tr (the_text t) given) as [o O]. rewrite (A o O) in H. destruct o as [[p m]|]; [|discriminate]. cbn [andthen] in H. injection H as <- <-.
    exists (on t (map (Says 6) m)). split; [exists p, m; auto|]. apply (perform_warns t 6).
  - intros (e & (p & m & O & -> & ->) & ->). rewrite (A _ O). cbn [andthen]. f_equal. f_equal. apply (perform_warns t 6).
Qed.
Lemma noted_performed : forall t e s, (let '(d, w) := performed (deps (s_tables s)) e in note (spot t) w (St (set_deps (s_tables s) d) (s_notes s))) = perform (on t e) s.
Proof. intros t e s. now rewrite perform_on. Qed.
Lemma define_reads : forall t attrs, reads (define context t attrs) (fun td e => exists e0, definition_says known context attrs td e0 /\ e = on t e0).
Proof.
  intros t attrs s td s' K. unfold define.
  assert (A : forall td e, definition_says known context attrs td e ->
    andthen (parse_type_definition (enough_for attrs) context attrs (s_tables s)) (fun '(td, tb, w) => Val (td, note (spot t) w (St tb (s_notes s)))) = Val (td, perform (on t e) s)).
  { intros td0 e D. rewrite <- K in D. rewrite (definition_ok _ _ _ _ _ D _ (enough_each attrs)), <- noted_performed. now destruct (performed (deps (s_tables s)) e) as [d w]. }
  split.
  - intros H. destruct (definition_total known context attrs) as (td0 & e & D). rewrite (A _ _ D) in H. injection H as <- <-. exists (on t e). split; [now exists e|reflexivity].
  - intros (e & (e0 & D & ->) & ->). now apply A.
Qed.
Lemma depend_on_performs : forall t strict n s, depend_on context t strict n s = perform (on t (referring context strict [n])) s.
Proof.
  intros t strict n s. unfold depend_on, names_type, referring. cbn [flat_map]. rewrite app_nil_r.
  destruct (String.eqb_spec (s_literal n) "") as [E|E].
  - cbn. now rewrite andb_false_l || (destruct (s_literal n); [now destruct s|discriminate]).
  - destruct (s_variable n); cbn.
    + destruct (s_literal n) eqn:L; [now elim E|]. reflexivity.
    + destruct (s_literal n) eqn:L; [now elim E|]. reflexivity.
Qed.
Lemma depend_all_performs : forall t l s, fold_left (fun s n => depend_on context t false (n_symbol n) s) l s = perform (on t (referring context false (map n_symbol l))) s.
Proof.
  intros t. induction l as [|n l IH]; intros s; [reflexivity|]. cbn [fold_left map]. rewrite IH, depend_on_performs.
  change (referring context false (n_symbol n :: map n_symbol l)) with ((if String.eqb (s_literal (n_symbol n)) "" then [] else if s_variable (n_symbol n) then [] else [Depends (s_literal (n_symbol n)) context false]) ++ referring context false (map n_symbol l))%list.
  unfold on. rewrite map_app, perform_app. f_equal. unfold referring at 1. cbn [flat_map]. now rewrite app_nil_r.
Qed.
Lemma each_iff : forall l vs, parse_each l = Val vs <-> Forall2 value_says l vs.
Proof.
  induction l as [|x l IH]; intros vs; cbn [parse_each].
  - split; [intros H; injection H as <-; constructor|intros H; now inversion H].
  - destruct (value_total x) as [v V]. rewrite (value_ok _ _ V). cbn [andthen]. split.
    + intros H. destruct (parse_each l) as [ws| | |] eqn:E; try discriminate. cbn [andthen] in H. injection H as <-. constructor; [exact V|now apply IH].
    + intros H. inversion H as [|x0 w l0 ws Vw Fw]; subst. apply IH in Fw. rewrite Fw. cbn [andthen]. now rewrite (value_unique _ _ _ V Vw).
Qed.
Lemma value_iff : forall x v, parse_value x = Val v <-> value_says x v.
Proof. intros x v. split; [|apply value_ok]. intros H. destruct (value_total x) as [w W]. rewrite (value_ok _ _ W) in H. now injection H as <-. Qed.

(** ** texts *)
Lemma spaced_iff : forall d d', (if String.eqb d "" then Val "" else two_new_lines d) = Val d' <-> spaced d d'.
Proof.
  intros d d'. unfold spaced. destruct (String.eqb_spec d "") as [->|N].
  - split; [intros H; injection H as <-; now left|intros [[_ ->]|(X & _)]; [reflexivity|now elim X]].
  - destruct (string_dec d (String "010" "")) as [->|L].
    + split; [cbn; discriminate|intros [[X _]|(_ & X & _)]; [now elim N|now elim X]].
    + rewrite <- (PayloadsText.padded_iff d d' N L). intuition.
Qed.
Lemma mapped : forall t, fits t -> map_ranges (t_map t) source = Val (source_of source t).
Proof. intros t F. assert (E : t_map t = place t) by now destruct t. rewrite E. now apply C49_text. Qed.
Lemma no_text_sections : forall t, text_node t <-> is_description t = true.
Proof.
  intros t. unfold is_description, text_node. destruct t as [[] x z m cs]; cbn [a_header an_item]; try (rewrite (proj1 (SectionsDoc.other_none (Tree _ x z m cs) eq_refl eq_refl)));
    (split; [intros [H H']|]); try (now elim H); try (now elim H'); try reflexivity; try (split; intros []);
    destruct (member_nested_type _); discriminate.
Qed.
Lemma block_some : forall t d m o, fits t -> block_description source t [text_section d m] = Val o <-> exists d' m', adds_text source t (d, m) (d', m') /\ o = Some [text_section d' m'].
Proof.
  intros t d m o F. unfold block_description. cbn [text_section sc_class sc_description sc_description_map]. pose proof (spaced_iff d) as Sp.
  destruct (if String.eqb d "" then Val "" else two_new_lines d) as [d1| | |].
  - cbn [andthen]. rewrite (mapped t F). cbn [andthen]. assert (S1 : spaced d d1) by now apply Sp. split.
    + intros H. injection H as <-. exists (d1 +++ trim (source_of source t)), (if String.eqb (trim (source_of source t)) "" then m else append_places m (lies t)). split; [|reflexivity].
      apply (adds_by source t d m d1 (trim (source_of source t)) S1). now apply trims_iff.
    + intros (d' & m' & A & ->). inversion A as [d0 m0 d2 c S2 T]; subst. apply trims_iff in T as ->. assert (d2 = d1) as -> by (apply Sp in S2; congruence). reflexivity.
  - split; [discriminate|]. intros (d' & m' & A & _). inversion A as [d0 m0 d2 c S2 T]; subst. apply Sp in S2. discriminate.
  - split; [discriminate|]. intros (d' & m' & A & _). inversion A as [d0 m0 d2 c S2 T]; subst. apply Sp in S2. discriminate.
  - split; [discriminate|]. intros (d' & m' & A & _). inversion A as [d0 m0 d2 c S2 T]; subst. apply Sp in S2. discriminate.
Qed.
Lemma block_none : forall t o, fits t -> block_description source t [] = Val o <-> exists d' m', adds_text source t ("", []) (d', m') /\ o = Some [text_section d' m'].
Proof. intros t o F. exact (block_some t "" [] o F). Qed.
Definition at_most_text (l : sections) : Prop := l = [] \/ exists d m, l = [text_section d m].
Lemma descriptions_iff : forall r l o, at_most_text l -> Forall fits r ->
  (descriptions source r l = Val o <-> exists texts others l', row text_node r texts others /\ adds_texts source texts l l' /\ o = Some (l', others)).
Proof.
  induction r as [|t r IH]; intros l o L F; cbn [descriptions].
  - split.
    + intros H. injection H as <-. exists [], [], l. split; [split; [reflexivity|split; [constructor|tauto]]|]. split; [constructor|reflexivity].
    + intros (texts & others & l' & (E & _) & A & ->). symmetry in E. apply app_eq_nil in E as [-> ->]. inversion A; subst. reflexivity.
  - apply Forall_cons_iff in F as [Ft Fr]. destruct (is_description t) eqn:D.
    + apply no_text_sections in D.
      assert (B : forall o, block_description source t l = Val o <-> exists d m d' m', ((l = [] /\ d = "" /\ m = []) \/ l = [text_section d m]) /\ adds_text source t (d, m) (d', m') /\ o = Some [text_section d' m']).
      { intros o'. destruct L as [->|(d & m & ->)]; [rewrite block_none|rewrite block_some]; try assumption.
        - split; [intros (d' & m' & A & ->); exists "", [], d', m'; auto|intros (d & m & d' & m' & [(_ & -> & ->)|E] & A & ->); [eauto|discriminate]].
        - split; [intros (d' & m' & A & ->); exists d, m, d', m'; auto|intros (d0 & m0 & d' & m' & [(E & _)|E] & A & ->); [discriminate|]]. injection E as <- <-. eauto. }
      split.
      * intros H. destruct (block_description source t l) as [o1| | |]; try discriminate. cbn [andthen] in H. destruct (proj1 (B o1) eq_refl) as (d & m & d' & m' & E & A & ->).
        apply IH in H as (texts & others & l' & (-> & T & N) & As & ->); [|right; eauto|exact Fr]. exists (t :: texts), others, l'. split; [split; [reflexivity|split; [now constructor|exact N]]|]. split; [|reflexivity].
        destruct E as [(-> & -> & ->)| ->]; econstructor; eauto.
      * intros (texts & others & l' & (E & T & N) & As & ->). destruct texts as [|u texts].
        { cbn in E. subst others. elim N. exact D. }
        injection E as <- ->. apply Forall_cons_iff in T as [_ T].
        assert (X : exists d' m', block_description source t l = Val (Some [text_section d' m']) /\ adds_texts source texts [text_section d' m'] l').
        { inversion As as [|t0 r0 d m l0 A1 A2|t0 r0 d m d' m' l0 A1 A2]; subst.
          - exists d, m. split; [apply B; exists "", [], d, m; auto|exact A2].
          - exists d', m'. split; [apply B; exists d, m, d', m'; auto|exact A2]. }
        destruct X as (d' & m' & -> & A2). cbn [andthen]. apply IH; [right; eauto|exact Fr|]. exists texts, others, l'. repeat split; assumption.
    + assert (Nt : ~ text_node t) by (rewrite no_text_sections, D; discriminate). split.
      * intros H. injection H as <-. exists [], (t :: r), l. split; [split; [reflexivity|split; [constructor|exact Nt]]|]. split; [constructor|reflexivity].
      * intros (texts & others & l' & (E & T & N) & A & ->). destruct texts as [|u texts].
        { cbn in E. subst others. inversion A; subst. reflexivity. }
        injection E as <- ->. now apply Forall_cons_iff in T as [T _].
Qed.
Lemma rest_is : forall t x, remaining_content t x = rest_section t x.
Proof. reflexivity. Qed.
Lemma rest_most : forall t x, at_most_text (rest_section t x).
Proof. intros t x. unfold rest_section. destruct (String.eqb x ""); [now left|right; eauto]. Qed.

(** ** the first node of a member *)
Lemma use_reads : forall t p, reads (use_signature context t (sig_of p)) (fun m e => exists td e2 vs b mapped,
  definition_says known context (p_attributes p) td e2 /\ values_say p (td_base td) vs b mapped /\
  m = Mem (p_content p) (VD vs (TD b (td_spec td) (td_attrs td))) (rest_section t (p_rest p)) (lies_unless (negb mapped) t) (lies_unless (String.eqb (p_content p) "") t)
          (lies_unless (value_empty (VD vs td)) t) /\
  e = on t (e2 ++ referring context false (refers_to (td_spec td)))).
Proof.
  intros t p. unfold use_signature.
  refine (reads_ext _ _ (reads_bind (fun td m e => exists vs b mapped, values_say p (td_base td) vs b mapped /\
     m = Mem (p_content p) (VD vs (TD b (td_spec td) (td_attrs td))) (rest_section t (p_rest p)) (lies_unless (negb mapped) t) (lies_unless (String.eqb (p_content p) "") t)
          (lies_unless (value_empty (VD vs td)) t) /\
     e = on t (referring context false (refers_to (td_spec td)))) (define_reads t (attributes (sig_of p))) _) _).
  - intros td e0 _. cbv zeta.
    assert (Dp : forall s, match n_base (t_name (td_spec td)) with
           | ArrayTN | EnumTN => fold_left (fun s n => depend_on context t false (n_symbol n) s) (t_nested (td_spec td)) s
           | UndefinedTN => depend_on context t false (n_symbol (t_name (td_spec td))) s
           | _ => s
           end = perform (on t (referring context false (refers_to (td_spec td)))) s).
    { intros s. unfold refers_to. destruct (n_base (t_name (td_spec td))); try reflexivity; [apply depend_on_performs|apply depend_all_performs..]. }
    intros s m s' K. rewrite Dp. clear Dp. set (e := on t _). destruct td as [b ts at_]. cbn [td_base td_spec td_attrs sig_of content Signature.values Signature.value remaining].
    assert (V : forall base, base = PrimitiveBT -> 1 < List.length (p_values p) -> forall m s', andthen (parse_value (p_value p)) (fun v => Val (Mem (p_content p) (VD [v] (TD b ts at_)) (remaining_content t (p_rest p)) [] (if String.eqb (p_content p) "" then [] else spot t) (spot t), perform e s)) = Val (m, s') <-> exists e', (exists v, value_says (p_value p) v /\ m = (Mem (p_content p) (VD [v] (TD b ts at_)) (rest_section t (p_rest p)) [] (lies_unless (String.eqb (p_content p) "") t) (lies t)) /\ e' = e) /\ s' = perform e' s).
    { intros _ _ _ m0 s0. destruct (value_total (p_value p)) as [v V]. rewrite (value_ok _ _ V). cbn [andthen]. split.
      - intros H. injection H as <- <-. exists e. split; [|reflexivity]. exists v. repeat split. exact V.
      - intros (e' & (v' & V' & -> & ->) & ->). rewrite (value_unique _ _ _ V V'). reflexivity. }
    assert (E : forall b', andthen (parse_each (p_values p)) (fun vs => Val (Mem (p_content p) (VD vs (TD b' ts at_)) (remaining_content t (p_rest p)) (spot t) (if String.eqb (p_content p) "" then [] else spot t) (if value_empty (VD vs (TD b' ts at_)) then [] else spot t), perform e s)) = Val (m, s') <->
       exists e', (exists vs, Forall2 value_says (p_values p) vs /\ m = Mem (p_content p) (VD vs (TD b' ts at_)) (rest_section t (p_rest p)) (lies t) (lies_unless (String.eqb (p_content p) "") t) (lies_unless (value_empty (VD vs (TD b ts at_))) t) /\ e' = e) /\ s' = perform e' s).
    { intros b'. pose proof (each_iff (p_values p)) as I. split.
      - intros H. destruct (parse_each (p_values p)) as [vs| | |]; try discriminate. cbn [andthen] in H. injection H as <- <-. exists e. split; [|reflexivity]. exists vs. split; [now apply I|]. split; reflexivity.
      - intros (e' & (vs & W & -> & ->) & ->). apply I in W. rewrite W. reflexivity. }
    destruct (Nat.ltb 1 (List.length (p_values p))) eqn:N; [apply Nat.ltb_lt in N|apply Nat.ltb_ge in N].
    + destruct b.
      all: unfold set_base; cbn [td_base td_spec td_attrs].
      all: first
        [ rewrite (E _); split;
          [ intros (e' & (vs & W & -> & ->) & ->); exists e; split; [|reflexivity]; eexists vs, _, true; split; [apply values_each; [right; discriminate|exact W]|];
            rewrite ?(proj2 (Nat.ltb_lt _ _) N); split; reflexivity
          | intros (e' & (vs & b' & mp & Q & -> & ->) & ->); exists e; split; [|reflexivity]; exists vs;
            inversion Q as [v G Eb V'|vs' G W]; subst; [discriminate|]; split; [exact W|]; rewrite ?(proj2 (Nat.ltb_lt _ _) N); split; reflexivity ]
        | rewrite (V _ eq_refl N); split;
          [ intros (e' & (v & W & -> & ->) & ->); exists e; split; [|reflexivity]; exists [v], PrimitiveBT, false; split; [now apply values_one|]; split; reflexivity
          | intros (e' & (vs & b' & mp & Q & -> & ->) & ->); exists e; split; [|reflexivity];
            inversion Q as [v G Eb V'|vs' G W]; subst; [exists v; split; [exact V'|]; split; reflexivity|destruct G as [G|G]; [lia|now elim G]] ] ].
    + assert (N' : (1 <? List.length (p_values p))%nat = false) by (apply Nat.ltb_ge; exact N).
      rewrite (E b). split.
      * intros (e' & (vs & W & -> & ->) & ->). exists e. split; [|reflexivity]. eexists vs, _, true. split; [apply values_each; [now left|exact W]|]. rewrite N'. destruct b; split; reflexivity.
      * intros (e' & (vs & b' & mp & Q & -> & ->) & ->). exists e. split; [|reflexivity]. exists vs. inversion Q as [v G Eb V'|vs' G W]; subst; [lia|]. split; [exact W|]. rewrite N'. destruct b; split; reflexivity.
  - intros m e. cbn [sig_of attributes]. split.
    + intros (td & e1 & e2 & (e0 & D & ->) & (vs & b & mp & V & -> & ->) & ->). exists td, e0, vs, b, mp. split; [exact D|]. split; [exact V|]. split; [reflexivity|]. unfold on. now rewrite map_app.
    + intros (td & e0 & vs & b & mp & D & V & -> & ->). exists td, (on t e0), (on t (referring context false (refers_to (td_spec td)))). split; [eauto|]. split; [eauto 8|]. unfold on. now rewrite map_app.
Qed.
End Leaves.
