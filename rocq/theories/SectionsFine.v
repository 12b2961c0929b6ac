From Verif Require Import Base StringUtility StringSpec Regex ByteBuffer Markdown MarkdownSpec Keywords KeywordsSpec KeywordsOrder Prop_Keywords TypeTables Sections SectionsSpec SectionsKeys SectionsKinds SectionsItems SectionsMeta SectionsLoop.
Local Open Scope string_scope.
Local Open Scope list_scope.

(** ** keywords and headers *)
Lemma header_iff_a : forall t, is_header t = true <-> a_header t.
Proof. intros [[] x z m cs]; cbn; intuition discriminate. Qed.
Lemma item_iff : forall t, is_item t = true <-> an_item t.
Proof. intros [[] x z m cs]; cbn; intuition discriminate. Qed.
Lemma says_item : forall P t, item_says P t -> is_item t = true.
Proof. intros P [[] x z m cs]; cbn; intuition. Qed.
Lemma unexpected_base : forall l t, ~ In UndefinedSection l -> base_is_unexpected l t = negb (among l (section_keyword t)).
Proof.
  intros l t N. unfold base_is_unexpected. destruct (among l (section_keyword t)) eqn:E; [|reflexivity]. cbn [negb].
  destruct (undefined (section_keyword t)) eqn:U; [|reflexivity]. assert (K : section_keyword t = UndefinedSection) by (destruct (section_keyword t); try discriminate; reflexivity). rewrite K in E.
  exfalso. apply N. unfold among in E. apply existsb_exists in E as (y & Y & E). assert (Ey : y = UndefinedSection) by (destruct y; vm_compute in E; try discriminate; reflexivity). now rewrite Ey in Y.
Qed.
Lemma description_base : forall nested upper t, base_is_description nested upper t = true <-> nested t = UndefinedSection /\ (section_keyword t = UndefinedSection \/ among upper (section_keyword t) = false).
Proof.
  intros nested upper t. unfold base_is_description.
  assert (U : forall x, undefined x = true <-> x = UndefinedSection) by (intros []; cbn; intuition discriminate).
  destruct (undefined (nested t)) eqn:E; cbn [negb].
  - apply U in E. rewrite <- (U (section_keyword t)). destruct (undefined (section_keyword t)); [tauto|]. destruct (among upper (section_keyword t)); cbn; intuition discriminate.
  - split; [discriminate|]. intros [H _]. apply U in H. congruence.
Qed.
Lemma among_none : forall l, ~ In UndefinedSection l -> among l UndefinedSection = false.
Proof.
  intros l N. destruct (among l UndefinedSection) eqn:E; [|reflexivity]. exfalso. apply N. unfold among in E. apply existsb_exists in E as (y & Y & E). assert (Ey : y = UndefinedSection) by (destruct y; vm_compute in E; try discriminate; reflexivity). now rewrite Ey in Y.
Qed.
Lemma description_upper : forall nested upper t, ~ In UndefinedSection upper -> (base_is_description nested upper t = true <-> nested t = UndefinedSection /\ among upper (section_keyword t) = false).
Proof.
  intros nested upper t N. rewrite description_base. split; [|tauto]. intros [H [E|E]]; (split; [exact H|]); [rewrite E; now apply among_none|exact E].
Qed.

Lemma payload_last : forall ty, a_payload ty <-> is_request ty = true \/ is_response ty = true.
Proof. intros ty. unfold a_payload. cbn [In]. destruct ty; cbn; intuition discriminate. Qed.
Lemma no_payload : ~ a_payload UndefinedSection.
Proof. unfold a_payload. cbn. intuition discriminate. Qed.
Lemma next_stays : forall last t r, next_last UndefinedSection last (t :: r) = last \/ next_last UndefinedSection last (t :: r) = UndefinedSection.
Proof. intros. rewrite next_undefined. destruct (is_text t); auto. Qed.
Lemma response_in : forall l, response_open l -> match last_example l with Some (_, _ :: _) => true | _ => false end = true.
Proof. intros l (a & q & r & -> & N). rewrite last_example_snoc. now destruct r. Qed.
Lemma request_in : forall l, request_open l -> match last_example l with Some (_ :: _, _) => true | _ => false end = true.
Proof. intros l (a & q & -> & N). rewrite last_example_snoc. now destruct q. Qed.
Lemma not_both : forall ty, is_request ty = true -> is_response ty = true -> False.
Proof. intros []; discriminate. Qed.
Lemma action_describes_iff : forall t, one_line t -> (base_is_description action_nested_type action_upper t = true <-> action_describes t).
Proof.
  intros t O. rewrite description_upper; [|cbn; intuition discriminate]. destruct (upper_iff t O) as (_ & _ & Up & _). unfold action_describes. rewrite <- Up.
  destruct (action_kind t) as [(ty & Hi & E & Nu & Nm)|[(ty & Hm & Nr & E & Na & Im)|(E & Na)]]; rewrite E.
  - split; [intros [H _]; now elim Nu|]. intros [_ H]. exfalso. exact (proj1 (H ty) Hi).
  - split; [intros [H _]; rewrite H in Im; discriminate Im|]. intros [_ H]. exfalso. exact (proj2 (H ty) Hm).
  - destruct (among action_upper (section_keyword t)); split; intros [A B].
    + discriminate.
    + now elim A.
    + split; [discriminate|exact Na].
    + split; reflexivity.
Qed.
Lemma told_nodes : forall h d ps rest kind o, o_parts o = Head h :: map Text d ++ ps -> section_nodes (close kind o) ++ rest = h :: d ++ nodes_of ps ++ rest /\ section_head (close kind o) = Some h.
Proof.
  intros h d ps rest kind o P. unfold section_head, close. cbn [section_nodes]. rewrite P. cbn [flat_map part_nodes app]. fold (nodes_of (map Text d ++ ps)). rewrite nodes_app, nodes_text, <- app_assoc. now split.
Qed.

Section Fine.
Context (inside : section_type -> tree -> outcome unit).

(** the result is as told; what goes wrong goes wrong within a list item, or the document is refused *)
Definition inside_is (x : outcome unit) (l : list tree) : Prop := exists ty t, In t l /\ inside ty t = x.
Definition fine {A} (l : list tree) (refused : Prop) (Q : A -> Prop) (m : outcome A) : Prop :=
  match m with
  | Val a => Q a
  | Thrown => inside_is Thrown l \/ refused
  | ByteBuffer.Wild => inside_is ByteBuffer.Wild l
  | Endless => inside_is Endless l
  end.
Lemma inside_sub : forall x a b, incl a b -> inside_is x a -> inside_is x b.
Proof. intros x a b I (ty & t & H & E). exists ty, t. auto. Qed.
Lemma fine_imp : forall A l l' (r r' : Prop) (Q Q' : A -> Prop) m, incl l l' -> (r -> r') -> (forall a, Q a -> Q' a) -> fine l r Q m -> fine l' r' Q' m.
Proof.
  intros A l l' r r' Q Q' m I R H F. destruct m; cbn in *; auto.
  - exact (inside_sub _ _ _ I F).
  - destruct F as [F|F]; [left; exact (inside_sub _ _ _ I F)|right; auto].
  - exact (inside_sub _ _ _ I F).
Qed.
Lemma fine_bind : forall A B l r (Q : A -> Prop) (Q' : B -> Prop) m f, fine l r Q m -> (forall a, Q a -> fine l r Q' (f a)) -> fine l r Q' (andthen m f).
Proof. intros A B l r Q Q' m f F H. destruct m; cbn in *; auto. Qed.
Lemma fine_list : forall ty o t l (refused : Prop) (Q : out * list tree -> Prop), is_item t = true -> Q (add (Listed ty t) o, l) -> fine (t :: l) refused Q (list_section inside ty o (t :: l)).
Proof.
  intros ty o t l r Q I H. unfold list_section, with_node. rewrite I. destruct (inside ty t) eqn:E; cbn; [exact H|..]; try (exists ty, t; split; [now left|exact E]).
  left. exists ty, t. split; [now left|exact E].
Qed.

(** ** the loop over nested sections *)
Definition move (p : processor) (last : section_type) (o : out) (cur : list tree) : step :=
  match cur with
  | [] => ByteBuffer.Wild
  | t :: _ => if negb (undefined (p_nested_type p t)) then p_nested p (p_nested_type p t) o cur else if p_is_unexpected p t then p_unexpected p last o cur else Val (o, cur)
  end.
Section Loop.
Context (p : processor) (rule : list part -> part -> list tree -> Prop) (stop : list part -> tree -> Prop) (ref : list tree -> Prop)
  (Inv : list part -> section_type -> out -> list tree -> Prop) (keeps : out -> out -> Prop) (keeps_refl : forall o, keeps o o).
Definition stays (done : list part) (o : out) (t : tree) (r : list tree) (o' : out) (cur' : list tree) : Prop :=
  cur' = t :: r /\ stop done t /\ keeps o o'.
Definition takes (done : list part) (last : section_type) (t : tree) (r : list tree) (o' : out) (cur' : list tree) : Prop :=
  exists ps, nodes_of ps ++ cur' = t :: r /\ List.length cur' <= List.length r /\ in_order rule done ps cur' /\ Inv (done ++ ps) (next_last (p_nested_type p t) last cur') o' cur'.
Definition good_move : Prop := forall done last o t r, Forall one_line (t :: r) -> Inv done last o (t :: r) ->
  fine (t :: r) (ref (t :: r)) (fun '(o', cur') => stays done o t r o' cur' \/ takes done last t r o' cur') (move p last o (t :: r)).
Definition looped (done : list part) (cur : list tree) (x : out * list tree) : Prop :=
  exists ps last' o1, nodes_of ps ++ snd x = cur /\ in_order rule done ps (snd x) /\ Inv (done ++ ps) last' o1 (snd x) /\ keeps o1 (fst x) /\
    stops (stop (done ++ ps)) (snd x).
Lemma loop_fine : good_move -> (forall a b, ref b -> ref (a ++ b)) -> forall n done last o cur, List.length cur < n -> Forall one_line cur -> Inv done last o cur ->
  fine cur (ref cur) (looped done cur) (nested_loop n p last o cur).
Proof.
  intros G M n. induction n as [|n IH]; intros done last o cur L O J; [lia|]. destruct cur as [|t r].
  - cbn. exists [], last, o. cbn. rewrite app_nil_r. split; [reflexivity|]. split; [constructor|]. split; [exact J|]. split; [apply keeps_refl|now left].
  - cbn [nested_loop]. pose proof (G done last o t r O J) as S. cbv zeta. eapply fine_bind; [exact S|]. intros (o' & cur') [(-> & St & P)|(ps & N & Lt & Or & J')].
    + replace (same (t :: r) (t :: r)) with true by (symmetry; unfold same; apply Nat.eqb_refl). cbn. exists [], last, o. cbn. rewrite app_nil_r. split; [reflexivity|]. split; [constructor|]. split; [exact J|].
      split; [exact P|]. right. exact St.
    + assert (Sm : same (t :: r) cur' = false) by (unfold same; apply Nat.eqb_neq; cbn; lia). rewrite Sm.
      assert (O' : Forall one_line cur') by (rewrite <- N in O; now apply Forall_app in O as [_ O]).
      refine (fine_imp _ cur' _ (ref cur') _ _ _ _ _ _ _ (IH (done ++ ps) _ o' cur' _ O' J')).
      * rewrite <- N. intros x X. apply in_or_app. now right.
      * rewrite <- N. apply M.
      * intros (o2 & rest). unfold looped. cbn [fst snd]. intros (qs & l2 & o1 & N2 & Or2 & J2 & P2 & St2). exists (ps ++ qs), l2, o1. rewrite app_assoc.
        split; [rewrite nodes_app, <- app_assoc, N2; exact N|]. split; [apply in_order_app; [now rewrite N2|exact Or2]|]. auto.
      * cbn in L. lia.
Qed.
End Loop.

(** ** description *)
Lemma describe_fine : forall (p : processor) (describes : tree -> Prop) (J : list tree -> out -> Prop) l r,
  (forall t, one_line t -> (p_is_description p t = true <-> describes t)) ->
  (forall d o t q, J d o -> describes t -> exists o', p_description p o (t :: q) = Val (o', q) /\ J (d ++ [t]) o') ->
  forall n d o cur, List.length cur < n -> Forall one_line cur -> J d o ->
  fine l r (fun '(go, o', rest) => go = true /\ exists e, e ++ rest = cur /\ Forall describes e /\ ~ first_is describes rest /\ J (d ++ e) o') (describe n p o cur).
Proof.
  intros p describes J l r D T n. induction n as [|n IH]; intros d o cur L O Jd; [lia|]. cbn [describe]. destruct cur as [|t q].
  - cbn. split; [reflexivity|]. exists []. rewrite (app_nil_r d). split; [reflexivity|]. split; [constructor|]. split; [easy|exact Jd].
  - inversion O as [|? ? O1 O2]; subst. destruct (p_is_description p t) eqn:E.
    + apply (D t O1) in E. destruct (T d o t q Jd E) as (o' & -> & J'). cbn [andthen]. replace (same (t :: q) q) with false by (symmetry; unfold same; apply Nat.eqb_neq; cbn; lia).
      refine (fine_imp _ l l r r _ _ _ (incl_refl _) (fun x => x) _ (IH (d ++ [t]) o' q _ O2 J')); [|cbn in L; lia].
      intros ((go & o2) & rest) (G & e & Ee & F & N & J2). split; [exact G|]. exists (t :: e). rewrite <- app_assoc in J2. subst q. split; [reflexivity|]. split; [now constructor|]. split; [exact N|exact J2].
    + cbn. split; [reflexivity|]. exists []. rewrite (app_nil_r d). split; [reflexivity|]. split; [constructor|]. split; [|exact Jd]. intros H. apply (D t O1) in H. congruence.
Qed.
Lemma parts_one : forall t o, o_parts (add (Text t) o) = o_parts o ++ [Text t] /\ o_examples (add (Text t) o) = o_examples o.
Proof. intros. split; reflexivity. Qed.
(** the usual description *)
Definition told (h : tree) (d : list tree) (o : out) : Prop := o_parts o = Head h :: map Text d /\ o_examples o = [].
Lemma told_text : forall h d o t q, told h d o -> exists o', take_text o (t :: q) = Val (o', q) /\ told h (d ++ [t]) o'.
Proof.
  intros h d o t q [P E]. eexists. split; [reflexivity|]. split; [|exact E]. cbn. rewrite P, map_app. reflexivity.
Qed.
(** ** a section with a header, a description and nested sections *)
Lemma section_fine : forall p rule stop ref (keeps : out -> out -> Prop) (keeps_refl : forall o, keeps o o) (describes : tree -> Prop) (Inv : list tree -> list part -> section_type -> out -> list tree -> Prop) (h : tree) l o o0 (J : list tree -> out -> Prop),
  p_header p = true -> is_header h = true -> Forall one_line l ->
  p_signature p o (h :: l) = Val (DefaultLayout, o0, l) -> J [] o0 ->
  (forall t, one_line t -> (p_is_description p t = true <-> describes t)) ->
  (forall d o t q, J d o -> describes t -> exists o', p_description p o (t :: q) = Val (o', q) /\ J (d ++ [t]) o') ->
  (forall d o cur, J d o -> Inv d [] UndefinedSection o cur) ->
  (forall d, good_move p (rule d) (stop d) ref (Inv d) keeps) -> (forall a b, ref b -> ref (a ++ b)) ->
  fine (h :: l) (ref l) (fun '(o', rest) => exists d ps last o1, l = d ++ nodes_of ps ++ rest /\ described describes d (nodes_of ps ++ rest) /\ in_order (rule d) [] ps rest /\
    Inv d ps last o1 rest /\ keeps o1 o' /\ stops (stop d ps) rest) (parse p o (h :: l)).
Proof.
  intros p rule stop ref keeps keeps_refl describes Inv h l o o0 J Hh Hd O Sg J0 D T JI G M. unfold parse. rewrite Hh, Hd. cbn [andthen]. rewrite Sg. cbn [andthen].
  replace (same (h :: l) l) with false by (symmetry; unfold same; apply Nat.eqb_neq; cbn; lia).
  eapply fine_bind; [exact (describe_fine p describes J (h :: l) (ref l) D T (fuel_of l) [] _ l (Nat.lt_succ_diag_r _) O J0)|].
  intros ((go & o1) & cur) (-> & d & E & F & N & J1). cbn [app] in J1. unfold parse_nested.
  assert (O' : Forall one_line cur) by (rewrite <- E in O; now apply Forall_app in O as [_ O]).
  refine (fine_imp _ cur _ (ref cur) _ _ _ _ _ _ _ (loop_fine p (rule d) (stop d) ref (Inv d) keeps keeps_refl (G d) M (fuel_of cur) [] UndefinedSection o1 cur (Nat.lt_succ_diag_r _) O' (JI d o1 cur J1))).
  - intros x X. right. rewrite <- E. apply in_or_app. now right.
  - rewrite <- E. apply M.
  - intros (o' & rest). unfold looped. cbn [fst snd app]. intros (ps & last & o2 & N2 & Or & I2 & P2 & St). exists d, ps, last, o2. rewrite N2. split; [now rewrite E|]. split; [split; [exact F|exact N]|].
    split; [exact Or|]. split; [exact I2|]. split; [exact P2|exact St].
Qed.
Lemma never_mono : forall a b : list tree, False -> False.
Proof. auto. Qed.

(** ** actions *)
Definition action_inv (h : tree) (d : list tree) (done : list part) (last : section_type) (o : out) (cur : list tree) : Prop :=
  o_parts o = Head h :: map Text d ++ done /\ transactions done (o_examples o) /\ track a_payload done last cur /\
  (cur <> [] -> (is_request last = true -> request_open (o_examples o)) /\ (is_response last = true -> response_open (o_examples o))).
Lemma action_move : forall h d, good_move (action_processor inside) action_rule (fun _ => action_stop) (fun _ => False) (action_inv h d) eq.
Proof.
  intros h d done last o t r O (P & T & Tr & Op). inversion O as [|? ? O1 O2]; subst. unfold move. cbn [action_processor p_nested_type p_nested p_is_unexpected p_unexpected].
  destruct (Op ltac:(discriminate)) as [Rq Rs]. clear Op.
  destruct (action_kind t) as [(ty & Hi & E & Nu & Nm)|[(ty & Hm & Nr & E & Na & Im)|(E & Na)]]; rewrite E.
  - assert (It : is_item t = true).
    { destruct Hi as [[_ H]|[[[_ H]|[[_ H]|[_ H]]]|[[H _]|[H _]]]]; exact (says_item _ _ H). }
    assert (X : forall o', o_parts o' = o_parts o ++ [Listed ty t] -> transactions (done ++ [Listed ty t]) (o_examples o') ->
      (is_request ty = true -> request_open (o_examples o')) -> (is_response ty = true -> response_open (o_examples o')) ->
      takes (action_processor inside) action_rule (action_inv h d) done last t r o' r).
    { intros o' P' T' R1 R2. exists [Listed ty t]. split; [reflexivity|]. split; [lia|]. split; [apply in_order_one; exact Hi|]. cbn [action_processor p_nested_type]. rewrite E.
      split; [rewrite P', P; cbn; now rewrite <- app_assoc|]. split; [exact T'|]. split; [now apply track_listed|]. intros N. destruct r as [|u r]; [contradiction|]. rewrite (next_defined _ _ _ _ Nu). now split. }
    replace (negb (undefined ty)) with true by (destruct ty; try reflexivity; now elim Nu).
    assert (Y : In ty [RelationSection; ParametersSection; HeadersSection; AttributesSection] \/ In ty [RequestSection; RequestBodySection] \/ In ty [ResponseSection; ResponseBodySection]).
    { cbn [In]. destruct Hi as [[-> _]|[[[-> _]|[[-> _]|[-> _]]]|[[_ [[-> _]|[-> _]]]|[_ [[-> _]|[-> _]]]]]]; auto 10. }
    destruct Y as [Y|[Y|Y]].
    + replace (action_nested inside ty o (t :: r)) with (list_section inside ty o (t :: r)) by (destruct Y as [<-|[<-|[<-|[<-|[]]]]]; reflexivity).
      apply fine_list; [exact It|]. right. apply X; [reflexivity| | |].
      * apply transactions_other; [|exact T]. destruct Y as [<-|[<-|[<-|[<-|[]]]]]; reflexivity.
      * intros Z. destruct Y as [<-|[<-|[<-|[<-|[]]]]]; discriminate.
      * intros Z. destruct Y as [<-|[<-|[<-|[<-|[]]]]]; discriminate.
    + destruct (transactions_request done ty t _ Y T) as [T1 T2].
      replace (action_nested inside ty o (t :: r)) with (with_node (t :: r) (fun t _ => andthen (list_section inside ty o (t :: r)) (fun '(o, r) => Val (with_examples (push_request (Payload ty t [])) o, r)))) by (destruct Y as [<-|[<-|[]]]; reflexivity).
      cbn [with_node]. eapply fine_bind.
      * apply (fine_list ty o t r False (fun x => x = (add (Listed ty t) o, r))); [exact It|reflexivity].
      * intros x ->. cbn. right. apply X; [reflexivity|exact T1|intros _; exact T2|]. intros Z. destruct Y as [<-|[<-|[]]]; discriminate.
    + destruct (transactions_response done ty t _ Y T) as [T1 T2].
      replace (action_nested inside ty o (t :: r)) with (with_node (t :: r) (fun t _ => andthen (list_section inside ty o (t :: r)) (fun '(o, r) => Val (with_examples (push_response (Payload ty t [])) o, r)))) by (destruct Y as [<-|[<-|[]]]; reflexivity).
      cbn [with_node]. eapply fine_bind.
      * apply (fine_list ty o t r False (fun x => x = (add (Listed ty t) o, r))); [exact It|reflexivity].
      * intros x ->. cbn. right. apply X; [reflexivity|exact T1| |intros _; exact T2]. intros Z. destruct Y as [<-|[<-|[]]]; discriminate.
  - replace (negb (undefined ty)) with true by (destruct ty; try discriminate; reflexivity). replace (action_nested inside ty o (t :: r)) with (Val (o, t :: r)) by (destruct ty; try discriminate; reflexivity).
    cbn. left. split; [reflexivity|]. split; [right; split; [now exists ty|exact Nr]|]. now split.
  - cbn [undefined negb]. unfold action_is_unexpected. rewrite (unexpected_base action_upper t); [|cbn; intuition discriminate].
    destruct (upper_iff t O1) as (_ & _ & Up & _). destruct (among action_upper (section_keyword t)) eqn:Am.
    + assert (Ea : ends_action t) by (apply Up; reflexivity). assert (As : asset_type t = UndefinedSection).
      { destruct (is_header t) eqn:Hd; [|rewrite (kw_other _ Hd) in Am; discriminate]. destruct t as [[] x z m cs]; try discriminate. unfold asset_type, item_line, item_text. cbn. reflexivity. }
      rewrite As. cbn. left. split; [reflexivity|]. split; [now left|]. now split.
    + assert (Ea : ~ ends_action t) by (intros H; apply Up in H; discriminate).
      replace (if negb (undefined (asset_type t)) then true else negb false) with true by (destruct (negb (undefined (asset_type t))); reflexivity).
      assert (Ig : ~ (a_text t /\ right_after a_payload done) -> fine (t :: r) False (fun '(o', cur') => stays (fun _ => action_stop) eq done o t r o' cur' \/ takes (action_processor inside) action_rule (action_inv h d) done last t r o' cur')
        (Val (add (Ignored t) o, r))).
      { intros N. cbn. right. exists [Ignored t]. split; [reflexivity|]. split; [lia|]. split; [apply in_order_one; now split|]. cbn [action_processor p_nested_type]. rewrite E.
        split; [cbn; rewrite P; cbn; now rewrite <- app_assoc|]. split; [now apply transactions_other|]. split; [apply track_ignored; [exact no_payload|exact N|exact Tr]|].
        intros Nr. destruct r as [|u r]; [contradiction|]. destruct (next_stays last u r) as [->| ->]; split; try exact Rq; try exact Rs; discriminate. }
      unfold action_unexpected, with_node. destruct (is_text t) eqn:Tx; cbn [andb].
      * apply text_iff in Tx. destruct Tr as [Tr1 Tr2]. pose proof (Tr1 Tx) as Tr3. rewrite payload_last in Tr3. destruct (is_response last) eqn:Rl.
        -- cbn [andb]. rewrite (response_in _ (Rs eq_refl)). destruct (body_response done t _ (Rs eq_refl) T) as [T1 T2]. cbn. right. exists [Dangling t]. split; [reflexivity|]. split; [lia|].
           split; [apply in_order_one; split; [exact Tx|apply Tr3; now right]|]. cbn [action_processor p_nested_type]. rewrite E. split; [cbn; rewrite P; cbn; now rewrite <- app_assoc|]. split; [exact T1|].
           split; [apply track_dangling; [exact no_payload|exact Tx|now split]|]. intros Nr. destruct r as [|u r]; [contradiction|].
           destruct (next_stays last u r) as [->| ->]; (split; [|intros _; exact T2]); intros Z; [|discriminate]. exfalso. exact (not_both _ Z Rl).
        -- cbn [andb]. destruct (is_request last) eqn:Rl'.
           ++ cbn [andb]. rewrite (request_in _ (Rq eq_refl)). destruct (body_request done t _ (Rq eq_refl) T) as [T1 T2]. cbn. right. exists [Dangling t]. split; [reflexivity|]. split; [lia|].
              split; [apply in_order_one; split; [exact Tx|apply Tr3; now left]|]. cbn [action_processor p_nested_type]. rewrite E. split; [cbn; rewrite P; cbn; now rewrite <- app_assoc|]. split; [exact T1|].
              split; [apply track_dangling; [exact no_payload|exact Tx|now split]|]. intros Nr. destruct r as [|u r]; [contradiction|].
              destruct (next_stays last u r) as [->| ->]; (split; [intros _; exact T2|]); intros Z; [congruence|discriminate].
           ++ cbn [andb]. assert (N : ~ (a_text t /\ right_after a_payload done)) by (intros [_ H]; apply Tr3 in H as [H|H]; discriminate).
              destruct (undefined (asset_type t)); cbn [negb]; exact (Ig N).
      * assert (N : ~ (a_text t /\ right_after a_payload done)) by (intros [H _]; apply text_iff in H; congruence).
        destruct (undefined (asset_type t)); cbn [negb]; exact (Ig N).
Qed.
Definition ends_as (kind : section_type) (ok : section -> list tree -> Prop) (h : tree) (l : list tree) (x : out * list tree) : Prop :=
  section_nodes (close kind (fst x)) ++ snd x = h :: l /\ section_head (close kind (fst x)) = Some h /\ ok (close kind (fst x)) (snd x).
Lemma action_fine : forall h l, is_header h = true -> Forall one_line l -> fine (h :: l) False (ends_as ActionSection action_ok h l) (parse (action_processor inside) fresh (h :: l)).
Proof.
  intros h l Hd O.
  refine (fine_imp _ _ _ False False _ _ _ (incl_refl _) (fun x => x) _
    (section_fine (action_processor inside) (fun _ => action_rule) (fun _ _ => action_stop) (fun _ => False) eq (@eq_refl _) action_describes (action_inv h) h l fresh _ (told h) eq_refl Hd O eq_refl _ action_describes_iff _ _ (action_move h) (fun _ _ x => x))).
  - intros (o' & rest) (d & ps & last & o1 & E & D & Or & (P & T & _) & <- & St). unfold ends_as. cbn [fst snd]. destruct (told_nodes h d ps rest ActionSection o1 P) as [N H].
    split; [rewrite N, E; reflexivity|]. split; [exact H|]. exists h, d, ps, (o_examples o1). unfold close. rewrite P. split; [reflexivity|]. split; [now apply header_iff_a|]. auto.
  - split; reflexivity.
  - intros d o t q J _. exact (told_text h d o t q J).
  - intros d o cur [P E]. unfold action_inv. rewrite P, E. split; [now rewrite app_nil_r|]. split; [exact transactions_nil|]. split; [exact (track_start _ _ no_payload)|]. intros _. split; discriminate.
Qed.
End Fine.
