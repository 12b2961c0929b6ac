(** Lemmas for C77: the sections of a payload, and the checks at its end *)
From Verif Require Import Base StringUtility StringSpec StringProofs SignatureProofs Regex RegexSpec RegexProofs ByteBuffer ByteSpec ByteProofs Prop_Bytes Markdown MarkdownSpec MarkdownTree Keywords KeywordsSpec KeywordsProofs KeywordsOrder Prop_Keywords Prop_Strings RegexCaps TypeTables SectionsSpec SectionsKeys.
From Verif Require Import Source Headers HeadersSpec HeadersProofs Prop_Headers Payloads PayloadsSpec PayloadsText PayloadsLine PayloadsNodes PayloadsParts.
Local Open Scope string_scope.

Section Loop.
Context (source : string) (index : list N) (models : string -> option payload).
Context (nested : section_type -> list tree -> tree -> outcome (list annotation)) (found_none : section_type -> list tree -> bool).
Hypothesis Small : (slen source < 2 ^ 63)%N.
Hypothesis Indexed : List.length index = String.length source.
Notation fine := (fine source).
Notation within := (within source).
Notation warn_ok := (warn_ok source index Small Indexed).
Notation payload_loop := (payload_loop source index nested).

Definition ends (x : list tree) : Prop := x = [] \/ begins a_section x.
Lemma loop_last : forall ty last last' x p w, ends x -> payload_loop ty last x p w = payload_loop ty last' x p w.
Proof.
  intros ty last last' [|t r] p w E; [reflexivity|]. destruct E as [E|E]; [discriminate|]. cbn [begins] in E. cbn [Payloads.payload_loop].
  assert (N : payload_nested_type t <> UndefinedSection) by (intros H; now apply nested_none in H).
  destruct (payload_nested_type t); try contradiction;
    (match goal with |- andthen ?a _ = andthen ?b _ => change b with a; destruct a as [[p' w']| | |]; cbn [andthen]; try reflexivity; destruct r; reflexivity end).
Qed.
Lemma loop_ignored : forall ty n cs, all_ignored n cs -> forall last x p w, last <> BodySection -> Forall fine n -> Forall (fun t => ~ a_section t) n -> ends x ->
  payload_loop ty last (n ++ x) p w = payload_loop ty UndefinedSection x p (w ++ map (shown index) cs)%list.
Proof.
  intros ty n cs (u & H). induction H as [|t l a r v ws S1 S2 IH]; intros last x p w L F A E.
  - cbn [app map]. rewrite app_nil_r. now apply loop_last.
  - inversion F as [|? ? F1 F2]; inversion A as [|? ? A1 A2]; subst. cbn [app Payloads.payload_loop]. rewrite (proj2 (nested_none t) A1). unfold payload_unexpected.
    assert (X : (text_node t && match last with BodySection => true | _ => false end)%bool = false) by (destruct last; try contradiction; now rewrite andb_false_r). rewrite X.
    rewrite (ignored_of source index Small Indexed t v w F1 S1). cbn [andthen]. rewrite map_app, app_assoc. rewrite <- (IH (match (l ++ x)%list with [] => last | u :: _ => if text_node u then last else UndefinedSection end) x p _); try assumption; [reflexivity|].
    destruct (l ++ x)%list; [exact L|]. destruct (text_node t0); [exact L|discriminate].
Qed.
Definition lasting (t : tree) : Prop := ~ writes source t "" /\ ~ writes source t (String LF "").
Definition stops (z x : list tree) : Prop := ~ begins text_block z /\ ends x.
Lemma stop_head : forall z x u r, stops z x -> (z ++ x)%list = u :: r -> text_node u = false.
Proof.
  intros z x u r [Z E] H. destruct z as [|v z]; cbn in H.
  - subst x. destruct E as [E|E]; [discriminate|]. now apply section_no_text.
  - injection H as -> _. destruct (text_node u) eqn:Q; [|reflexivity]. elim Z. now apply text_block_is.
Qed.
Lemma loop_dangling : forall ty d cs ws, in_turn (dangling_block source Deep_) d cs ws -> d <> [] -> forall z x p w, Forall fine d -> Forall (fun t => ~ a_section t) d -> Forall text_block d -> Forall lasting d -> stops z x ->
  payload_loop ty BodySection (d ++ z ++ x) p w = payload_loop ty UndefinedSection (z ++ x) (set_body (q_body p +++ sconcat cs) p) (w ++ map (shown index) ws)%list.
Proof.
  intros ty d cs ws H. induction H as [|t l a r v us S1 S2 IH]; intros N z x p w F A T L E; [contradiction|].
  inversion F as [|? ? F1 F2]; inversion A as [|? ? A1 A2]; inversion T as [|? ? T1 T2]; inversion L as [|? ? L1 L2]; subst. cbn [app Payloads.payload_loop]. rewrite (proj2 (nested_none t) A1).
  unfold payload_unexpected at 1. apply text_block_is in T1 as T3. rewrite T3. cbn [andb]. destruct L1 as [L1 L3]. rewrite (dangling_ok source index Small Indexed Deep_ BodySection t a v w eq_refl ltac:(discriminate) F1 L1 L3 S1). cbn [andthen].
  destruct l as [|t' l].
  - inversion S2; subst. cbn [app]. rewrite app_nil_r. cbn [sconcat]. rewrite append_nil_r. destruct (z ++ x)%list as [|u q] eqn:Q; [reflexivity|]. rewrite (stop_head _ _ _ _ E Q). reflexivity.
  - cbn [app]. inversion T2; subst. rewrite (proj1 (text_block_is t')) by assumption. change (t' :: l ++ z ++ x)%list with ((t' :: l) ++ z ++ x)%list. rewrite (IH ltac:(discriminate) z x _ _ F2 A2 T2 L2 E).
    rewrite map_app, app_assoc. cbn [set_body q_body sconcat]. now rewrite append_assoc.
Qed.
Lemma loop_after_body : forall ty n u d z cs w2 w3 w4, after_body n u d z -> all_ignored u w2 -> in_turn (dangling_block source Deep_) d cs w3 -> all_ignored z w4 ->
  Forall fine n -> Forall (fun t => ~ a_section t) n -> Forall (fun t => text_block t -> lasting t) n -> forall x p w, ends x ->
  payload_loop ty BodySection (n ++ x) p w = payload_loop ty UndefinedSection x (set_body (q_body p +++ sconcat cs) p) (w ++ map (shown index) (w2 ++ w3 ++ w4))%list.
Proof.
  intros ty n u d z cs w2 w3 w4 (-> & T & Z & U) I2 I3 I4 F A L x p w E. apply Forall_app in F as [Fu F]. apply Forall_app in F as [Fd Fz]. apply Forall_app in A as [Au A]. apply Forall_app in A as [Ad Az].
  apply Forall_app in L as [_ L]. apply Forall_app in L as [Ld _]. assert (Ld' : Forall lasting d). { rewrite Forall_forall in *. intros t H. exact (Ld t H (T t H)). }
  assert (E' : stops z x) by now split. rewrite <- !app_assoc.
  assert (G : forall last p w, last = BodySection \/ d = [] /\ last <> BodySection -> d <> [] \/ z = [] \/ last <> BodySection ->
    payload_loop ty last (d ++ z ++ x) p w = payload_loop ty UndefinedSection x (set_body (q_body p +++ sconcat cs) p) (w ++ map (shown index) (w3 ++ w4))%list).
  { intros last q v C1 C2. destruct d as [|t d].
    - inversion I3; subst. cbn [app sconcat]. rewrite append_nil_r. replace (set_body (q_body q) q) with q by now destruct q. destruct C2 as [C2|[->|C2]]; [now elim C2| |].
      + destruct I4 as (r & I4). inversion I4; subst. cbn. rewrite app_nil_r. now apply loop_last.
      + rewrite (loop_ignored ty z w4 I4 last x q v C2 Fz Az E). reflexivity.
    - destruct C1 as [->|[C1 _]]; [|discriminate]. rewrite (loop_dangling ty _ cs w3 I3 ltac:(discriminate) z x q v Fd Ad T Ld' E').
      rewrite (loop_ignored ty z w4 I4 UndefinedSection x _ _ ltac:(discriminate) Fz Az E). rewrite map_app, app_assoc. reflexivity. }
  destruct u as [|q [|]]; [|..|contradiction].
  - destruct I2 as (r & I2). inversion I2; subst. cbn [app]. apply G; [now left|]. destruct d as [|t d]; [|left; discriminate]. right. left. cbn [app] in U. destruct U as [U|U]; [contradiction|exact U].
  - cbn [app Payloads.payload_loop]. inversion Au as [|? ? A1 _]; subst. inversion Fu as [|? ? F1 _]; subst. rewrite (proj2 (nested_none q) A1). unfold payload_unexpected.
    assert (X : (text_node q && true)%bool = false) by (destruct (text_node q) eqn:Q; [elim U; now apply text_block_is|reflexivity]). rewrite X.
    destruct I2 as (r & I2). inversion I2 as [|? ? ? ? ? ? I5 I6]; subst. inversion I6; subst. rewrite (ignored_of source index Small Indexed q _ w F1 I5). cbn [andthen]. rewrite app_nil_r.
    rewrite (map_app (shown index) w0). rewrite (app_assoc w). destruct d as [|t d].
    + cbn [app] in *. destruct (z ++ x)%list as [|u' v'] eqn:Q.
      * apply app_eq_nil in Q as [-> ->]. exact (G BodySection p (w ++ map (shown index) _)%list (or_introl eq_refl) (or_intror (or_introl eq_refl))).
      * rewrite (stop_head _ _ _ _ E' Q). apply G; [right; split; [reflexivity|discriminate]|right; right; discriminate].
    + cbn [app]. inversion T; subst. rewrite (proj1 (text_block_is t)) by assumption. apply G; [now left|left; discriminate].
Qed.

(** ** a section *)
Lemma loop_section : forall ty ctx t r last p w p' w', payload_nested_type t = ctx -> ctx <> UndefinedSection ->
  payload_nested source index nested ty ctx t p w = Val (p', w') -> payload_loop ty last (t :: r) p w = payload_loop ty ctx r p' w'.
Proof.
  intros ty ctx t r last p w p' w' E N H. cbn [Payloads.payload_loop]. rewrite E.
  replace (match ctx with UndefinedSection => payload_unexpected source index last t p w | _ => payload_nested source index nested ty ctx t p w end) with (Val (p', w')) by (rewrite <- H; destruct ctx; try reflexivity; contradiction).
  cbn [andthen]. destruct r as [|u r]; [reflexivity|]. destruct ctx; try contradiction; reflexivity.
Qed.
Lemma defined_ok : forall what old t cs w, fine t -> defined_before what old t cs ->
  (if String.eqb old "" then Val w else warn index RedefinitionWarning ("ignoring additional '" +++ what +++ "' content, it is already defined") (t_map t) w) = Val (w ++ map (shown index) cs)%list.
Proof.
  intros what old t cs w F [[-> ->]|[N ->]]; [cbn; now rewrite app_nil_r|]. apply String.eqb_neq in N. rewrite N. now apply warn_ok.
Qed.
Lemma defined_total : forall what old t, exists cs, defined_before what old t cs.
Proof. intros what old t. destruct (String.eqb_spec old "") as [->|N]; eexists; [now left|right; now split]. Qed.
Lemma section_ok : forall ty k p t n p' cs, form ty k false -> section_tells source index nested k p t n p' cs -> fine t -> within t -> Forall fine n -> Forall (fun t => ~ a_section t) n ->
  Forall (fun t => text_block t -> lasting t) n -> forall last x w, ends x ->
  payload_loop ty last (t :: n ++ x) p w = payload_loop ty UndefinedSection x p' (w ++ map (shown index) cs)%list.
Proof.
  intros ty k p t n p' cs Fo H Ft Wt Fn An Ln last x w E. destruct (nested_type_is t) as (Ih & Ib & Is & Ia & Ip). pose proof (form_level _ _ _ Fo) as Lv. destruct H.
  - rewrite (loop_section ty HeadersSection t _ last p w (set_headers hs p) (w ++ map (shown index) w1)%list).
    + rewrite (loop_ignored ty n w2 H1 HeadersSection x _ _ ltac:(discriminate) Fn An E). rewrite map_app, app_assoc. reflexivity.
    + now apply Ih.
    + discriminate.
    + unfold payload_nested. rewrite (headers_ok source index Small Indexed Deep_ ty t _ hs w1 w Ft Wt Lv H0). reflexivity.
  - rewrite (loop_section ty BodySection t _ last p w (set_body s p) (w ++ map (shown index) (w0 ++ w1))%list).
    + rewrite (loop_after_body ty n u d z cs w2 w3 w4 H2 H3 H4 H5 Fn An Ln x _ _ E). cbn [set_body q_body]. replace (w0 ++ w1 ++ w2 ++ w3 ++ w4)%list with ((w0 ++ w1) ++ (w2 ++ w3 ++ w4))%list by now rewrite <- !app_assoc. rewrite (map_app (shown index) (w0 ++ w1)), (app_assoc w). reflexivity.
    + now apply Ib.
    + discriminate.
    + unfold payload_nested. change "ignoring additional 'body' content, it is already defined" with ("ignoring additional '" +++ "body" +++ "' content, it is already defined"). rewrite (defined_ok "body" _ t w0 w Ft H0). cbn [andthen]. change BodySection with (kind_section Body_). rewrite (asset_ok source index Small Indexed ty Body_ t s w1 _ Wt Lv H1). cbn [andthen].
      rewrite map_app, app_assoc. reflexivity.
  - rewrite (loop_section ty SchemaSection t _ last p w (set_schema s p) (w ++ map (shown index) (w0 ++ w1))%list).
    + rewrite (loop_ignored ty n w2 H2 SchemaSection x _ _ ltac:(discriminate) Fn An E). rewrite (app_assoc w0), (map_app (shown index) (w0 ++ w1)), (app_assoc w). reflexivity.
    + now apply Is.
    + discriminate.
    + unfold payload_nested. change "ignoring additional 'schema' content, it is already defined" with ("ignoring additional '" +++ "schema" +++ "' content, it is already defined"). rewrite (defined_ok "schema" _ t w0 w Ft H0). cbn [andthen]. change SchemaSection with (kind_section Schema_). rewrite (asset_ok source index Small Indexed ty Schema_ t s w1 _ Wt Lv H1). cbn [andthen].
      rewrite map_app, app_assoc. reflexivity.
  - rewrite (loop_section ty AttributesSection t _ last p w (set_attributes (q_attributes p ++ [t]) p) (w ++ a)%list).
    + rewrite (loop_ignored ty n w2 H1 AttributesSection x _ _ ltac:(discriminate) Fn An E). rewrite map_app, app_assoc, map_map. cbn [shown]. now rewrite map_id.
    + now apply Ia.
    + discriminate.
    + unfold payload_nested. rewrite H0. reflexivity.
  - rewrite (loop_section ty ParametersSection t _ last p w (set_parameters (q_parameters p ++ [t]) p) (w ++ a)%list).
    + rewrite (loop_ignored ty n w2 H2 ParametersSection x _ _ ltac:(discriminate) Fn An E). rewrite map_app, app_assoc, map_map. cbn [shown]. now rewrite map_id.
    + now apply Ip.
    + discriminate.
    + unfold payload_nested. subst k. cbn in Fo. subst ty. rewrite H1. reflexivity.
  - rewrite (loop_section ty ParametersSection t _ last p w p (w ++ map (shown index) [About 5 "ignoring parameters section in a non request payload section" (place t)])%list).
    + rewrite (loop_ignored ty n w2 H1 ParametersSection x _ _ ltac:(discriminate) Fn An E). rewrite <- app_assoc. reflexivity.
    + now apply Ip.
    + discriminate.
    + unfold payload_nested. rewrite (warn_ok t IgnoringWarning _ w Ft). cbn [andthen]. destruct k; try contradiction; cbn in Fo; subst ty; reflexivity.
Qed.
Definition group_fine (g : tree * list tree) : Prop :=
  fine (fst g) /\ within (fst g) /\ Forall fine (snd g) /\ Forall (fun t => text_block t -> lasting t) (snd g).
Lemma tells_ok : forall ty k p gs p' cs, form ty k false -> tells source index nested k p gs p' cs -> Forall group_fine gs -> Forall (fun g => a_section (fst g) /\ Forall (fun t => ~ a_section t) (snd g)) gs -> forall last w,
  payload_loop ty last (flat_map (fun g => fst g :: snd g) gs) p w = Val (p', w ++ map (shown index) cs)%list.
Proof.
  intros ty k p gs p' cs Fo H. induction H as [p|p t n gs p1 p2 w1 w2 S1 S2 IH]; intros G A last w.
  - cbn. now rewrite app_nil_r.
  - inversion G as [|? ? (G1 & G2 & G3 & G4) G5]; inversion A as [|? ? (A1 & A2) A3]; subst. cbn [flat_map fst snd] in *. cbn [app].
    rewrite (section_ok ty k p t n p1 w1 Fo S1 G1 G2 G3 A2 G4 last _ w).
    + rewrite (IH G5 A3). rewrite map_app, app_assoc. reflexivity.
    + destruct gs as [|[t' n'] gs]; [now left|]. right. cbn. now inversion A3.
Qed.
Lemma grouped_total : forall x, ends x -> exists gs, grouped x gs.
Proof.
  assert (X : forall x, exists n gs, x = (n ++ flat_map (fun g => fst g :: snd g) gs)%list /\ Forall (fun t => ~ a_section t) n /\ Forall (fun g => a_section (fst g) /\ Forall (fun t => ~ a_section t) (snd g)) gs).
  { induction x as [|t x (n & gs & -> & A & G)]; [exists [], []; now repeat constructor|]. destruct (section_dec t) as [D|D].
    - exists [], ((t, n) :: gs). split; [reflexivity|]. split; [constructor|]. constructor; [now split|exact G].
    - exists (t :: n), gs. split; [reflexivity|]. split; [now constructor|exact G]. }
  intros x E. destruct (X x) as (n & gs & -> & A & G). exists gs. split; [|exact G]. destruct n as [|t n]; [reflexivity|]. destruct E as [E|E]; [discriminate|]. cbn in E. now inversion A.
Qed.
Lemma row_ends : forall r d x, row (fun t => ~ a_section t) r d x -> ends x.
Proof. intros r d [|t x] (_ & _ & H); [now left|]. right. cbn in *. destruct (section_dec t); [assumption|contradiction]. Qed.
Lemma text_block_dec : forall t, text_block t \/ ~ text_block t.
Proof. intros t. rewrite text_block_is. destruct (text_node t); [now left|now right]. Qed.
Lemma after_total : forall n, exists u d z, after_body n u d z.
Proof.
  intros [|t n]; [exists [], [], []; split; [reflexivity|split; [constructor|split; [tauto|now right]]]|]. destruct (text_block_dec t) as [T|T].
  - destruct (row_total text_block (t :: n) text_block_dec) as (d & z & E & A & B). exists [], d, z. split; [exact E|]. split; [exact A|]. split; [exact B|]. left. exact T.
  - destruct (row_total text_block n text_block_dec) as (d & z & -> & A & B). exists [t], d, z. split; [reflexivity|]. split; [exact A|]. split; [exact B|exact T].
Qed.

Section Total.
Hypothesis NoNul : ~ StringSpec.has NUL source.
Hypothesis Nested : forall ty l t, exists a, nested ty l t = Val a.
Definition lines_shown (t : tree) : Prop := headers_section t -> match t with Tree _ _ _ _ ds => forall d r, In d ds -> In r (place d) -> exists line, HeadersSpec.shows source r line end.
Lemma section_total : forall k p t n, a_section t -> fine t -> within t -> lines_shown t -> Forall (fun t => text_block t -> lasting t) n -> exists p' cs, section_tells source index nested k p t n p' cs.
Proof.
  intros k p t n A F W Sh L. destruct (all_ignored_total n) as (wi & Hi). destruct A as [A|[A|[A|[A|A]]]].
  - destruct (headers_total source index Small Indexed NoNul Deep_ _ t (q_headers p) A W (Sh A)) as (hs & w1 & H). do 2 eexists. eapply tells_headers; eassumption.
  - destruct (defined_total "body" (q_body p) t) as (w0 & H0). destruct (asset_total source _ Body_ t A W) as (s & w1 & H1). destruct (after_total n) as (u & d & z & Af). pose proof Af as (-> & T & _).
    destruct (all_ignored_total u) as (w2 & H2). destruct (all_ignored_total z) as (w4 & H4). destruct (turn_total _ (dangling_block source Deep_) d) as (cs & w3 & H3).
    { intros v I. apply Forall_app in L as [_ L]. apply Forall_app in L as [L _]. rewrite Forall_forall in *. destruct (L v I (T v I)) as [L1 L2]. now apply dangling_total. }
    do 2 eexists. eapply tells_body; eassumption.
  - destruct (defined_total "schema" (q_schema p) t) as (w0 & H0). destruct (asset_total source _ Schema_ t A W) as (s & w1 & H1). do 2 eexists. eapply tells_schema; eassumption.
  - destruct (Nested AttributesSection (q_attributes p) t) as (a & H). do 2 eexists. eapply tells_attributes; eassumption.
  - destruct (Nested ParametersSection (q_parameters p) t) as (a & H). destruct k.
    + do 2 eexists. eapply tells_parameters; [eassumption|reflexivity|eassumption..].
    + do 2 eexists. eapply tells_no_parameters; [eassumption|discriminate|eassumption].
    + do 2 eexists. eapply tells_no_parameters; [eassumption|discriminate|eassumption].
Qed.
Lemma tells_total : forall k gs p, Forall group_fine gs -> Forall (fun g => a_section (fst g) /\ Forall (fun t => ~ a_section t) (snd g)) gs -> Forall (fun g => lines_shown (fst g)) gs ->
  exists p' cs, tells source index nested k p gs p' cs.
Proof.
  intros k. induction gs as [|[t n] gs IH]; intros p G A L; [do 2 eexists; constructor|]. inversion G as [|? ? (G1 & G2 & G3 & G4) G5]; inversion A as [|? ? (A1 & A2) A3]; inversion L as [|? ? L1 L2]; subst. cbn [fst snd] in *.
  destruct (section_total k p t n A1 G1 G2 L1 G4) as (p1 & w1 & S1). destruct (IH p1 G5 A3 L2) as (p2 & w2 & S2). do 2 eexists. econstructor; eassumption.
Qed.
End Total.
Lemma section_name_kept : forall k p t n p' cs, section_tells source index nested k p t n p' cs -> q_name p' = q_name p.
Proof. intros k p t n p' cs H. destruct H; reflexivity. Qed.
Lemma tells_name : forall k p gs p' cs, tells source index nested k p gs p' cs -> q_name p' = q_name p.
Proof. intros k p gs p' cs H. induction H as [|p t n gs p1 p2 w1 w2 S1 S2 IH]; [reflexivity|]. rewrite IH. eapply section_name_kept. exact S1. Qed.
End Loop.

(** ** the checks *)
Lemma last_snoc : forall name hs h, last_header name (hs ++ [h]) = if String.eqb (fst h) name then snd h else last_header name hs.
Proof. intros name hs h. unfold last_header. rewrite fold_left_app. reflexivity. Qed.
Lemma last_iff : forall name hs v, last_value name hs v <-> last_header name hs = v.
Proof.
  assert (T : forall name hs, last_value name hs (last_header name hs)).
  { intros name hs. induction hs as [|[n v] hs IH] using rev_ind; [right; split; [intros u []|reflexivity]|]. rewrite last_snoc. cbn [fst snd]. destruct (String.eqb_spec n name) as [->|N].
    - left. exists hs, []. split; [reflexivity|intros u []].
    - destruct IH as [(a & b & E & H)|[H E]].
      + left. exists a, (b ++ [(n, v)])%list. split; [rewrite E at 1; now rewrite <- app_assoc|]. intros u I. apply in_app_iff in I as [I|[I|[]]]; [now apply (H u)|]. congruence.
      + right. split; [|exact E]. intros u I. apply in_app_iff in I as [I|[I|[]]]; [now apply (H u)|]. congruence. }
  assert (F : forall name (b : list header) (v : string), (forall u, ~ In (name, u) b) -> fold_left (fun v h => if String.eqb (fst h) name then snd h else v) b v = v).
  { intros name b. induction b as [|[n u] b IH]; intros v H; [reflexivity|]. cbn. destruct (String.eqb_spec n name) as [->|N]; [elim (H u); now left|]. apply IH. intros x I. apply (H x). now right. }
  intros name hs v. split; [|intros <-; apply T]. unfold last_header. intros [(a & b & -> & H)|[H ->]].
  - rewrite fold_left_app. cbn [fold_left fst snd]. rewrite String.eqb_refl. now apply F.
  - now apply F.
Qed.
Lemma not_pending : forall r, (match r_state r with Pending => false | _ => true end) = true <-> r_state r <> Pending.
Proof. intros r. destruct (r_state r); split; congruence. Qed.

Section Checks.
Context (source : string) (index : list N) (found_none : section_type -> list tree -> bool).
Hypothesis Small : (slen source < 2 ^ 63)%N.
Hypothesis Indexed : List.length index = String.length source.
Notation fine := (fine source).
Definition badly (p : payload) : bool :=
  if (String.eqb (q_body p) "" && found_none AttributesSection (q_attributes p) && match r_state (q_reference p) with Pending => false | _ => true end)%bool
  then (if (match q_headers p with [] => true | _ => false end && found_none ParametersSection (q_parameters p))%bool then true
        else (negb (String.eqb (last_header "Content-Length" (q_headers p)) "") || negb (String.eqb (last_header "Transfer-Encoding" (q_headers p)) ""))%bool)
  else false.
Lemma badly_iff : forall p, badly p = true <->
  without_body found_none p /\ ((q_headers p = [] /\ found_none ParametersSection (q_parameters p) = true) \/ last_header "Content-Length" (q_headers p) <> "" \/ last_header "Transfer-Encoding" (q_headers p) <> "").
Proof.
  intros p. unfold badly, without_body. rewrite <- not_pending. destruct (String.eqb_spec (q_body p) "") as [E|E]; cbn [andb]; [|split; [discriminate|tauto]].
  destruct (found_none AttributesSection (q_attributes p)); cbn [andb]; [|split; [discriminate|intros ((_ & H & _) & _); discriminate]].
  destruct (match r_state (q_reference p) with Pending => false | _ => true end); [|split; [discriminate|intros ((_ & _ & H) & _); discriminate]].
  destruct (q_headers p) as [|h hs] eqn:Q; cbn [andb].
  - cbn [last_header fold_left]. destruct (found_none ParametersSection (q_parameters p)); cbn; tauto.
  - generalize (last_header "Content-Length" (h :: hs)) as a. generalize (last_header "Transfer-Encoding" (h :: hs)) as b. intros b a.
    destruct (String.eqb_spec a "") as [->|A], (String.eqb_spec b "") as [->|B]; cbn; split; intros X; try tauto; try discriminate. destruct X as (_ & [[X _]|[X|X]]); [discriminate X|contradiction..].
Qed.
Lemma request_ok : forall item p cs w, fine item -> request_check found_none item p cs -> check_request index found_none (t_map item) p w = Val (w ++ map (shown index) cs)%list.
Proof.
  intros item p cs w F (len & enc & L & E & H). apply last_iff in L. apply last_iff in E. rewrite <- L, <- E in H. cbv zeta in H. rewrite <- badly_iff in H. unfold check_request.
  assert (X : forall A (x y : A), (if (String.eqb (q_body p) "" && found_none AttributesSection (q_attributes p) && match r_state (q_reference p) with Pending => false | _ => true end)%bool then
    if (if (match q_headers p with [] => true | _ => false end && found_none ParametersSection (q_parameters p))%bool then true
        else (negb (String.eqb (last_header "Content-Length" (q_headers p)) "") || negb (String.eqb (last_header "Transfer-Encoding" (q_headers p)) ""))%bool) then x else y else y) = if badly p then x else y).
  { intros A x y. unfold badly. destruct (String.eqb (q_body p) "" && found_none AttributesSection (q_attributes p) && match r_state (q_reference p) with Pending => false | _ => true end)%bool; reflexivity. }
  rewrite X. clear X. revert H. generalize (last_header "Content-Length" (q_headers p)) as a. generalize (last_header "Transfer-Encoding" (q_headers p)) as b. intros b a H. clear L E.
  destruct H as [[B ->]|[B H]].
  - destruct (badly p); [now elim B|]. cbn. now rewrite app_nil_r.
  - rewrite B. destruct H as [(A & ->)|[(-> & D & ->)|(-> & -> & ->)]].
    + apply String.eqb_neq in A. rewrite A. cbn [negb]. now apply (warn_ok source index Small Indexed).
    + apply String.eqb_neq in D. rewrite D. cbn [negb String.eqb]. now apply (warn_ok source index Small Indexed).
    + cbn [negb String.eqb]. now apply (warn_ok source index Small Indexed).
Qed.
Lemma request_total : forall item p, exists cs, request_check found_none item p cs.
Proof.
  intros item p. destruct (badly p) eqn:B.
  - destruct (String.eqb_spec (last_header "Content-Length" (q_headers p)) "") as [E|E].
    + destruct (String.eqb_spec (last_header "Transfer-Encoding" (q_headers p)) "") as [D|D]; eexists; do 2 eexists; (split; [now apply last_iff|]); (split; [now apply last_iff|]); right; (split; [now apply badly_iff|]).
      * right. right. split; [exact E|]. split; [exact D|reflexivity].
      * right. left. split; [exact E|]. split; [exact D|reflexivity].
    + eexists. do 2 eexists. split; [now apply last_iff|]. split; [now apply last_iff|]. right. split; [now apply badly_iff|]. left. split; [exact E|reflexivity].
  - eexists. do 2 eexists. split; [now apply last_iff|]. split; [now apply last_iff|]. left. split; [|reflexivity]. intros H. apply badly_iff in H. congruence.
Qed.
(** status codes *)
Lemma digit_iff : forall c, in_range 48 57 (byte c) = true <-> digit c.
Proof. intros c. unfold in_range, digit. rewrite andb_true_iff, !N.leb_le. tauto. Qed.
Lemma read_app : forall d r n, all digit d -> (forall c x, r = String c x -> ~ digit c) -> read_digits (d +++ r) n = value d n.
Proof.
  induction d as [|c d IH]; intros r n A H; cbn.
  - destruct r as [|c r]; [reflexivity|]. cbn. destruct (in_range 48 57 (byte c)) eqn:E; [|reflexivity]. apply digit_iff in E. now elim (H c r eq_refl).
  - apply all_cons in A as [A1 A2]. apply digit_iff in A1. rewrite A1. now apply IH.
Qed.
Lemma digits_split : forall s, exists d r, s = d +++ r /\ all digit d /\ (forall c x, r = String c x -> ~ digit c).
Proof.
  induction s as [|c s (d & r & -> & A & H)]; [exists "", ""; split; [reflexivity|split; [apply Forall_nil|discriminate]]|]. destruct (in_range 48 57 (byte c)) eqn:E.
  - exists (String c d), r. split; [reflexivity|]. split; [|exact H]. apply all_cons. split; [now apply digit_iff|exact A].
  - exists "", (String c (d +++ r)). split; [reflexivity|]. split; [apply Forall_nil|]. intros c' x [= <- _] D. apply digit_iff in D. congruence.
Qed.
Lemma tidy_start : forall s, tidy_name s -> trim_start s = s.
Proof.
  intros s T. destruct (trim_start_spec s) as (a & E & A & _). destruct a as [|c a]; [now symmetry|]. rewrite E at 2. 
  exfalso. apply all_cons in A as [A _]. now apply (T c (a +++ trim_start s)).
Qed.
Lemma status_iff : forall s n, tidy_name s -> (status s n <-> read_code s = n).
Proof.
  intros s n T. unfold read_code. rewrite (tidy_start s T). destruct (digits_split s) as (d & r & E & A & H). split.
  - intros (d' & r' & -> & A' & H' & ->). now rewrite (read_app d' r' 0 A' H').
  - intros <-. exists d, r. split; [exact E|]. split; [exact A|]. split; [exact H|]. subst s. now rewrite (read_app d r 0 A H).
Qed.
Lemma bodiless_iff : forall n, allows_body n = false <-> bodiless n.
Proof.
  intros n. unfold allows_body, bodiless. rewrite negb_false_iff, !orb_true_iff, !N.eqb_eq. assert (X : (n / 100 = 1 <-> 100 <= n < 200)%N); [|tauto].
  split; intros H.
  - pose proof (N.div_mod n 100 ltac:(discriminate)) as D. pose proof (N.mod_lt n 100 ltac:(discriminate)). rewrite H in D. remember (n mod 100)%N as m. lia.
  - symmetry. apply (N.div_unique n 100 1 (n - 100)); lia.
Qed.
Lemma response_ok : forall item p cs w, fine item -> tidy_name (q_name p) -> q_name p <> "" -> response_check item p cs -> check_response index (t_map item) p w = Val (w ++ map (shown index) cs)%list.
Proof.
  intros item p cs w F T N (n & St & H). unfold check_response. apply String.eqb_neq in N. rewrite N. apply (status_iff _ _ T) in St. rewrite St. cbv zeta in *. rewrite <- bodiless_iff, <- not_pending in H.
  destruct (allows_body n); cbn [negb andb].
  - destruct H as [[_ ->]|[(H & _) _]]; [|discriminate]. cbn. now rewrite app_nil_r.
  - destruct (String.eqb_spec (q_body p) "") as [B|B]; cbn [negb andb].
    + destruct H as [[_ ->]|[(_ & H & _) _]]; [|contradiction]. cbn. now rewrite app_nil_r.
    + destruct (match r_state (q_reference p) with Pending => false | _ => true end).
      * destruct H as [[H _]|[_ ->]]; [elim H; now repeat split|]. now apply (warn_ok source index Small Indexed).
      * destruct H as [[_ ->]|[(_ & _ & H) _]]; [|discriminate]. cbn. now rewrite app_nil_r.
Qed.
Lemma response_total : forall item p, tidy_name (q_name p) -> exists cs, response_check item p cs.
Proof.
  intros item p T. assert (S1 : status (q_name p) (read_code (q_name p))) by now apply status_iff.
  assert (D : forall n, (bodiless n /\ q_body p <> "" /\ r_state (q_reference p) <> Pending) \/ ~ (bodiless n /\ q_body p <> "" /\ r_state (q_reference p) <> Pending)).
  { intros n. rewrite <- bodiless_iff, <- not_pending. destruct (allows_body n); [right; intros [H _]; discriminate|]. destruct (String.eqb_spec (q_body p) ""); [right; tauto|]. destruct (match r_state (q_reference p) with Pending => false | _ => true end); [left; now repeat split|right; intros (_ & _ & H); discriminate]. }
  destruct (D (read_code (q_name p))) as [B|B]; eexists; exists (read_code (q_name p)); (split; [exact S1|]); [right|left]; (split; [exact B|reflexivity]).
Qed.
Lemma checked_ok : forall ty k sh item p cs w, form ty k sh -> fine item -> tidy_name (q_name p) -> (k = Response_ -> q_name p <> "") -> checked found_none k item p cs ->
  payload_finalize index found_none ty item p w = Val (w ++ map (shown index) cs)%list.
Proof.
  intros ty k sh item p cs w Fo F T N H. unfold payload_finalize. destruct k; cbn [checked] in H.
  - rewrite (proj2 (form_request _ _ _ Fo) eq_refl). now apply request_ok.
  - assert (X : is_request ty = false) by (destruct sh; cbn in Fo; subst ty; reflexivity). rewrite X, (proj2 (form_response _ _ _ Fo) eq_refl). apply response_ok; auto.
  - assert (X : is_request ty = false /\ is_response ty = false) by (destruct sh; cbn in Fo; subst ty; split; reflexivity). destruct X as [X Y]. rewrite X, Y. subst cs. cbn. now rewrite app_nil_r.
Qed.
Lemma checked_total : forall k item p, tidy_name (q_name p) -> exists cs, checked found_none k item p cs.
Proof. intros [] item p T; cbn [checked]; [apply request_total|now apply response_total|now eexists]. Qed.
End Checks.
