(** Property C88: when a request is reported to have no body, its attributes and parameters being what its items say *)
From Verif Require Import Base StringUtility StringSpec StringProofs ByteBuffer ByteSpec Markdown MarkdownSpec Keywords KeywordsSpec TypeTables SourceMap Mson TypeDefs TypeDefsSpec MembersTree MembersSpec MembersRead MembersLeaves MembersParts MembersWhole MembersEnds Prop_Members
  Params ParamsSpec ParamsRead ParamsWhole ParamsEnds Prop_Params Given GivenSpec GivenWhole Vacant VacantSpec.
From Verif Require Source Headers Payloads PayloadsSpec PayloadsWhole Prop_Payloads Prop_Given Blueprint.
Import Payloads(payload, Load, q_body, q_headers, q_attributes, q_parameters, q_reference, r_state, Pending, parse_payload).
Import Keywords(payload_type, section_type, AttributesSection, ParametersSection, RequestSection).
Import Blueprint(pa_name).
Import PayloadsSpec(complaint, About, place, last_value, form, Request_, full, tells, section_tells, opens).
Local Open Scope string_scope.

Section Read.
Context (known : list (string * base_type)) (source : string) (Small : (slen source < 2 ^ 64)%N) (fuel : nat).
Lemma vacant_one : forall t, depth t <= S fuel -> within_source source t -> (vacant_attributes source known fuel t = true <-> says_nothing known source t).
Proof.
  intros t D W. pose proof (fun x s' => attributes_read known source "" Small fuel t (conj D W) (unread known) x s' eq_refl) as A. unfold vacant_attributes. split.
  - destruct (parse_attributes source "" fuel t (unread known)) as [[x s']| | |]; try discriminate. intros E. destruct (proj1 (A x s') eq_refl) as (e & Say & _). exists x, e. split; [exact Say|].
    unfold structure_empty, def_empty, spec_empty in E. apply andb_prop in E as [E S1]. apply andb_prop in E as [E _]. apply andb_prop in E as [E1 E2]. split; [now apply N.eqb_eq|].
    destruct (ds_sections x); [|discriminate]. split; [|reflexivity]. destruct (td_spec (ds_type x)) as [[b [l v]] [|n ns]]; [|discriminate]. cbn in E2. unfold name_empty, symbol_empty in E2. cbn in E2. destruct b; try discriminate.
    apply andb_prop in E2 as [E3 E4]. apply String.eqb_eq in E3 as ->. now destruct v.
  - intros (x & e & Say & E1 & E2 & E3). rewrite (proj2 (A x _) (ex_intro _ e (conj Say eq_refl))).
    assert (N : name_empty (ds_name x) = true) by (destruct Say; reflexivity). unfold structure_empty, def_empty. rewrite E1, E2, E3, N. reflexivity.
Qed.
Lemma vacant_items : forall l, Forall (fun t => depth t <= S fuel /\ within_source source t) l -> (vacant source known fuel AttributesSection l = true <-> Forall (says_nothing known source) l).
Proof.
  intros l F. cbn [vacant]. rewrite forallb_forall, Forall_forall. rewrite Forall_forall in F. split; intros H t I; destruct (F t I) as [D W]; now apply (vacant_one t D W), H.
Qed.
Lemma vacant_lists : forall l, Forall (fun t => depth t <= S (S fuel) /\ within_source source t) l -> (vacant source known fuel ParametersSection l = true <-> define_nothing known source l).
Proof.
  intros l F. cbn [vacant]. unfold vacant_parameters, define_nothing. rewrite Forall_forall in F.
  assert (R := reads_steps known (fun t ps s => parameters_from source fuel ps t s) (fun t before_ => more_parameters known source before_ t) l (fun t ps I => more_reads known source Small fuel ps t (F t I)) []).
  specialize (fun x s' => R (unread known) x s' eq_refl) as A. split.
  - destruct (each _ l [] (unread known)) as [[[|p q] s']| | |]; try discriminate. intros _. destruct (proj1 (A [] s') eq_refl) as (e & H & _). now exists e.
  - intros (e & H). now rewrite (proj2 (A [] _) (ex_intro _ e (conj H eq_refl))).
Qed.
End Read.
(** ** when attributes and parameters are empty *)
Theorem C88_attributes : forall source known fuel l, (slen source < 2 ^ 64)%N -> Forall (fun t => depth t <= S fuel /\ within_source source t) l ->
  (vacant source known fuel AttributesSection l = true <-> Forall (says_nothing known source) l).
Proof. intros source known fuel l Small F. now apply vacant_items. Qed.
Print Assumptions C88_attributes.
Theorem C88_parameters : forall source known fuel l, (slen source < 2 ^ 64)%N -> Forall (fun t => depth t <= S (S fuel) /\ within_source source t) l ->
  (vacant source known fuel ParametersSection l = true <-> define_nothing known source l).
Proof. intros source known fuel l Small F. now apply vacant_lists. Qed.
Print Assumptions C88_parameters.
(** so no item of them defines one *)
Theorem C88_no_parameter : forall source known l, define_nothing known source l -> Forall (fun t => Prop_Given.item_defines known source t []) l.
Proof.
  intros source known l (e & H).
  assert (K : forall a b e, in_steps (fun t before_ => more_parameters known source before_ t) l a b e -> forall c, a = lasting c -> exists dss, Forall2 (Prop_Given.item_defines known source) l dss /\ b = lasting (c ++ List.concat dss)%list).
  { clear. intros a b e H. induction H as [a|t r a b d e1 e2 M H IH]; intros c E.
    - exists []. split; [constructor|]. cbn. now rewrite app_nil_r.
    - destruct M as [t' r' first rest b e1 O _ N]. destruct (nodes_lasting known source "" _ _ _ _ N c E) as (ds & D & E'). destruct (IH _ E') as (dss & F & ->). exists (ds :: dss).
      split; [constructor; [now exists t', r'|exact F]|]. cbn [List.concat]. now rewrite app_assoc. }
  destruct (K _ _ _ H [] eq_refl) as (dss & F & E). cbn [app] in E. assert (Z : List.concat dss = []).
  { destruct (List.concat dss) as [|p q] eqn:C; [reflexivity|]. exfalso. assert (I : In (fst (pa_name p)) (map (fun q => fst (pa_name q)) (lasting (p :: q)))) by (apply lasting_names; now left). rewrite <- E in I. exact I. }
  clear - F Z. induction F as [|t ds l dss I F IH]; constructor; cbn [List.concat] in Z; apply app_eq_nil in Z as [-> Z]; [exact I|now apply IH].
Qed.
Print Assumptions C88_no_parameter.

(** ** what is collected comes from the item *)
Section Collected.
Context (source : string) (index : list N) (nested : section_type -> list tree -> tree -> outcome (list Source.annotation)).
Lemma section_collects : forall k p t n p' w, section_tells source index nested k p t n p' w ->
  incl (q_attributes p') (q_attributes p ++ [t])%list /\ incl (q_parameters p') (q_parameters p ++ [t])%list.
Proof. intros k p t n p' w H. destruct H; cbn; (split; intros z9 I9; first [exact I9|apply in_or_app; now left]). Qed.
Lemma collects : forall k p gs p' w, tells source index nested k p gs p' w ->
  incl (q_attributes p') (q_attributes p ++ map fst gs)%list /\ incl (q_parameters p') (q_parameters p ++ map fst gs)%list.
Proof.
  intros k p gs p' w H. induction H as [p|p t n gs p1 p2 w1 w2 S1 H [A B]]; [split; intros u I; now rewrite app_nil_r|]. apply section_collects in S1 as [A1 B1].
  split; intros u I; [apply A in I|apply B in I]; apply in_app_or in I as [I|I]; [apply A1 in I|apply in_or_app; right; now right|apply B1 in I|apply in_or_app; right; now right];
    apply in_app_or in I as [I|[<-|[]]]; apply in_or_app; [now left|right; now left|now left|right; now left].
Qed.
End Collected.
Lemma child_deep : forall source n item u, depth item <= S n -> within_source source item -> In u (match item with Tree _ _ _ _ cs => cs end) -> depth u <= n /\ within_source source u.
Proof.
  intros source n [ty x z m cs] u D W I. cbn [depth] in D. destruct W as [_ W]. assert (D' : fold_right (fun c n => Nat.max (depth c) n) 0 cs <= n) by lia. clear D.
  induction cs as [|c cs IH]; [contradiction|]. cbn [fold_right] in D', W. destruct W as [W W']. destruct I as [->|I]; [split; [lia|exact W]|apply IH; [exact W'|exact I|lia]].
Qed.
Lemma inside_within : forall source item, PayloadsSpec.inside_source source item -> within_source source item.
Proof.
  intros source. fix IH 1. intros [ty x z m cs] [[_ H] C]. split; [revert H; apply Forall_impl; intros r; tauto|].
  revert C. induction cs as [|c cs IC]; [trivial|]. cbn [fold_right]. intros [C1 C2]. split; [now apply IH|now apply IC].
Qed.
Lemma full_collects : forall source index nested none k item p w, full source index nested none k item p w ->
  incl (q_attributes p) (match item with Tree _ _ _ _ cs => cs end) /\ incl (q_parameters p) (match item with Tree _ _ _ _ cs => cs end).
Proof.
  intros source index nested none k [ty x z m cs] p w (t & r & d & y & gs & first & rest & text & name0 & name & hs & w1 & w2 & w3 & w4 & O & (-> & _) & (-> & _) & _ & _ & _ & _ & T & _).
  apply collects in T as [A B]. cbn [app PayloadsSpec.no_reference Payloads.q_attributes Payloads.q_parameters] in A, B.
  assert (K : forall u, In u (map fst gs) -> In u cs).
  { intros u I. assert (I' : In u (d ++ flat_map (fun g => fst g :: snd g) gs)).
    { apply in_or_app. right. apply in_map_iff in I as (g & <- & G). apply in_flat_map. exists g. split; [exact G|now left]. }
    unfold opens in O. destruct ty; try contradiction. destruct O as [(a & -> & _)|[-> _]]; [apply in_or_app; right; now right|now right]. }
  split; intros u I; apply K; [now apply A in I|now apply B in I].
Qed.
(** ** the complaints at the end of a request. Its name, headers, body and the rest are those of C77 *)
Lemma check_ends : forall source known fuel item p w, (slen source < 2 ^ 64)%N ->
  Forall (fun t => depth t <= S fuel /\ within_source source t) (q_attributes p) -> Forall (fun t => depth t <= S (S fuel) /\ within_source source t) (q_parameters p) ->
  PayloadsSpec.request_check (vacant source known fuel) item p w -> request_ends known source item p w.
Proof.
  intros source known fuel item p w Small DA DP (len & enc & L & E & Ch). pose proof (C88_attributes source known fuel _ Small DA) as VA. pose proof (C88_parameters source known fuel _ Small DP) as VP.
  cbn zeta in Ch. unfold PayloadsSpec.without_body in Ch.
  assert (Eq : (q_body p = "" /\ vacant source known fuel AttributesSection (q_attributes p) = true /\ r_state (q_reference p) <> Pending) /\
     (q_headers p = [] /\ vacant source known fuel ParametersSection (q_parameters p) = true \/ len <> "" \/ enc <> "") <-> lacks known source p len enc).
  { unfold lacks. rewrite VA, VP. tauto. }
  destruct Ch as [[Nb ->]|[B Ch]].
  - apply (ends_quiet known source item p len enc L E). intros H. apply Nb, Eq, H.
  - apply Eq in B. assert (w = [About 6 ("empty request message-body" +++ promised len enc) (place item)]) as ->; [|now apply ends_lacking].
    unfold promised. destruct Ch as [[N ->]|[(-> & N & ->)|(-> & -> & ->)]]; [|destruct (String.eqb_spec enc ""); [contradiction|reflexivity]|reflexivity].
    destruct (String.eqb_spec len ""); [contradiction|reflexivity].
Qed.
Theorem C88_request : forall source index models nested known fuel item p cs w,
  Prop_Payloads.readable source index item -> Prop_Payloads.answers nested -> payload_type item = RequestSection -> depth item <= S (S fuel) ->
  full source index nested (vacant source known fuel) Request_ item p cs ->
  parse_payload source index models nested (vacant source known fuel) RequestSection item w = Val (p, w ++ map (PayloadsSpec.shown index) cs)%list /\
  exists before_ last, cs = (before_ ++ last)%list /\ request_ends known source item p last.
Proof.
  intros source index models nested known fuel item p cs w R A Ty D F. split.
  - exact (proj2 (Prop_Payloads.C77_item source index models nested (vacant source known fuel) RequestSection Request_ false item w R A eq_refl Ty) p cs F).
  - destruct (full_collects _ _ _ _ _ _ _ _ F) as [IA IP]. destruct R as (Small & _ & _ & In_ & _). apply inside_within in In_.
    destruct F as (t & r & d & x & gs & first & rest & text & name0 & name & hs & w1 & w2 & w3 & w4 & _ & _ & _ & _ & _ & _ & _ & _ & Ch & ->).
    exists (w1 ++ w2 ++ w3)%list, w4. split; [now rewrite !app_assoc|]. apply (check_ends source known fuel); [lia| | |exact Ch]; apply Forall_forall; intros u I.
    + apply IA in I. now apply (child_deep source (S fuel) item).
    + apply IP in I. destruct (child_deep source (S fuel) item u D In_ I) as [X Y]. split; [lia|exact Y].
Qed.
Print Assumptions C88_request.
(** the short form has no attributes; its parameters are those of the model it refers to *)
Lemma short_collects : forall source models k t rest d p p' w, PayloadsSpec.short_content source models k t rest d p p' w ->
  q_attributes p' = q_attributes p /\ (q_parameters p' = q_parameters p \/ exists id m, models id = Some m /\ q_parameters p' = q_parameters m).
Proof.
  intros source models k t rest d p p' w H.
  assert (K : forall k t id p p' w, PayloadsSpec.referred models k t id p p' w -> q_attributes p' = q_attributes p /\ (q_parameters p' = q_parameters p \/ exists id m, models id = Some m /\ q_parameters p' = q_parameters m)).
  { clear. intros k t id p p' w [(_ & -> & _)|(m & M & hs & -> & _)]; [split; [reflexivity|now left]|split; [reflexivity|right; now exists id, m]]. }
  destruct H as [(id & w1 & _ & R & _)|(_ & own & w1 & _ & [(e & q & z & es & id & w2 & w3 & _ & _ & _ & _ & _ & _ & R & _)|(_ & cs & w2 & _ & -> & _)])]; [exact (K _ _ _ _ _ _ R)|exact (K _ _ _ _ _ _ R)|].
  split; [reflexivity|now left].
Qed.
Theorem C88_short : forall source index models nested known fuel item p cs w,
  Prop_Payloads.readable source index item -> Prop_Payloads.answers nested -> payload_type item = Keywords.RequestBodySection ->
  (forall id m, models id = Some m -> Forall (fun t => depth t <= S (S fuel) /\ within_source source t) (q_parameters m)) ->
  PayloadsSpec.short source models (vacant source known fuel) Request_ item p cs ->
  parse_payload source index models nested (vacant source known fuel) Keywords.RequestBodySection item w = Val (p, w ++ map (PayloadsSpec.shown index) cs)%list /\ q_attributes p = [] /\
  exists before_ last, cs = (before_ ++ last)%list /\ request_ends known source item p last.
Proof.
  intros source index models nested known fuel item p cs w R A Ty D F. split; [|].
  - exact (proj2 (Prop_Payloads.C77_item source index models nested (vacant source known fuel) Keywords.RequestBodySection Request_ true item w R A eq_refl Ty) p cs F).
  - destruct R as (Small & _). destruct F as (t & r & d & x & first & rest & name0 & name & hs & w1 & w2 & w3 & w4 & w5 & _ & _ & _ & _ & _ & S1 & _ & Ch & ->).
    apply short_collects in S1 as [EA EP]. cbn in EA, EP. split; [exact EA|]. exists (w1 ++ w2 ++ w3 ++ w4)%list, w5. split; [now rewrite !app_assoc|].
    apply (check_ends source known fuel); [lia|rewrite EA; constructor| |exact Ch]. destruct EP as [->|(id & m & M & ->)]; [constructor|exact (D id m M)].
Qed.
Print Assumptions C88_short.
(** attributes that say something are enough: whatever its headers are, the request is not reported *)
Theorem C88_attributes_enough : forall source index nested known fuel item p cs t,
  Prop_Payloads.readable source index item -> Prop_Payloads.answers nested -> payload_type item = RequestSection -> depth item <= S (S fuel) ->
  full source index nested (vacant source known fuel) Request_ item p cs -> In t (q_attributes p) -> ~ says_nothing known source t -> request_ends known source item p [].
Proof.
  intros source index nested known fuel item p cs t R A Ty D F I N. destruct (C88_request source index (fun _ => None) nested known fuel item p cs [] R A Ty D F) as [_ (b & last & _ & H)].
  destruct H as [len enc _ _ (_ & L & _)|len enc L E Q]; [|now apply (ends_quiet known source item p len enc L E)]. exfalso. apply N. rewrite Forall_forall in L. now apply L.
Qed.
Print Assumptions C88_attributes_enough.

(** ** samples *)
Definition node (ty : node_type) (x : string) (a b : N) (l : list tree) : tree := Tree ty x 0 [R a b] l.
Definition said (what more : string) : string := "+ Request" +++ line_feed +++ line_feed +++ "    + " +++ what +++ line_feed +++ more.
Definition request_of (what more : string) (l : list tree) : tree :=
  node ItemNode "" 0 (slen (said what more)) [node ParagraphNode "Request" 2 7 []; node ItemNode "" 15 (slen (what +++ line_feed +++ more) + 2) (node ParagraphNode what 17 (slen what) [] :: l)].
Definition kept (what more : string) (l : list tree) : outcome (payload * list Source.annotation) :=
  let source := said what more in
  parse_payload source (Prop_Payloads.bytes (String.length source)) Prop_Payloads.no_models Prop_Payloads.silent (vacant source [("User", ObjectBT)] 3) RequestSection (request_of what more l) [].
Definition complaints (o : outcome (payload * list Source.annotation)) : option (list (N * string)) :=
  match o with Val (_, w) => Some (map (fun a => match a with Source.An _ c x => (c, x) end) w) | _ => None end.
(** "+ Attributes" alone says nothing, with a type it does *)
Example C88_bare : complaints (kept "Attributes" "" []) = Some [(6%N, "empty request message-body")].
Proof. vm_compute. reflexivity. Qed.
Example C88_typed : complaints (kept "Attributes (User)" "" []) = Some [].
Proof. vm_compute. reflexivity. Qed.
Example C88_no_parameters : complaints (kept "Parameters" "" []) = Some [(6%N, "empty request message-body")].
Proof. vm_compute. reflexivity. Qed.
Example C88_a_parameter : complaints (kept "Parameters" ("        + id" +++ line_feed) [node ItemNode "" 36 4 [node ParagraphNode "id" 38 2 []]]) = Some [].
Proof. vm_compute. reflexivity. Qed.
(** the hypotheses *)
Example C88_typed_readable : Prop_Payloads.readable (said "Attributes (User)" "") (Prop_Payloads.bytes 35) (request_of "Attributes (User)" "" []) /\
  Prop_Payloads.answers Prop_Payloads.silent /\ payload_type (request_of "Attributes (User)" "" []) = RequestSection /\ depth (request_of "Attributes (User)" "" []) <= 5.
Proof.
  split; [|split; [intros ty l t; now exists []|split; [vm_compute; reflexivity|cbn; lia]]].
  split; [vm_compute; reflexivity|]. split; [vm_compute; reflexivity|]. split; [intros H; Prop_Payloads.no_nul H|]. split; [Prop_Payloads.inside|]. split; [|split; [|Prop_Payloads.no_blank]].
  - intros c [<-|[<-|[]]] H; Prop_Payloads.no_headers H.
  - intros c [<-|[<-|[]]]; Prop_Payloads.too_long.
Qed.
