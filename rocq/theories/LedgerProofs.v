From Verif Require Import Base Utf8 SoValue JsonIo JsonSpec YamlIo Element ElementSpec ElementProofs SerializeSo SerializeSpec SerializeProofs
  SourceMap Capi CapiSpec CapiProofs.

Lemma NoDup_app_intro : forall A (l r : list A), NoDup l -> NoDup r -> (forall x, In x l -> In x r -> False) -> NoDup (l ++ r).
Proof.
  intros A l r Hl Hr D. induction Hl as [|x l Hn Hl IH]; [exact Hr|]. cbn. constructor.
  - intros H. apply in_app_or in H as [H|H]; [contradiction|]. apply (D x); [now left|exact H].
  - apply IH. intros y Hy. apply D. now right.
Qed.

Definition ledger (h : heap) (freed changed outs : list nat) (h' : heap) : Prop :=
  heap_ok h' /\ NoDup outs /\ (forall p, In p outs -> ~ live h p) /\
  (forall p, live h' p <-> (live h p /\ ~ In p freed) \/ In p outs) /\
  (forall p o, In (p, o) (cells h) -> ~ In p freed -> ~ In p changed -> In (p, o) (cells h')) /\
  next h <= next h' /\ Forall (fun p => next h <= p < next h') outs.

Lemma ledger_same : forall h n, heap_ok h -> next h <= n -> ledger h [] [] [] (Heap (cells h) n).
Proof.
  intros h n (A & B & C) L. split; [|split; [|split; [|split]]].
  - repeat split; auto. cbn. rewrite Forall_forall in *. intros c Hc. specialize (B c Hc). lia.
  - constructor.
  - intros p [].
  - intros p. unfold live. cbn. tauto.
  - repeat split; auto.
Qed.

Lemma not_live_ge : forall h p, heap_ok h -> next h <= p -> ~ live h p.
Proof.
  intros h p (_ & F & _) L H. unfold live in H. apply in_map_iff in H as (c & E & Hc).
  rewrite Forall_forall in F. specialize (F c Hc). lia.
Qed.

Lemma ledger_alloc : forall h p o n, heap_ok h -> next h <= p -> p < n -> (forall e, o = OResult e -> no_null e) ->
  ledger h [] [] [p] (Heap ((p, o) :: cells h) n).
Proof.
  intros h p o n H Lp Ln No. assert (F := not_live_ge h p H Lp). destruct H as (A & B & C). split; [|split; [|split; [|split]]].
  - repeat split; cbn.
    + constructor; auto.
    + constructor; [exact Ln|]. rewrite Forall_forall in *. intros c Hc. specialize (B c Hc). lia.
    + intros q e [[= <- ->]|Hc]; [now apply No|now apply (C q)].
  - repeat constructor. intros [].
  - intros q [<-|[]]. exact F.
  - intros q. unfold live. cbn. tauto.
  - split; [intros q x Hq _ _; now right|]. cbn. split; [lia|]. constructor; [lia|constructor].
Qed.

Lemma ledger_release : forall h p o, heap_ok h -> In (p, o) (cells h) ->
  exists h', release h p = Some h' /\ ledger h [p] [] [] h'.
Proof.
  intros h p o H Hp. destruct (release_ok h p o H Hp) as (h' & E & O & Nx & I). exists h'. split; [exact E|].
  split; [exact O|]. split; [constructor|]. split; [intros q []|]. split.
  - intros q. rewrite !live_in. split.
    + intros (x & Hx). apply I in Hx as [Hx Nq]. left. split; [eauto|]. intros [G|[]]. congruence.
    + intros [[(x & Hx) G]|[]]. exists x. apply I. split; [exact Hx|]. intros ->. apply G. now left.
  - split; [|split; [lia|constructor]]. intros q x Hq Nf _. apply I. split; [exact Hq|]. intros ->. apply Nf. now left.
Qed.

Lemma ledger_store : forall h p o, heap_ok h -> (forall e, o <> OResult e) -> ledger h [] [p] [] (store h p o).
Proof.
  intros h p o (A & B & C) No.
  assert (F : map fst (cells (store h p o)) = map fst (cells h)).
  { cbn. rewrite map_map. apply map_ext. intros [q x]. cbn. destruct (Nat.eqb_spec q p); cbn; congruence. }
  split; [|split; [|split; [|split]]].
  - split; [now rewrite F|]. split.
    + assert (B' : Forall (fun q => q < next h) (map fst (cells (store h p o)))).
      { rewrite F. rewrite Forall_forall in *. intros q Hq. apply in_map_iff in Hq as (c & <- & Hc). now apply B. }
      rewrite Forall_forall in *. intros c Hc. apply B'. now apply in_map.
    + intros q e Hq. cbn in Hq. apply in_map_iff in Hq as ([r x] & E & Hx). cbn in E.
      destruct (Nat.eqb r p); [injection E as _ ->; exfalso; now apply (No e)|]. injection E as -> ->. now apply (C q).
  - constructor.
  - intros q [].
  - intros q. unfold live. rewrite F. cbn. tauto.
  - split; [|split; [cbn; lia|constructor]]. intros q x Hq _ Nc. cbn. apply in_map_iff. exists (q, x). split; [|exact Hq]. cbn.
    destruct (Nat.eqb_spec q p) as [->|]; [exfalso; apply Nc; now left|reflexivity].
Qed.

Section Step.
  Context {Blueprint : Type} (parse : bool -> string -> report * Blueprint)
          (convert : Blueprint -> option parse_options -> conversion * list annotation).
  Context (W : well_behaved parse convert).

  Lemma heap_eta : forall h, Heap (cells h) (next h) = h.
  Proof. now intros []. Qed.

  Lemma free_kind : forall h p o (k : obj -> bool) , heap_ok h -> In (p, o) (cells h) -> k o = true ->
    exists h', (match load h p with Some x => if k x then release h p else None | None => None end) = Some h' /\ ledger h [p] [] [] h'.
  Proof.
    intros h p o k H Hp K. destruct (ledger_release h p o H Hp) as (h' & E & L).
    destruct H as (A & _). apply (load_in _ _ _ A) in Hp. rewrite Hp, K. eauto.
  Qed.

  Theorem perform_ledger : forall h c, heap_ok h -> proper h c ->
    exists outs h', perform parse convert h c = Some (outs, h') /\ ledger h (freed_by c) (changed_by c) outs h'.
  Proof.
    intros h c H P.
    assert (Hsame : ledger h [] [] [] h). { rewrite <- (heap_eta h) at 2. apply ledger_same; [exact H|lia]. }
    destruct c as [src out po so|src out po|src out po|r so|p|p| | |p|p|p|p|p|p|p f]; cbn [freed_by changed_by proper perform] in *.
    - destruct P as [P1 P2]. destruct src as [src|]; [|exists [], h; split; [reflexivity|exact Hsame]].
      destruct (popts_ok h po H P1) as (opts & L1). destruct (sopts_ok h so H P2) as (sop & L2).
      destruct (W opts src) as (api & err & ws & An & Pl & Ha).
      destruct (parse_to_spec _ parse convert h src out po so opts sop api err ws H L1 L2 An Pl) as (es & wes & _ & _ & _ & _ & E).
      { intros e He. now apply Ha. }
      rewrite E. destruct out; [destruct (text_of _ sop) as [t|]|]; cbn [of_ret handed].
      + eexists [_], _. split; [reflexivity|]. apply ledger_alloc; auto; try lia. discriminate.
      + eexists [], _. split; [reflexivity|]. apply ledger_same; auto.
      + eexists [], _. split; [reflexivity|]. apply ledger_same; auto.
    - destruct src as [src|]; [|exists [], h; split; [reflexivity|exact Hsame]].
      destruct (popts_ok h po H P) as (opts & L1).
      destruct (W opts src) as (api & err & ws & An & Pl & Ha).
      destruct (parse_spec _ parse convert h src po opts api err ws H L1 An Pl) as (es & wes & _ & _ & T & E1 & E2).
      destruct out; [rewrite E1|rewrite E2]; cbn [of_ret handed].
      + eexists [_], _. split; [reflexivity|]. apply ledger_alloc; auto. intros e [= <-]. apply result_no_null; [|exact T].
        intros e He. now apply Ha.
      + eexists [], _. split; [reflexivity|]. apply ledger_same; auto.
    - destruct src as [src|]; [|exists [], h; split; [reflexivity|exact Hsame]].
      destruct (popts_ok h po H P) as (opts & L1).
      destruct (W opts src) as (api & err & ws & An & Pl & Ha).
      destruct (check_spec _ parse convert h src out po opts api err ws H L1 An Pl) as (es & wes & _ & _ & T & _ & E).
      { intros e He. destruct (Ha e He) as (_ & ? & ?). auto. }
      rewrite E. destruct out; [destruct (es ++ wes) eqn:El|]; cbn [of_ret handed].
      + eexists [], _. split; [reflexivity|]. apply ledger_same; auto.
      + eexists [_], _. split; [reflexivity|]. apply ledger_alloc; auto; try lia. intros e' [= <-].
        apply result_no_null; [discriminate|]. now rewrite El.
      + eexists [], _. split; [reflexivity|]. apply ledger_same; auto.
    - destruct P as [P1 P2]. destruct r as [r|]; [|exists [], h; split; [reflexivity|exact Hsame]].
      destruct (P1 r eq_refl) as (e & He). destruct (sopts_ok h so H P2) as (sop & L2).
      destruct (serialize_spec h r so sop e H L2 He) as [E _]. rewrite E. destruct (text_of e sop) as [t|].
      + eexists [_], _. split; [reflexivity|]. apply ledger_alloc; auto. discriminate.
      + exists [], h. split; [reflexivity|exact Hsame].
    - destruct p as [p|]; [|exists [], h; split; [reflexivity|exact Hsame]]. destruct (P p eq_refl) as (e & He).
      destruct (free_kind h p _ (fun o => match o with OResult _ => true | _ => false end) H He eq_refl) as (h' & E & L).
      exists [], h'. split; [|exact L]. cbn [drafter_free_result]. destruct (load h p) as [[]|]; try discriminate; now rewrite E.
    - destruct p as [p|]; [|exists [], h; split; [reflexivity|exact Hsame]]. destruct (P p eq_refl) as (e & He).
      destruct (free_kind h p _ (fun o => match o with OText _ => true | _ => false end) H He eq_refl) as (h' & E & L).
      exists [], h'. split; [|exact L]. destruct (load h p) as [[]|]; try discriminate; now rewrite E.
    - eexists [_], _. split; [reflexivity|]. apply ledger_alloc; auto. discriminate.
    - eexists [_], _. split; [reflexivity|]. apply ledger_alloc; auto. discriminate.
    - destruct p as [p|]; [|exists [], h; split; [reflexivity|exact Hsame]]. destruct (P p eq_refl) as (e & He).
      destruct (free_kind h p _ (fun o => match o with OParseOptions _ => true | _ => false end) H He eq_refl) as (h' & E & L).
      exists [], h'. split; [|exact L]. cbn [drafter_free_parse_options]. destruct (load h p) as [[]|]; try discriminate; now rewrite E.
    - destruct p as [p|]; [|exists [], h; split; [reflexivity|exact Hsame]]. destruct (P p eq_refl) as (e & He).
      destruct (free_kind h p _ (fun o => match o with OSerializeOptions _ => true | _ => false end) H He eq_refl) as (h' & E & L).
      exists [], h'. split; [|exact L]. cbn [drafter_free_serialize_options]. destruct (load h p) as [[]|]; try discriminate; now rewrite E.
    - destruct (P p eq_refl) as (o & Ho). assert (L := Ho). apply load_in in L; [|apply H].
      unfold drafter_set_name_required, set_parse_options. rewrite L. cbn [of_heap]. eexists [], _. split; [reflexivity|]. now apply ledger_store.
    - destruct (P p eq_refl) as (o & Ho). assert (L := Ho). apply load_in in L; [|apply H].
      unfold drafter_set_skip_gen_bodies, set_parse_options. rewrite L. cbn [of_heap]. eexists [], _. split; [reflexivity|]. now apply ledger_store.
    - destruct (P p eq_refl) as (o & Ho). assert (L := Ho). apply load_in in L; [|apply H].
      unfold drafter_set_skip_gen_body_schemas, set_parse_options. rewrite L. cbn [of_heap]. eexists [], _. split; [reflexivity|]. now apply ledger_store.
    - destruct (P p eq_refl) as (o & Ho). assert (L := Ho). apply load_in in L; [|apply H].
      unfold drafter_set_sourcemaps_included, set_serialize_options. rewrite L. cbn [of_heap]. eexists [], _. split; [reflexivity|]. now apply ledger_store.
    - destruct (P p eq_refl) as (o & Ho). assert (L := Ho). apply load_in in L; [|apply H].
      unfold drafter_set_format, set_serialize_options. rewrite L. cbn [of_heap]. eexists [], _. split; [reflexivity|]. now apply ledger_store.
  Qed.

  Lemma freed_live : forall h c p, proper h c -> In p (freed_by c) -> live h p.
  Proof.
    intros h c p P Hp. apply live_in. destruct c as [| | | |q|q| | |q|q| | | | |]; cbn in *; try contradiction;
      (destruct q as [q|]; [|destruct Hp]); destruct Hp as [<-|[]]; destruct (P q eq_refl) as (x & Hx); eauto.
  Qed.

  Lemma freed_nodup : forall c, NoDup (freed_by c).
  Proof. intros []; cbn; try constructor; destruct p; cbn; repeat constructor; intros []. Qed.

  Lemma history_inv : forall h given freed, history parse convert h given freed ->
    heap_ok h /\ NoDup given /\ NoDup freed /\ Forall (fun p => p < next h) given /\ incl freed given /\
    (forall p, live h p <-> In p given /\ ~ In p freed).
  Proof.
    intros h given freed Hh. induction Hh as [|h given freed c outs h' Hh IH P E].
    - repeat apply conj; try constructor; cbn; try constructor; try (intros; tauto).
      intros p Hp. destruct Hp.
    - destruct IH as (H & ND & NF & Bd & In1 & L).
      destruct (perform_ledger h c H P) as (outs' & h'' & E' & O & NDo & Fr & Lv & _ & Mn & Ro).
      rewrite E in E'. injection E' as <- <-. rewrite Forall_forall in Bd, Ro.
      assert (Fl := freed_live h c). repeat apply conj.
      + exact (proj1 O).
      + exact (proj1 (proj2 O)).
      + exact (proj2 (proj2 O)).
      + apply NoDup_app_intro; auto. intros p H1 H2. specialize (Bd p H1). specialize (Ro p H2). lia.
      + apply NoDup_app_intro; auto using freed_nodup. intros p H1 H2. specialize (Fl p P H2). apply L in Fl. tauto.
      + apply Forall_app. split; rewrite Forall_forall; intros p Hp; [specialize (Bd p Hp)|specialize (Ro p Hp)]; lia.
      + intros p Hp. apply in_or_app. apply in_app_or in Hp as [Hp|Hp]; left; [now apply In1|]. specialize (Fl p P Hp). now apply L in Fl.
      + intros p. rewrite Lv, !in_app_iff, L. split.
        * intros [[[A B] C]|A]; [tauto|]. split; [tauto|]. specialize (Ro p A). intros [B|B].
          -- apply In1 in B. specialize (Bd p B). lia.
          -- specialize (Fl p P B). apply L in Fl as [Fl _]. specialize (Bd p Fl). lia.
        * intros [[A|A] B]; tauto.
  Qed.
End Step.
