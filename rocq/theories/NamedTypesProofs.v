(** Lemmas about the ordering and typing of named types *)
From Verif Require Import Base TypeTables TypeTablesSpec TypeTablesProofs NamedTypes NamedTypesSpec.

Section Ind.
Context (P : mson_element -> Prop).
Context (HP : forall v k s, Forall (Forall P) s -> P (Property v k s)) (HV : forall v s, Forall (Forall P) s -> P (ValueMember v s))
  (HM : forall t, P (MixinMember t)) (HO : forall l, Forall P l -> P (OneOfMember l)) (HG : forall l, Forall P l -> P (GroupMember l)) (HN : P NoMember).
Fixpoint mson_ind' (e : mson_element) : P e :=
  let fix elems l : Forall P l := match l with [] => Forall_nil P | x :: r => Forall_cons _ (mson_ind' x) (elems r) end in
  let fix sects s : Forall (Forall P) s := match s with [] => Forall_nil (Forall P) | x :: r => Forall_cons _ (elems x) (sects r) end in
  match e with
  | Property v k s => HP v k s (sects s)
  | ValueMember v s => HV v s (sects s)
  | MixinMember t => HM t
  | OneOfMember l => HO l (elems l)
  | GroupMember l => HG l (elems l)
  | NoMember => HN
  end.
End Ind.

Lemma collect_elements_spec : forall (f : mson_element -> list string -> list string) l,
  Forall (fun e => forall r x, In x (f e r) <-> In x r \/ names e x) l ->
  forall x, In x (collect_elements f l) <-> exists e, In e l /\ names e x.
Proof.
  intros f l H x. unfold collect_elements.
  enough (G : forall r, In x (fold_left (fun m e => f e m) l r) <-> In x r \/ exists e, In e l /\ names e x) by (rewrite G; cbn; tauto).
  induction H as [|e l He Hl IH]; intros r; cbn.
  - split; [tauto|]. intros [G|(e & [] & _)]; exact G.
  - rewrite IH, He. split.
    + intros [[G|G]|(y & G1 & G2)]; [tauto|right; exists e; tauto|right; exists y; tauto].
    + intros [G|(y & [<-|G1] & G2)]; [tauto|tauto|right; eauto].
Qed.
Lemma collect_sections_spec : forall (f : mson_element -> list string -> list string) l,
  Forall (Forall (fun e => forall r x, In x (f e r) <-> In x r \/ names e x)) l ->
  forall x, In x (collect_sections f l) <-> exists s e, In s l /\ In e s /\ names e x.
Proof.
  intros f l H x. unfold collect_sections.
  enough (G : forall r, In x (fold_left (fun m s => s_union m (collect_elements f s)) l r) <-> In x r \/ exists s e, In s l /\ In e s /\ names e x) by (rewrite G; cbn; tauto).
  induction H as [|s l Hs Hl IH]; intros r; cbn.
  - split; [tauto|]. intros [G|(s & e & [] & _)]; exact G.
  - rewrite IH, in_union, (collect_elements_spec _ _ Hs). split.
    + intros [[G|(e & G1 & G2)]|(t & e & G1 & G2 & G3)]; [tauto|right; exists s, e; tauto|right; exists t, e; tauto].
    + intros [G|(t & e & [<-|G1] & G2 & G3)]; [tauto|left; right; eauto|right; eauto 6].
Qed.
Lemma collect_names_spec : forall l x, In x (collect_names l) <-> exists n, In n l /\ s_literal (n_symbol n) = x.
Proof.
  intros l x. unfold collect_names.
  enough (G : forall r, In x (fold_left (fun m n => s_insert (s_literal (n_symbol n)) m) l r) <-> In x r \/ exists n, In n l /\ s_literal (n_symbol n) = x) by (rewrite G; cbn; tauto).
  induction l as [|n l IH]; intros r; cbn.
  - split; [tauto|]. intros [G|(n & [] & _)]; exact G.
  - rewrite IH, in_insert. split.
    + intros [[G|G]|(m & G1 & G2)]; [right; exists n; now split; [left|]|tauto|right; exists m; tauto].
    + intros [G|(m & [<-|G1] & G2)]; [tauto|left; left; now symmetry|right; eauto].
Qed.

Lemma collect_element_spec : forall e r x, In x (collect_element e r) <-> In x r \/ names e x.
Proof.
  induction e as [v k s H|v s H|t|l H|l H|] using mson_ind'; intros r x; cbn [collect_element].
  - destruct (String.eqb_spec (spec_name v) "") as [E|E]; cbn [negb].
    + destruct (String.eqb_spec (spec_name k) "") as [E1|E1]; cbn [negb].
      * destruct (t_nested v) as [|n l] eqn:EN.
        -- rewrite in_union, (collect_sections_spec _ _ H). split; (intros [G|G]; [now left|right]).
           ++ destruct G as (l & e & G1 & G2 & G3). eapply n_inner; eassumption.
           ++ inversion G; subst; try congruence; [rewrite EN in *; contradiction|eauto].
        -- rewrite in_union, collect_names_spec. split; (intros [G|G]; [now left|right]).
           ++ destruct G as (m & G1 & <-). apply n_nested; [exact E|exact E1|now rewrite EN].
           ++ inversion G; subst; try congruence. rewrite EN in *. eauto.
      * rewrite in_insert. split; [intros [->|G]; [right; now constructor|now left]|].
        intros [G|G]; [now right|left; inversion G; subst; congruence].
    + rewrite in_insert. split; [intros [->|G]; [right; now constructor|now left]|].
      intros [G|G]; [now right|left; inversion G; subst; congruence].
  - destruct (String.eqb_spec (spec_name v) "") as [E|E]; cbn [negb].
    + rewrite in_union, (collect_sections_spec _ _ H). split; (intros [G|G]; [now left|right]).
      * destruct G as (l & e & G1 & G2 & G3). eapply n_item_inner; eassumption.
      * inversion G; subst; try congruence. eauto.
    + rewrite in_insert. split; [intros [->|G]; [right; now constructor|now left]|].
      intros [G|G]; [now right|left; inversion G; subst; congruence].
  - destruct (String.eqb_spec (spec_name t) "") as [E|E]; cbn [negb].
    + split; [tauto|]. intros [G|G]; [exact G|inversion G; congruence].
    + rewrite in_insert. split; [intros [->|G]; [right; now constructor|now left]|].
      intros [G|G]; [now right|left; inversion G; subst; congruence].
  - split; [tauto|]. intros [G|G]; [exact G|inversion G].
  - split; [tauto|]. intros [G|G]; [exact G|inversion G].
  - split; [tauto|]. intros [G|G]; [exact G|inversion G].
Qed.
Lemma collect_type_spec : forall d x, In x (collect_type d) <-> exists l e, In l (nt_sections d) /\ In e l /\ names e x.
Proof.
  intros d x. unfold collect_type. rewrite collect_sections_spec; [reflexivity|].
  apply Forall_forall. intros l _. apply Forall_forall. intros e _. apply collect_element_spec.
Qed.

(** maps filled in a loop *)
Lemma fold_map : forall {V} (f : named_type -> option V) ds a v,
  m_find (fold_left (fun m d => match f d with Some v => m_set m (nt_name d) v | None => m end) ds []) a = Some v <->
  exists p d q, ds = p ++ d :: q /\ nt_name d = a /\ f d = Some v /\ forall e, In e q -> nt_name e = a -> f e = None.
Proof.
  intros V f ds a v. rewrite <- (rev_involutive ds). generalize (rev ds). clear ds. intros ds.
  revert v. induction ds as [|d ds IH]; intros v.
  - cbn. split; [discriminate|]. intros (p & d & q & H & _). now destruct p.
  - cbn [rev]. rewrite fold_left_app. cbn [fold_left].
    assert (NX : forall p d' q, rev ds ++ [d] = p ++ d' :: q -> (q = [] /\ d' = d /\ p = rev ds) \/ exists q', q = q' ++ [d] /\ rev ds = p ++ d' :: q').
    { intros p d' q H. destruct q as [|x q] using rev_ind; [left|right].
      - apply app_inj_tail in H as [H1 H2]. auto.
      - exists q. rewrite app_comm_cons, app_assoc in H. apply app_inj_tail in H as [H1 H2]. subst. auto. }
    destruct (f d) as [w|] eqn:EF.
    + rewrite find_set. destruct (String.eqb_spec a (nt_name d)) as [->|E].
      * split.
        -- intros H. injection H as <-. exists (rev ds), d, []. cbn. tauto.
        -- intros (p & d' & q & H & H1 & H2 & H3). apply NX in H as [(-> & -> & ->)|(q' & -> & H)]; [congruence|].
           rewrite (H3 d) in EF; [discriminate| |reflexivity]. apply in_or_app. right. now left.
      * rewrite IH. split.
        -- intros (p & d' & q & H & H1 & H2 & H3). exists p, d', (q ++ [d]). rewrite H. rewrite <- app_assoc. split; [reflexivity|].
           split; [exact H1|]. split; [exact H2|]. intros e He Hn. apply in_app_or in He as [He|[<-|[]]]; [auto|congruence].
        -- intros (p & d' & q & H & H1 & H2 & H3). apply NX in H as [(-> & -> & ->)|(q' & -> & H)]; [congruence|].
           exists p, d', q'. split; [exact H|]. split; [exact H1|]. split; [exact H2|]. intros e He. apply H3. apply in_or_app. now left.
    + rewrite IH. split.
      * intros (p & d' & q & H & H1 & H2 & H3). exists p, d', (q ++ [d]). rewrite H. rewrite <- app_assoc. split; [reflexivity|].
        split; [exact H1|]. split; [exact H2|]. intros e He Hn. apply in_app_or in He as [He|[<-|[]]]; auto.
      * intros (p & d' & q & H & H1 & H2 & H3). apply NX in H as [(-> & -> & ->)|(q' & -> & H)]; [congruence|].
        exists p, d', q'. split; [exact H|]. split; [exact H1|]. split; [exact H2|]. intros e He. apply H3. apply in_or_app. now left.
Qed.
Lemma fold_ext : forall {A B} (f g : A -> B -> A) l x, (forall a b, f a b = g a b) -> fold_left f l x = fold_left g l x.
Proof. intros A B f g l. induction l as [|b l IH]; intros x H; cbn; [reflexivity|]. rewrite H. auto. Qed.
Lemma parent_spec : forall ds a b, m_find (parent_map ds) a = Some b <-> derives ds a b.
Proof.
  intros ds a b. unfold parent_map.
  rewrite (fold_ext _ (fun m d => match (if String.eqb (spec_name (nt_spec d)) "" then None else Some (spec_name (nt_spec d))) with
    Some v => m_set m (nt_name d) v | None => m end)) by (intros m d; now destruct (String.eqb (spec_name (nt_spec d)) "")).
  rewrite fold_map. unfold derives. split; intros (p & d & q & H & H1 & H2).
  - destruct H2 as (H2 & H3). exists p, d, q. destruct (String.eqb_spec (spec_name (nt_spec d)) "") as [E|E]; [discriminate|].
    injection H2 as <-. split; [exact H|]. split; [exact H1|]. split; [reflexivity|]. split; [exact E|]. intros e He Hn.
    specialize (H3 e He Hn). destruct (String.eqb_spec (spec_name (nt_spec e)) ""); [assumption|discriminate].
  - destruct H2 as (H2 & H3 & H4). exists p, d, q. split; [exact H|]. split; [exact H1|]. split.
    + rewrite H2. apply String.eqb_neq in H3. now rewrite H3.
    + intros e He Hn. now rewrite (H4 e He Hn).
Qed.
Lemma element_spec : forall ds a d, m_find (element_map ds) a = Some d <-> last_named ds a d.
Proof.
  intros ds a d. unfold element_map.
  etransitivity; [exact (fold_map Some ds a d)|]. unfold last_named. split.
  - intros (p & d' & q & H & H1 & H2 & H3). injection H2 as <-. exists p, q. repeat split; auto. intros e He Hn. now specialize (H3 e He Hn).
  - intros (p & q & H & H1 & H2). exists p, d, q. repeat split; auto. intros e He Hn. now apply H2 in He.
Qed.
Lemma member_spec : forall ds a s, m_find (member_map ds) a = Some s <-> exists d, last_named ds a d /\ s = collect_type d.
Proof.
  intros ds a s. unfold member_map.
  etransitivity; [exact (fold_map (fun d => Some (collect_type d)) ds a s)|]. split.
  - intros (p & d' & q & H & H1 & H2 & H3). injection H2 as <-. exists d'. split; [|reflexivity]. exists p, q. repeat split; auto. intros e He Hn. now specialize (H3 e He Hn).
  - intros (d & (p & q & H & H1 & H2) & ->). exists p, d, q. repeat split; auto. intros e He Hn. now apply H2 in He.
Qed.
Lemma contains_spec : forall ds a x, In x (entry (member_map ds) a) <-> contains ds a x.
Proof.
  intros ds a x. unfold entry, contains. destruct (m_find (member_map ds) a) as [s|] eqn:E.
  - apply member_spec in E as (d & L & ->). rewrite collect_type_spec. split.
    + intros (l & e & H). exists d, l, e. tauto.
    + intros (d' & l & e & L' & H). exists l, e. enough (d' = d) by (subst; tauto).
      apply element_spec in L. apply element_spec in L'. congruence.
  - split; [intros []|]. intros (d & l & e & L & _). assert (m_find (member_map ds) a = Some (collect_type d)); [|congruence].
    apply member_spec. eauto.
Qed.

(** collecting into the deep *)
Section Deep.
Context (members : list (string * list string)).
Let E := states members.
Definition fresh (resolved : list string) : nat := List.length (filter (fun k => negb (s_mem k resolved)) (map fst members)).

Definition visited (roots : string -> Prop) (resolved resolved' collected : list string) : Prop :=
  (forall v, In v resolved -> In v resolved') /\
  (forall x, In x collected -> exists r, roots r /\ (x = r \/ reaches E r x)) /\
  (forall v, In v resolved' -> ~ In v resolved -> forall x, E v x -> In x collected /\ In x resolved').

Lemma fresh_insert : forall resolved id, ~ In id resolved -> m_find members id <> None -> (fresh (s_insert id resolved) < fresh resolved)%nat.
Proof.
  intros resolved id N M. unfold fresh. apply filter_lt with (y := id).
  - intros x H. apply Bool.negb_true_iff in H. apply Bool.negb_true_iff. apply mem_not in H. apply mem_not. intros C. apply H. apply in_insert. now right.
  - destruct (m_find members id) as [s|] eqn:Es; [|congruence]. apply find_in in Es. apply in_map_iff. now exists (id, s).
  - apply Bool.negb_false_iff. apply mem_in. apply in_insert. now left.
  - apply Bool.negb_true_iff. now apply mem_not.
Qed.
Lemma fresh_le : forall a b, (forall v, In v a -> In v b) -> (fresh b <= fresh a)%nat.
Proof.
  intros a b H. unfold fresh. apply filter_le. intros x Hx. apply Bool.negb_true_iff in Hx. apply Bool.negb_true_iff.
  apply mem_not in Hx. apply mem_not. auto.
Qed.

Lemma deep_spec : forall n id resolved, (fresh resolved < n)%nat ->
  exists c r, collect_deep n id members resolved = Some (c, r) /\ In id r /\ (forall v, In v resolved -> In v r) /\
    (forall x, In x c -> reaches E id x) /\ (forall v, In v r -> ~ In v resolved -> forall x, E v x -> In x c /\ In x r).
Proof.
  induction n as [|n IH]; intros id resolved F; [lia|]. cbn [collect_deep].
  destruct (s_mem id resolved) eqn:EM.
  { apply mem_in in EM. exists [], resolved. split; [reflexivity|]. split; [exact EM|]. split; [auto|]. split; [intros x []|]. intros v H1 H2. contradiction. }
  apply mem_not in EM. destruct (m_find members id) as [direct|] eqn:ED.
  2:{ exists [], (s_insert id resolved). split; [reflexivity|]. split; [apply in_insert; now left|]. split; [intros v H; apply in_insert; now right|].
      split; [intros x []|]. intros v H1 H2 x Hx. apply in_insert in H1 as [->|H1]; [|contradiction].
      unfold E, states, entry in Hx. rewrite ED in Hx. destruct Hx. }
  assert (F1 : (fresh (s_insert id resolved) < n)%nat).
  { pose proof (fresh_insert resolved id EM). rewrite ED in H. specialize (H ltac:(discriminate)). lia. }
  assert (DE : forall x, In x direct <-> E id x) by (intros x; unfold E, states, entry; now rewrite ED).
  set (f := fun st i => match st with None => None | Some (collected, resolved) => _ end).
  assert (L : forall l c0 r0, (forall x, In x l -> E id x) -> (forall v, In v (s_insert id resolved) -> In v r0) ->
     exists c r, fold_left f l (Some (c0, r0)) = Some (c, r) /\ (forall v, In v r0 -> In v r) /\ (forall x, In x l -> In x c /\ In x r) /\
       (forall x, In x c0 -> In x c) /\ (forall x, In x c -> In x c0 \/ reaches E id x) /\
       (forall v, In v r -> ~ In v r0 -> forall x, E v x -> In x c /\ In x r)).
  { induction l as [|i l IHl]; intros c0 r0 HE HR; cbn [fold_left].
    - exists c0, r0. split; [reflexivity|]. split; [auto|]. split; [intros x []|]. split; [auto|]. split; [auto|]. intros v H1 H2. contradiction.
    - destruct (IH i r0) as (ci & ri & C1 & C2 & C3 & C4 & C5).
      { pose proof (fresh_le _ _ HR). lia. }
      unfold f at 2. rewrite C1. destruct (IHl (s_union (s_insert i c0) ci) ri) as (c & r & D1 & D2 & D3 & D4 & D5 & D6).
      { intros x Hx. apply HE. now right. }
      { auto. }
      exists c, r. split; [exact D1|]. split; [auto|]. split; [|split; [|split]].
      + intros x [<-|Hx]; [|auto]. split; [|auto]. apply D4, in_union. left. apply in_insert. now left.
      + intros x Hx. apply D4, in_union. left. apply in_insert. now right.
      + intros x Hx. apply D5 in Hx as [Hx|Hx]; [|now right]. apply in_union in Hx as [Hx|Hx].
        * apply in_insert in Hx as [->|Hx]; [|now left]. right. apply reach_one. apply HE. now left.
        * right. eapply reach_more; [apply HE; now left|]. auto.
      + intros v Hv Nv x Hx. destruct (in_dec string_dec v ri) as [Hi|Hi].
        * destruct (C5 v Hi Nv x Hx) as [G1 G2]. split; [|auto]. apply D4, in_union. now right.
        * now apply (D6 v). }
  destruct (L direct [] (s_insert id resolved)) as (c & r & D1 & D2 & D3 & D4 & D5 & D6).
  { intros x. apply DE. }
  { auto. }
  exists c, r. split; [exact D1|]. split; [apply D2, in_insert; now left|]. split; [intros v Hv; apply D2, in_insert; now right|]. split.
  - intros x Hx. apply D5 in Hx as [[]|Hx]. exact Hx.
  - intros v Hv Nv x Hx. destruct (string_dec v id) as [->|Hn]; [apply D3; now apply DE|]. apply (D6 v); [exact Hv| |exact Hx].
    rewrite in_insert. tauto.
Qed.
Lemma deep_top : forall n id, (List.length members < n)%nat ->
  exists c r, collect_deep n id members [] = Some (c, r) /\ forall x, In x c <-> reaches E id x.
Proof.
  intros n id L. assert (F : (fresh [] < n)%nat).
  { unfold fresh. enough (forall f (l : list string), (List.length (filter f l) <= List.length l)%nat).
    { specialize (H (fun k => negb (s_mem k [])) (map fst members)). rewrite map_length in H. lia. }
    intros f l. induction l as [|x l IHl]; cbn; [lia|]. destruct (f x); cbn; lia. }
  destruct (deep_spec n id [] F) as (c & r & C1 & C2 & C3 & C4 & C5). exists c, r. split; [exact C1|].
  intros x. split; [apply C4|]. intros H.
  assert (G : forall v, In v r -> reaches E v x -> In x c).
  { clear H. intros v Hv R. induction R as [v y R|v y z R R1 IHR].
    - now apply (C5 v Hv (fun f => f)).
    - apply IHR. now apply (C5 v Hv (fun f => f)). }
  now apply (G id).
Qed.
Lemma deep_mono : forall n m id resolved o, (n <= m)%nat -> collect_deep n id members resolved = Some o -> collect_deep m id members resolved = Some o.
Proof.
  induction n as [|n IH]; intros m id resolved o L H; [discriminate|]. destruct m as [|m]; [lia|]. cbn [collect_deep] in *.
  destruct (s_mem id resolved); [exact H|]. destruct (m_find members id) as [direct|]; [|exact H].
  revert H. generalize (Some ([] : list string, s_insert id resolved)). induction direct as [|i l IHl]; intros st H; cbn [fold_left] in *; [exact H|].
  destruct st as [[c0 r0]|].
  - destruct (collect_deep n i members r0) as [[sub r1]|] eqn:EC.
    + rewrite (IH m _ _ _ ltac:(lia) EC). now apply IHl.
    + exfalso. clear - H. induction l as [|j l IHl]; cbn in H; [discriminate|auto].
  - exfalso. clear - H. induction l as [|j l IHl]; cbn in H; [discriminate|auto].
Qed.
Lemma deep_map_spec : forall n, (List.length members < n)%nat ->
  exists dm, deep_map n members = Some dm /\ forall k, m_find members k <> None -> exists c, m_find dm k = Some c /\ forall x, In x c <-> reaches E k x.
Proof.
  intros n L. unfold deep_map.
  enough (G : forall (l : list (string * list string)) st, exists dm, fold_left (fun st kv => match st, collect_deep n (fst kv) members [] with
      | Some m, Some (c, _) => Some (m_set m (fst kv) c) | _, _ => None end) l (Some st) = Some dm /\
      (forall k c, m_find dm k = Some c -> m_find st k = Some c \/ forall x, In x c <-> reaches E k x) /\
      (forall k, m_find st k <> None -> m_find dm k <> None) /\ (forall k, In k (map fst l) -> m_find dm k <> None)).
  { destruct (G members []) as (dm & G1 & G2 & G3 & G4). exists dm. split; [exact G1|]. intros k Hk.
    assert (Hd : m_find dm k <> None).
    { apply G4. destruct (m_find members k) as [s|] eqn:Es; [|congruence]. apply find_in in Es. apply in_map_iff. now exists (k, s). }
    destruct (m_find dm k) as [c|] eqn:Ec; [|congruence]. exists c. split; [reflexivity|]. destruct (G2 _ _ Ec) as [C|C]; [discriminate|exact C]. }
  induction l as [|[k s] l IHl]; intros st; cbn [fold_left fst].
  - exists st. split; [reflexivity|]. split; [auto|]. split; [auto|]. intros k [].
  - destruct (deep_top n k L) as (c & r & C1 & C2). rewrite C1.
    destruct (IHl (m_set st k c)) as (dm & D1 & D2 & D3 & D4). exists dm. split; [exact D1|]. split; [|split].
    + intros j cj Hj. destruct (D2 _ _ Hj) as [G|G]; [|now right]. rewrite find_set in G.
      destruct (String.eqb_spec j k) as [->|N]; [|now left]. injection G as <-. now right.
    + intros j Hj. apply D3. rewrite find_set. destruct (String.eqb j k); [discriminate|exact Hj].
    + intros j [<-|Hj]; [|now apply D4]. apply D3. rewrite find_set. cbn [fst]. rewrite String.eqb_refl. discriminate.
Qed.
Lemma deep_map_mono : forall n m dm, (n <= m)%nat -> deep_map n members = Some dm -> deep_map m members = Some dm.
Proof.
  intros n m dm L. unfold deep_map.
  assert (NN : forall n (l : list (string * list string)), fold_left (fun st kv => match st, collect_deep n (fst kv) members [] with
      | Some m, Some (c, _) => Some (m_set m (fst kv) c) | _, _ => None end) l (None : option (list (string * list string))) = None).
  { intros k l. induction l as [|x l IHl]; cbn; [reflexivity|exact IHl]. }
  enough (G : forall (l : list (string * list string)) st,
      fold_left (fun st kv => match st, collect_deep n (fst kv) members [] with
        | Some m, Some (c, _) => Some (m_set m (fst kv) c) | _, _ => None end) l st = Some dm ->
      fold_left (fun st kv => match st, collect_deep m (fst kv) members [] with
        | Some m, Some (c, _) => Some (m_set m (fst kv) c) | _, _ => None end) l st = Some dm) by apply G.
  induction l as [|[k s] l IHl]; intros st H; cbn [fold_left] in *; [exact H|].
  destruct st as [st|]; [|rewrite NN in H; discriminate].
  destruct (collect_deep n (fst (k, s)) members []) as [[c r]|] eqn:EC; [|rewrite NN in H; discriminate].
  rewrite (deep_mono _ _ _ _ _ L EC). now apply IHl.
Qed.
End Deep.

(** climbing the ancestors *)
Section Climb.
Context (i : type_info).
Let P a b := m_find (child_to_parent i) a = Some b.
Lemma P_fun : forall a b c, P a b -> P a c -> b = c.
Proof. unfold P. intros. congruence. Qed.

Lemma reach_star : forall a b c, (a = b \/ reaches P a b) -> P b c -> reaches P a c.
Proof. intros a b c [->|H] H1; [now apply reach_one|]. eapply reaches_snoc; eassumption. Qed.
(** on a chain without choice, what is reached from a point that was met again has been met *)
Lemma loop_closed : forall symbols cur, (forall s, In s symbols -> exists y, P s y /\ (In y symbols \/ y = cur)) -> In cur symbols ->
  forall x y, (In x symbols \/ x = cur) -> reaches P x y -> In y symbols.
Proof.
  intros symbols cur H C x y Hx R. revert Hx. induction R as [x y R|x y z R R1 IH]; intros Hx.
  - assert (Hx' : In x symbols) by (destruct Hx; [assumption|now subst]). destruct (H x Hx') as (w & W1 & W2).
    rewrite (P_fun _ _ _ R W1). destruct W2; [assumption|now subst].
  - apply IH. assert (Hx' : In x symbols) by (destruct Hx; [assumption|now subst]). destruct (H x Hx') as (w & W1 & W2).
    rewrite (P_fun _ _ _ R W1). exact W2.
Qed.
Lemma ancestor_spec : forall n cur anc symbols o b, has_ancestor n i cur anc symbols = Some b ->
  (cur = o \/ reaches P o cur) -> ~ In anc symbols ->
  (forall s, In s symbols -> exists y, P s y /\ (In y symbols \/ y = cur)) -> (In o symbols \/ o = cur) ->
  (b = true <-> (o = anc \/ reaches P o anc)).
Proof.
  induction n as [|n IH]; intros cur anc symbols o b H R N S O; [discriminate|]. cbn [has_ancestor] in H.
  destruct (String.eqb_spec cur anc) as [->|NE].
  { injection H as <-. split; [intros _|reflexivity]. destruct R as [->|R]; auto. }
  destruct (m_find (child_to_parent i) cur) as [next|] eqn:EN.
  - destruct (s_mem cur symbols) eqn:EM.
    + injection H as <-. apply mem_in in EM. split; [discriminate|]. intros [->|H].
      * destruct O as [O|O]; [contradiction|now subst].
      * exfalso. apply N. exact (loop_closed symbols cur S EM o anc O H).
    + apply (IH _ _ _ o) in H; [exact H| | | |].
      * right. apply reach_star with cur; [|exact EN]. destruct R as [->|R]; auto.
      * intros I. apply in_app_or in I as [I|[I|[]]]; [contradiction|congruence].
      * intros s I. apply in_app_or in I as [I|[<-|[]]].
        -- destruct (S s I) as (y & Y1 & Y2). exists y. split; [exact Y1|]. left. apply in_or_app. destruct Y2 as [Y2| ->]; [now left|]. right. now left.
        -- exists next. split; [exact EN|now right].
      * left. apply in_or_app. destruct O as [O| ->]; [now left|]. right. now left.
  - injection H as <-. split; [discriminate|]. intros H. exfalso.
    assert (G : forall x, (In x symbols \/ x = cur) -> (x = anc \/ reaches P x anc) -> False).
    { intros x Hx [->|Q].
      - destruct Hx; [contradiction|now subst].
      - revert Hx. induction Q as [x y Q|x y z Q Q1 IHQ]; intros Hx.
        + destruct Hx as [Hx| ->]; [|unfold P in Q; congruence]. destruct (S x Hx) as (w & W1 & W2). rewrite (P_fun _ _ _ Q W1) in *.
          destruct W2; [contradiction|now subst].
        + destruct Hx as [Hx| ->]; [|unfold P in Q; congruence]. destruct (S x Hx) as (w & W1 & W2). rewrite (P_fun _ _ _ Q W1) in *. auto. }
    apply (G o O). exact H.
Qed.
Lemma ancestor_total : forall n cur anc symbols, NoDup symbols -> incl symbols (map fst (child_to_parent i)) ->
  (List.length (child_to_parent i) - List.length symbols + 1 < n)%nat -> exists b, has_ancestor n i cur anc symbols = Some b.
Proof.
  induction n as [|n IH]; intros cur anc symbols ND IN L; [lia|]. cbn [has_ancestor].
  destruct (String.eqb cur anc); [now eexists|]. destruct (m_find (child_to_parent i) cur) as [next|] eqn:EN; [|now eexists].
  destruct (s_mem cur symbols) eqn:EM; [now eexists|]. apply mem_not in EM.
  assert (ND' : NoDup (symbols ++ [cur])) by now apply nodup_snoc.
  assert (IN' : incl (symbols ++ [cur]) (map fst (child_to_parent i))).
  { intros x I. apply in_app_or in I as [I|[<-|[]]]; [now apply IN|]. apply find_in in EN. apply in_map_iff. now exists (cur, next). }
  apply IH; [exact ND'|exact IN'|]. pose proof (NoDup_incl_length ND' IN') as K. rewrite map_length, app_length in K. cbn in K.
  rewrite app_length. cbn. lia.
Qed.
Lemma ancestor_mono : forall n m cur anc symbols b, (n <= m)%nat -> has_ancestor n i cur anc symbols = Some b -> has_ancestor m i cur anc symbols = Some b.
Proof.
  induction n as [|n IH]; intros m cur anc symbols b L H; [discriminate|]. destruct m as [|m]; [lia|]. cbn [has_ancestor] in *.
  destruct (String.eqb cur anc); [exact H|]. destruct (m_find (child_to_parent i) cur); [|exact H]. destruct (s_mem cur symbols); [exact H|].
  apply IH; [lia|exact H].
Qed.
End Climb.

Definition enough (ds : list named_type) : nat := (List.length (member_map ds) + List.length (parent_map ds) + 2)%nat.
Lemma info_spec : forall ds, exists i, (forall n, (enough ds <= n)%nat -> make_info n ds = Some i) /\
  child_to_parent i = parent_map ds /\ name_to_element i = element_map ds /\
  forall a b, has_member i a b = true <-> reaches (contains ds) a b.
Proof.
  intros ds. destruct (deep_map_spec (member_map ds) (S (List.length (member_map ds))) (le_n _)) as (dm & D1 & D2).
  exists (Info (parent_map ds) dm (element_map ds)). split; [|split; [reflexivity|split; [reflexivity|]]].
  - intros n L. unfold make_info. rewrite (deep_map_mono (member_map ds) (S (List.length (member_map ds))) n dm); [reflexivity| |exact D1]. unfold enough in L. lia.
  - assert (EQ : forall a b, reaches (states (member_map ds)) a b <-> reaches (contains ds) a b).
    { intros a b. split; apply reaches_mono; intros x y; apply contains_spec. }
    intros a b. unfold has_member. cbn [object_to_members]. destruct (m_find (member_map ds) a) as [s|] eqn:E.
    + destruct (D2 a) as (c & C1 & C2); [congruence|]. rewrite C1, mem_in, C2. apply EQ.
    + split.
      * destruct (m_find dm a) as [c|] eqn:Ec; [|discriminate]. intros H. exfalso.
        assert (K : forall k, m_find dm k <> None -> m_find (member_map ds) k <> None).
        { clear - D1. unfold deep_map in D1.
          enough (G : forall (l : list (string * list string)) st dm, (forall kv, In kv l -> m_find (member_map ds) (fst kv) <> None) ->
            (forall k, m_find st k <> None -> m_find (member_map ds) k <> None) ->
            fold_left (fun st kv => match st, collect_deep (S (List.length (member_map ds))) (fst kv) (member_map ds) [] with
              | Some m, Some (c, _) => Some (m_set m (fst kv) c) | _, _ => None end) l (Some st) = Some dm ->
            forall k, m_find dm k <> None -> m_find (member_map ds) k <> None).
          { apply (G (member_map ds) [] dm); [|intros k Hk; now cbn in Hk|exact D1].
            intros [k v] I N. cbn in N. eapply find_none; eassumption. }
          induction l as [|[k s] l IHl]; intros st dm' HL HS H; cbn [fold_left] in H.
          - injection H as <-. exact HS.
          - destruct (collect_deep _ (fst (k, s)) (member_map ds) []) as [[c r]|] eqn:EC.
            + refine (IHl _ _ (fun kv I => HL kv (or_intror I)) _ H). intros j. rewrite find_set. cbn [fst].
              destruct (String.eqb_spec j k) as [->|]; [|apply HS]. intros _. apply (HL (k, s)). now left.
            + exfalso. clear - H. induction l as [|x l IHl]; cbn in H; [discriminate|auto]. }
        apply (K a); congruence.
      * intros H. exfalso. apply EQ in H. assert (exists y, states (member_map ds) a y) as [y Hy] by (inversion H; subst; eauto).
        unfold states, entry in Hy. rewrite E in Hy. exact Hy.
Qed.

Lemma derives_star : forall ds a b i, child_to_parent i = parent_map ds ->
  (a = b \/ reaches (fun x y => m_find (child_to_parent i) x = Some y) a b) <-> (a = b \/ reaches (derives ds) a b).
Proof.
  intros ds a b i H. rewrite H. split; (intros [G|G]; [now left|right]); (eapply reaches_mono; [|exact G]); intros x y; apply parent_spec.
Qed.
Lemma climb_spec : forall ds a b i, child_to_parent i = parent_map ds ->
  exists r, (forall n, (enough ds <= n)%nat -> has_ancestor n i a b [] = Some r) /\ (r = true <-> a = b \/ reaches (derives ds) a b).
Proof.
  intros ds a b i H. destruct (ancestor_total i (enough ds) a b []) as [r R].
  - constructor.
  - intros x [].
  - rewrite H. unfold enough. cbn. lia.
  - exists r. split; [intros n L; now apply (ancestor_mono i (enough ds))|].
    rewrite <- (derives_star ds a b i H). apply (ancestor_spec i _ a b [] a r R); auto; intros s [].
Qed.

Lemma compare_spec : forall ds a b, exists r, (forall n, (enough ds <= n)%nat -> compare_types n ds a b = Some r) /\
  (r = true <-> ~ needs ds (nt_name a) (nt_name b) /\ (needs ds (nt_name b) (nt_name a) \/ String.compare (nt_name a) (nt_name b) = Lt)).
Proof.
  intros ds a b. destruct (info_spec ds) as (i & I1 & I2 & I3 & I4).
  destruct (climb_spec ds (nt_name a) (nt_name b) i I2) as (r1 & R1 & R1').
  destruct (climb_spec ds (nt_name b) (nt_name a) i I2) as (r2 & R2 & R2').
  assert (N1 : (r1 || has_member i (nt_name a) (nt_name b))%bool = true <-> needs ds (nt_name a) (nt_name b)).
  { rewrite Bool.orb_true_iff, R1', I4. unfold needs. tauto. }
  assert (N2 : (r2 || has_member i (nt_name b) (nt_name a))%bool = true <-> needs ds (nt_name b) (nt_name a)).
  { rewrite Bool.orb_true_iff, R2', I4. unfold needs. tauto. }
  exists (if (r1 || has_member i (nt_name a) (nt_name b))%bool then false else
    if (r2 || has_member i (nt_name b) (nt_name a))%bool then true else
    match String.compare (nt_name a) (nt_name b) with Lt => true | _ => false end).
  split.
  - intros n L. unfold compare_types. rewrite I1 by exact L. unfold before. rewrite R1, R2 by exact L.
    destruct (r1 || _)%bool; [reflexivity|]. now destruct (r2 || _)%bool.
  - destruct (r1 || _)%bool; [split; [discriminate|]; intros [G _]; exfalso; apply G; now apply N1|].
    assert (NN : ~ needs ds (nt_name a) (nt_name b)) by (intros G; apply N1 in G; discriminate).
    destruct (r2 || _)%bool; [split; [intros _; split; [exact NN|left; now apply N2]|reflexivity]|].
    assert (NM : ~ needs ds (nt_name b) (nt_name a)) by (intros G; apply N2 in G; discriminate).
    destruct (String.compare _ _); intuition congruence.
Qed.

(** resolving types *)
Lemma resolve_mono' : forall n m i s b, (n <= m)%nat -> resolve_type n i s = Some b -> resolve_type m i s = Some b.
Proof.
  induction n as [|n IH]; intros m i s b L H; [discriminate|]. destruct m as [|m]; [lia|]. cbn [resolve_type] in *.
  destruct (String.eqb s ""); [exact H|]. destruct (m_find (name_to_element i) s) as [d|]; [|exact H].
  destruct (n_base (t_name (nt_spec d))); try exact H. destruct (m_find (child_to_parent i) s) as [p|]; [|exact H].
  destruct (String.eqb s p); [exact H|]. apply IH; [lia|exact H].
Qed.
Lemma resolve_nearest : forall ds i, child_to_parent i = parent_map ds -> name_to_element i = element_map ds ->
  forall n s b, resolve_type n i s = Some b -> nearest ds s b.
Proof.
  intros ds i I2 I3. induction n as [|n IH]; intros s b H; [discriminate|]. cbn [resolve_type] in H. rewrite I2, I3 in H.
  destruct (String.eqb_spec s "") as [->|NE]; [injection H as <-; constructor|].
  destruct (m_find (element_map ds) s) as [d|] eqn:ED.
  2:{ injection H as <-. apply nearest_unknown. intros d C. apply element_spec in C. congruence. }
  apply element_spec in ED. destruct (n_base (t_name (nt_spec d))) eqn:EB;
    try (injection H as <-; rewrite <- EB; apply nearest_own; [exact NE|exact ED|now rewrite EB]).
  destruct (m_find (parent_map ds) s) as [p|] eqn:EP.
  - apply parent_spec in EP. destruct (String.eqb_spec s p) as [<-|NP].
    + injection H as <-. eapply nearest_self; eassumption.
    + eapply nearest_up; try eassumption; [congruence|auto].
  - injection H as <-. eapply nearest_top; try eassumption. intros p C. apply parent_spec in C. congruence.
Qed.
Lemma nearest_resolve : forall ds i, child_to_parent i = parent_map ds -> name_to_element i = element_map ds ->
  forall s b, nearest ds s b -> exists n, resolve_type n i s = Some b.
Proof.
  intros ds i I2 I3 s b H.
  induction H as [a d NE L B|a d p b NE L B D N H IH| |a U|a d NE L B T|a d NE L B D].
  - exists 1%nat. cbn. rewrite I3. apply String.eqb_neq in NE. rewrite NE. apply element_spec in L. rewrite L.
    destruct (n_base (t_name (nt_spec d))); congruence.
  - destruct IH as [n IH]. exists (S n). cbn [resolve_type]. rewrite I2, I3. apply String.eqb_neq in NE. rewrite NE.
    apply element_spec in L. rewrite L, B. apply parent_spec in D. rewrite D. destruct (String.eqb_spec a p) as [E|_]; [now symmetry in E|exact IH].
  - exists 1%nat. reflexivity.
  - exists 1%nat. cbn. rewrite I3. destruct (String.eqb a ""); [reflexivity|].
    destruct (m_find (element_map ds) a) as [d|] eqn:E; [|reflexivity]. apply element_spec in E. now apply U in E.
  - exists 1%nat. cbn. rewrite I2, I3. apply String.eqb_neq in NE. rewrite NE. apply element_spec in L. rewrite L, B.
    destruct (m_find (parent_map ds) a) as [p|] eqn:E; [|reflexivity]. apply parent_spec in E. now apply T in E.
  - exists 1%nat. cbn. rewrite I2, I3. apply String.eqb_neq in NE. rewrite NE. apply element_spec in L. rewrite L, B.
    apply parent_spec in D. now rewrite D, String.eqb_refl.
Qed.
(** one step up *)
Definition climbs (ds : list named_type) (a p : string) : Prop :=
  exists d, last_named ds a d /\ n_base (t_name (nt_spec d)) = UndefinedTN /\ derives ds a p /\ p <> a.
Lemma nearest_total : forall ds, (forall a, ~ reaches (climbs ds) a a) -> forall a, exists b, nearest ds a b.
Proof.
  intros ds AC.
  assert (G : forall n s seen, NoDup seen -> incl seen (map fst (parent_map ds)) -> (forall x, In x seen -> reaches (climbs ds) x s) ->
    (List.length (parent_map ds) - List.length seen < n)%nat -> exists b, nearest ds s b).
  { induction n as [|n IH]; intros s seen ND IN R L; [lia|].
    destruct (string_dec s "") as [->|NE]; [exists UndefinedTN; constructor|].
    destruct (m_find (element_map ds) s) as [d|] eqn:ED.
    2:{ exists UndefinedTN. apply nearest_unknown. intros d C. apply element_spec in C. congruence. }
    apply element_spec in ED. destruct (n_base (t_name (nt_spec d))) eqn:EB;
      try (exists (n_base (t_name (nt_spec d))); apply nearest_own; [exact NE|exact ED|now rewrite EB]).
    destruct (m_find (parent_map ds) s) as [p|] eqn:EP.
    - pose proof EP as EP'. apply parent_spec in EP. destruct (string_dec p s) as [->|NP].
      + exists UndefinedTN. eapply nearest_self; eassumption.
      + assert (CL : climbs ds s p) by (exists d; auto).
        assert (NS : ~ In s seen) by (intros C; apply (AC s); auto).
        assert (KS : In s (map fst (parent_map ds))) by (apply find_in in EP'; apply in_map_iff; now exists (s, p)).
        assert (ND' : NoDup (s :: seen)) by now constructor.
        assert (IN' : incl (s :: seen) (map fst (parent_map ds))) by (intros x [<-|Hx]; [exact KS|now apply IN]).
        pose proof (NoDup_incl_length ND' IN') as K. rewrite map_length in K. cbn in K.
        destruct (IH p (s :: seen) ND' IN') as [b B].
        * intros x [<-|Hx]; [now apply reach_one|]. eapply reaches_snoc; [now apply R|exact CL].
        * cbn. lia.
        * exists b. eapply nearest_up; eassumption.
    - exists UndefinedTN. eapply nearest_top; try eassumption. intros p C. apply parent_spec in C. congruence. }
  intros a. apply (G (S (List.length (parent_map ds))) a []); [constructor|intros x []|intros x []|cbn; lia].
Qed.
Lemma resolve_endless : forall ds i (Q : string -> Prop), child_to_parent i = parent_map ds -> name_to_element i = element_map ds ->
  (forall a, Q a -> a <> ""%string /\ exists p, climbs ds a p /\ Q p) -> forall n a, Q a -> resolve_type n i a = None.
Proof.
  intros ds i Q I2 I3 H. induction n as [|n IH]; intros a Ha; [reflexivity|]. cbn [resolve_type]. rewrite I2, I3.
  destruct (H a Ha) as (NE & p & (d & L & B & D & N) & Hp). apply String.eqb_neq in NE. rewrite NE.
  apply element_spec in L. rewrite L, B. apply parent_spec in D. rewrite D.
  destruct (String.eqb_spec a p) as [E|_]; [now symmetry in E|now apply IH].
Qed.
Lemma climbs_fun : forall ds a b c, climbs ds a b -> climbs ds a c -> b = c.
Proof.
  intros ds a b c (d & _ & _ & D & _) (d' & _ & _ & D' & _). apply parent_spec in D. apply parent_spec in D'. congruence.
Qed.
