(** C48: decent documents have registries and data structures that are fit for expansion and generation *)
From Coq Require Import Permutation.
From Verif Require Import Base SourceMap Element ElementSpec ElementProofs InfoProofs Extend Registry Expand ExpandSpec ExpandProofs ExpandClosed ElementUtils TypeTablesSpec TypeTables Mson MsonSpec MsonProofs MsonSane
  Blueprint Register RegisterSpec RegisterProofs Prop_Register ReadySpec ReadyProofs ReadyGen ExpandFit MsonTame.

Section Fits.
  Context (r : registry).
  Lemma sane_sub : forall e x, sane e -> sub x e -> sane x.
  Proof. intros e x H S y Hy. apply H. clear H. induction S as [|x0 c e0 Hc Hs IH]; [exact Hy|]. apply sub_step with c; [exact Hc|now apply IH]. Qed.
  Lemma text_calm : forall e, sane e -> tame r e -> ekind e = KString -> no_mixin e.
  Proof.
    induction e as [e IH] using (well_founded_induction (well_founded_ltof _ esize)). unfold ltof in IH. intros S Tm K x Hx.
    inversion Hx as [|y c e0 Hc Hs]; subst; [congruence|]. assert (Sc : sane c) by (apply (sane_sub e); [exact S|apply sub_step with c; [exact Hc|constructor]]).
    assert (Tc : tame r c) by (apply (every_sub _ e); [exact Tm|apply sub_step with c; [exact Hc|constructor]]).
    assert (Lt : esize c < esize e) by now apply child_smaller.
    destruct (S e (sub_refl e)) as (_ & _ & _ & M & _). destruct (Tm e (sub_refl e)) as (A & _). unfold children in Hc. apply in_app_or in Hc as [Hc|Hc].
    - apply in_map_iff in Hc as ((k & v) & <- & Hv). destruct (M k v Hv) as (_ & _ & s & D & _). apply (IH v); auto. unfold ekind. cbn [snd]. now rewrite D.
    - apply in_app_or in Hc as [Hc|Hc]; [apply in_map_iff in Hc as ((k & v) & <- & Hv); now apply (A k v)|]. unfold ekind in K. destruct (edata e); try discriminate. destruct Hc.
  Qed.
  Theorem sane_fit : forall e, sane e -> tame r e -> fit r e.
  Proof.
    intros e S Tm x Hx. assert (Sx : sane x) by now apply (sane_sub e). assert (Tx : tame r x) by now apply (every_sub _ e).
    destruct (Sx x (sub_refl x)) as ((_ & Ch) & _ & _ & M & A & D). assert (P := Tx x (sub_refl x)). split; [exact P|]. split; [|split; [|split; [exact Ch|]]].
    - intros v Hv. apply A in Hv. now apply type_attributes_ok in Hv as (H & _).
    - intros k v Hv. destruct (M k v Hv) as (_ & _ & s & Dv & _). assert (C : In v (children x)) by (apply in_or_app; left; apply in_map_iff; now exists (k, v)).
      apply text_calm; [apply (sane_sub x); [exact Sx|apply sub_step with v; [exact C|constructor]]|apply (every_sub _ x); [exact Tx|apply sub_step with v; [exact C|constructor]]|unfold ekind; now rewrite Dv].
    - unfold ekind in A. destruct (edata x) as [|o|s|s|b|l|k v|l|o|s|l|l|l]; auto.
      + destruct D as (D1 & D2 & D3 & (value & ->)). repeat split; auto. discriminate.
      + split; [intros H; destruct (D H) as (y & ->); discriminate|]. intros v Hv. apply A in Hv. destruct Hv as [[H _]|[[H _]|[[H _]|[(_ & _ & H1 & l & H2 & _)|[[H _]|[[H _]|[H _]]]]]]]; try discriminate. split; [exact H1|unfold ekind; now rewrite H2].
  Qed.
  Lemma plain_fit : forall e, emeta e = [] -> eattrs e = [] -> dsd_children (edata e) = [] -> is_reserved (ename e) = true -> mergeable (ekind e) \/ ekind e = KNull -> ehas e = false -> fit r e.
  Proof.
    intros [n m a h d] M A C N K H. cbn [emeta eattrs edata ename ehas] in *. subst. apply every_elem. rewrite C. split; [|repeat constructor]. split; [split; [intros k v []|split; [cbn [ename]; intros X; congruence|]]|].
    - destruct d as [| | | | | |[]| | | | | |]; cbn; auto; unfold ekind in K; cbn in K; repeat (destruct K as [K|K]; try discriminate); try destruct K.
    - split; [intros v []|]. split; [intros k v []|]. split; [intros _; exact C|]. cbn [edata].
      destruct d as [| | | | | | | | | | | |]; auto; unfold ekind in K; cbn in K; repeat (destruct K as [K|K]; try discriminate); try destruct K. cbn. split; [discriminate|intros v []].
  Qed.
  Lemma base_fit : forall n e, In (n, e) base_types -> fit r e.
  Proof. intros n e B. cbn in B. repeat (destruct B as [B|B]; [injection B as <- <-; apply plain_fit; auto; cbn; auto 10|]). destruct B. Qed.
  Lemma nameless_fit : fit r nameless.
  Proof.
    assert (S : fit r (str_elem "")) by (apply every_elem; split; [|repeat constructor]; repeat split; try (intros; contradiction); discriminate).
    apply every_elem. split; [|split; [constructor; [exact S|constructor]|repeat constructor]]. split; [split; [intros k v []|split; [discriminate|exact I]]|]. split; [intros v []|]. split; [|split; [reflexivity|exact I]].
    intros k v [E|[]]. injection E as <- <-. intros x Hx. inversion Hx as [|y c e0 Hc Hs]; subst; [discriminate|destruct Hc].
  Qed.
End Fits.

(** * Documents *)
Lemma decent_weaken : forall (R1 E1 R2 E2 : string -> Prop), (forall n, n <> ""%string -> R1 n -> R2 n) -> (forall n, E2 n -> E1 n) -> forall x b, decent R1 E1 b x -> decent R2 E2 b x.
Proof.
  intros R1 E1 R2 E2 HR HE. assert (HT : forall t, ~ of_enumeration E1 t -> ~ of_enumeration E2 t) by (intros t H [B|B]; apply H; [now left|right; now apply HE]).
  assert (HS : forall b t (l : list (msection melement)), all_sections (fun x => forall b, decent R1 E1 b x -> decent R2 E2 b x) l ->
    (forall s x, In s l -> In x (sc_elements s) -> exists b', decent R1 E1 b' x /\ (b' = true -> b = true /\ sc_class s = MemberTypeClass /\ ~ of_enumeration E1 t)) ->
    forall s x, In s l -> In x (sc_elements s) -> exists b', decent R2 E2 b' x /\ (b' = true -> b = true /\ sc_class s = MemberTypeClass /\ ~ of_enumeration E2 t)).
  { intros b t l A D s x Hs Hx. destruct (D s x Hs Hx) as (b' & Db & Q). exists b'. unfold all_sections in A. rewrite Forall_forall in A. specialize (A s Hs). rewrite Forall_forall in A. split; [now apply (A x Hx)|].
    intros Eb. destruct (Q Eb) as (Q1 & Q2 & Q3). repeat split; auto. }
  apply (melement_ind' (fun x => forall b, decent R1 E1 b x -> decent R2 E2 b x)).
  - intros b D. inversion D.
  - intros n m A b D. inversion D as [? ? ? Pk Pt Ps| | | |]; subst. apply d_property; [exact Pk|exact Pt|now apply HS].
  - intros m A b D. inversion D as [|? ? Pt Ps| | |]; subst. apply d_value; [exact Pt|now apply HS].
  - intros t b D. inversion D as [| |? Q| |]; subst. apply d_mixin. destruct Q as [Q|[Q1 Q2]]; [now left|right]. split; [exact Q1|now apply HR].
  - intros l F b D. inversion D as [| | |? ? N Q|]; subst. apply d_oneof; [exact N|]. rewrite Forall_forall in *. intros x Hx. apply F; auto.
  - intros l F b D. inversion D as [| | | |? ? Q]; subst. apply d_group. rewrite Forall_forall in *. intros x Hx. apply F; auto.
Qed.
Lemma structure_weaken : forall (R1 E1 R2 E2 : string -> Prop), (forall n, n <> ""%string -> R1 n -> R2 n) -> (forall n, E2 n -> E1 n) -> forall s, decent_structure R1 E1 s -> decent_structure R2 E2 s.
Proof.
  intros R1 E1 R2 E2 HR HE s [P D]. split; [exact P|]. intros c x Hc Hx. destruct (D c x Hc Hx) as (b & Db & Q). exists b. split; [now apply (decent_weaken R1 E1)|]. intros Eb. destruct (Q Eb) as [Q1 Q2]. split; [exact Q1|].
  intros [B|B]; apply Q2; [now left|right; now apply HE].
Qed.
Lemma type_kind_value : forall ds n k, type_kind ds n k -> value_kind k.
Proof. intros ds n k H. induction H; auto; try (cbn; tauto). apply kind_of_value. Qed.
Section Registered.
  Context (f : nat) (ds : list structure) (r : registry) (W : well_declared ds) (R : none_reserved ds) (A : maps_apart ds) (H : holds_types f ds r) (K : knows f ds r).
  Lemma held_kind : forall n p, n <> ""%string -> is_reserved n = false -> rfind r n = Some p -> type_kind ds n (ekind p).
  Proof.
    intros n p N Rn E. destruct H as (_ & H2 & _). destruct (held_entry f ds r H R n p E) as [B|[[-> _]|(s & w & Hs & <- & C)]].
    - exfalso. cbn in B. repeat (destruct B as [B|B]; [injection B as <- <-; discriminate|]). destruct B.
    - now destruct N.
    - destruct (H2 s Hs N) as (e & w' & k & E1 & _ & T & Q). rewrite E in E1. injection E1 as <-. now rewrite Q.
  Qed.
  Lemma is_consistent : consistent f r.
  Proof.
    split; [|split].
    - intros b Nb. destruct H as (H1 & _). assert (G : forall k, In (kind_name k, make_empty k) base_types -> rfind r (kind_name k) <> None) by (intros k Hk; rewrite (H1 _ _ Hk); discriminate).
      apply G. destruct b; try contradiction; cbn; auto 10.
    - intros p E. apply A. apply (held_kind "sourceMap"%string p); [discriminate|reflexivity|exact E].
    - intros n p N Rn E. assert (T := held_kind n p N Rn E). destruct (K n) as (o & Fo & No). assert (NB : ~ In n (map fst base_types)) by (intros B; cbn in B; repeat (destruct B as [B|B]; [subst; discriminate|]); destruct B).
      assert (Q := named_kind_fun ds W n _ _ No (nk_type ds n (ekind p) NB T)). destruct o as [e|]; [|discriminate]. cbn in Q. injection Q as Q. exists e. split; [exact Fo|]. split; [exact Q|]. now apply (type_kind_value ds n).
  Qed.
  Lemma decent_here : forall s, decent_in ds s -> decent_structure (reg r) (enu f r) s.
  Proof.
    intros s. apply structure_weaken.
    - intros n N [B|B]; unfold reg; destruct H as (H1 & H2 & _).
      + apply in_map_iff in B as ((n' & e) & <- & B). cbn [fst]; rewrite (H1 _ _ B); discriminate.
      + apply in_map_iff in B as (s' & <- & Hs). destruct (H2 s' Hs N) as (e & w & k & -> & _). discriminate.
    - intros n (e & F & E & _). destruct (K n) as (o & Fo & No). rewrite F in Fo. injection Fo as <-. cbn in No. now rewrite E in No.
  Qed.
  Theorem structure_fit : forall s e w, decent_in ds s -> structure_to_refract f r s = ret (Some e, w) -> fit r e.
  Proof. intros s e w D E. apply sane_fit; [now apply (structure_sane f r s e w)|]. apply (structure_tame f r is_consistent s e w); [now apply decent_here|exact E]. Qed.
  Theorem registry_fit : (forall s, In s ds -> decent_in ds s) -> forall n p, rfind r n = Some p -> fit r p.
  Proof.
    intros D n p E. destruct (held_entry f ds r H R n p E) as [B|[[_ ->]|(s & w & Hs & _ & C)]]; [now apply (base_fit r n)|apply nameless_fit|]. now apply (structure_fit s p w); [apply D|].
  Qed.
End Registered.
