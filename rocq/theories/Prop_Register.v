(** Properties C62 and C63: the named types of a blueprint are found, registered whatever their order, and can be expanded *)
From Coq Require Import Permutation.
From Verif Require Import Base TypeTables TypeTablesSpec TypeTablesProofs Prop_Types NamedTypes NamedTypesSpec NamedTypesProofs Prop_NamedTypes Element ElementSpec Extend Registry RegistryProofs InfoProofs Expand ExpandSpec ExpandProofs ExpandClosed
  Prop_Expand SourceMap Mson MsonSpec MsonProofs MsonSane MsonTree MsonTotal MsonKinds Prop_Mson Blueprint Register RegisterSpec RegisterProofs.

(** ** C62: the data structures and resource attributes found *)
Theorem C62_found : forall l, (forall b, In b l -> tidy b) -> forall s, In s (find_named_types l) <-> exists b, In b l /\ declares b s.
Proof.
  assert (G : forall b, tidy b -> forall s, In s (find_types b) <-> declares b s).
  { apply (belement_ind' (fun b => tidy b -> forall s, In s (find_types b) <-> declares b s)). intros b IH T s. inversion T as [b' T1 T2]; subst b'.
    split.
    - destruct b as [c n y r d l t]. cbn [find_types b_class b_structure b_resource b_elements] in *. destruct c.
      all: try (rewrite (T1 ltac:(discriminate)); cbn [negb]; cbn iota; intros H; try contradiction).
      + apply in_flat_map in H as (x & Hx & H). apply (declares_inside (BElem CategoryElement n y r d l t) x); [reflexivity|exact Hx|]. apply IH; [exact Hx|now apply T2|exact H].
      + destruct (structure_empty (re_attributes r)) eqn:E; cbn [negb]; intros H; [contradiction|]. destruct H as [<-|[]]. now apply (declares_attributes (BElem ResourceElement n y r d l t)).
      + intros [<-|[]]. now apply (declares_structure (BElem DataStructureElement n y r d l t)).
    - intros H. inversion H as [b' C|b' C E|b' x s' C Hx Hd]; subst; destruct b as [c n y r d l t]; cbn in C; subst c; cbn [find_types b_class b_structure b_resource b_elements] in *.
      + now left.
      + rewrite E. now left.
      + rewrite (T1 ltac:(discriminate)). cbn [negb]. apply in_flat_map. exists x. split; [exact Hx|]. apply IH; [exact Hx|now apply T2|exact Hd]. }
  intros l T s. unfold find_named_types. rewrite in_flat_map. split; intros (b & Hb & H); exists b; (split; [exact Hb|]); apply G; auto.
Qed.

(** ** Lemmas *)
Lemma named_kind_fun : forall ds, well_declared ds -> forall n o o', named_kind ds n o -> named_kind ds n o' -> o = o'.
Proof.
  intros ds W n o o' H H'. assert (NB : forall e, In (n, e) base_types -> ~ In n (map fst base_types) -> False) by (intros e He C; apply C, in_map_iff; now exists (n, e)).
  assert (B1 : forall e e', In (n, e) base_types -> In (n, e') base_types -> e = e').
  { intros e e' He He'. cbn in He, He'. repeat (destruct He as [He|He]; [injection He as <- <-; repeat (destruct He' as [He'|He']; [congruence|]); destruct He'|]). destruct He. }
  destruct H as [n e He|n k Hn K|s Hs Es|n Hn U]; inversion H' as [n' e' He'|n' k' Hn' K'|s' Hs' Es'|n' Hn' U']; subst; try reflexivity; try (exfalso; eapply NB; eassumption).
  - now rewrite (B1 _ _ He He').
  - exfalso. cbn in He. intuition discriminate.
  - f_equal. now apply (type_kind_fun ds W n).
  - exfalso. destruct (type_kind_called _ _ _ K) as (x & _ & _ & C). now apply C.
  - exfalso. destruct (type_kind_called _ _ _ K) as (x & Hx & C & _). now apply (U' x).
  - exfalso. cbn in He'. intuition discriminate.
  - exfalso. destruct (type_kind_called _ _ _ K') as (x & _ & _ & C). now apply C.
  - exfalso. now apply (U' s).
  - exfalso. destruct (type_kind_called _ _ _ K') as (x & Hx & C & _). now apply (U x).
  - exfalso. now apply (U s').
Qed.
Lemma expected_named : forall ds n o, expected ds n o -> named_kind ds n (option_map ekind o).
Proof.
  intros ds n o [(e & He & ->)|[B H]]; [now apply nk_base|]. destruct o as [x|]; cbn [option_map].
  - destruct H as [(-> & (s & Hs & E) & ->)|K]; [now apply nk_nameless with s|now apply nk_type].
  - now apply nk_unknown.
Qed.
Lemma knows_alike : forall ds f f' r r' s, well_declared ds -> knows f ds r -> knows f' ds r' -> structure_to_refract f r s = structure_to_refract f' r' s.
Proof.
  intros ds f f' r r' s W K K'. apply structure_kinds. intros n. unfold root_kind, root_ancestor. destruct (K n) as (o & -> & E). destruct (K' n) as (o' & -> & E').
  cbn. now rewrite (named_kind_fun ds W n _ _ E E').
Qed.

Lemma Forall2_imp : forall A B (P Q : A -> B -> Prop) l m, (forall a b, P a b -> Q a b) -> Forall2 P l m -> Forall2 Q l m.
Proof. intros A B P Q l m H F. induction F; constructor; auto. Qed.
Lemma Forall2_permuted : forall A B (P : A -> B -> Prop) l l', Permutation l l' -> forall m, Forall2 P l m -> exists m', Forall2 P l' m' /\ Permutation m m'.
Proof.
  intros A B P l l' H. induction H as [|x l l' H IH|x y l|l1 l2 l3 H1 IH1 H2 IH2]; intros m F.
  - inversion F; subst. exists []. now split.
  - inversion F as [|? b ? mb Hx F']; subst. destruct (IH _ F') as (m' & F2 & P2). exists (b :: m'). split; now constructor.
  - inversion F as [|? b ? mb Hx F']; subst. inversion F' as [|? b' ? mb' Hy F'']; subst. exists (b' :: b :: mb'). split; [now repeat constructor|constructor].
  - destruct (IH1 _ F) as (m2 & F2 & P2). destruct (IH2 _ F2) as (m3 & F3 & P3). exists m3. split; [exact F3|]. now transitivity m2.
Qed.
Lemma Forall2_fun : forall A B (P : A -> B -> Prop), (forall a b b', P a b -> P a b' -> b = b') -> forall l m m', Forall2 P l m -> Forall2 P l m' -> m = m'.
Proof. intros A B P H l m m' F. revert m'. induction F as [|x b l m Hx F IH]; intros m' F'; inversion F'; subst; [reflexivity|]. f_equal; [now apply (H x)|now apply IH]. Qed.
Lemma concat_permuted : forall A (l m : list (list A)), Permutation l m -> Permutation (concat l) (concat m).
Proof.
  intros A l m H. induction H as [|x l l' H IH|x y l|l1 l2 l3 H1 IH1 H2 IH2]; cbn [concat].
  - constructor.
  - now apply Permutation_app_head.
  - rewrite !app_assoc. apply Permutation_app_tail, Permutation_app_comm.
  - now transitivity (concat l2).
Qed.
(** everything about a registration *)
Lemma registered : forall ds, well_declared ds -> none_reserved ds -> exists f0, forall fuel, f0 <= fuel ->
  (forall r, inv ds r -> knows fuel ds r) /\
  forall order, Permutation ds order -> exists r1, inv ds r1 /\
    ((exists r ws, register fuel ds order = (concat ws, Done r) /\ inv ds r /\ Forall2 (converts fuel r1) order ws /\
      (forall s, In s order -> type_name_of s <> ""%string -> exists e w, structure_to_refract fuel r1 s = ret (Some e, w) /\ rfind r (type_name_of s) = Some e) /\
      (forall n, (forall s, In s order -> type_name_of s <> ""%string -> type_name_of s <> n) -> rfind r n = rfind r1 n)) \/
    (exists p s q ws, order = (p ++ s :: q)%list /\ Forall2 (converts fuel r1) p ws /\ type_name_of s <> ""%string /\
      ((exists m, structure_to_refract fuel r1 s = Some (Throws m) /\ register fuel ds order = (concat ws, Fails m)) \/
       (structure_to_refract fuel r1 s = Some Undefined /\ register fuel ds order = (concat ws, Breaks))))).
Proof.
  intros ds W R. destruct (ancestors ds W R) as (F & HF). destruct (first_types ds W) as (f1 & H1). exists (max F f1). intros fuel L. split.
  - intros r I n. destruct (HF r I fuel ltac:(lia) n) as (o & Ho & E). exists o. split; [exact Ho|now apply expected_named].
  - intros order P. assert (In' : incl order ds) by (intros x Hx; now apply Permutation_in with order; [apply Permutation_sym|]).
    destruct (preregister_all ds fuel W (H1 fuel ltac:(lia)) order [] base_types In' (fun s Hs => R s (In' s Hs)) (held_start ds)) as (r1 & E1 & Hd).
    assert (I1 : inv ds r1) by now apply (held_inv ds order). exists r1. split; [exact I1|]. unfold register. rewrite E1, xbind_quiet.
    exact (define_all ds W R F HF fuel ltac:(lia) r1 I1 order r1 I1 In').
Qed.

Lemma nameless_entry : forall ds r, inv ds r -> rfind r "" = if existsb (fun s => String.eqb (type_name_of s) "") ds then Some nameless else None.
Proof.
  intros ds r (_ & _ & I). assert (B : ~ In ""%string (map fst base_types)) by (cbn; intuition discriminate). specialize (I ""%string B). destruct (rfind r "") as [e|].
  - destruct I as [(s & Hs & E) G]. assert (X : existsb (fun s => String.eqb (type_name_of s) "") ds = true) by (apply existsb_exists; exists s; split; [exact Hs|now apply String.eqb_eq]).
    rewrite X. cbn in G. now rewrite G.
  - destruct (existsb _ ds) eqn:X; [|reflexivity]. apply existsb_exists in X as (s & Hs & E). apply String.eqb_eq in E. exfalso. now apply (I s).
Qed.

(** ** C62: registration, for every order of the types *)
Theorem C62_registered : forall ds, well_declared ds -> none_reserved ds -> exists f0, forall fuel, f0 <= fuel -> forall order, Permutation ds order ->
  match register fuel ds order with
  | (w, Done r) => holds_types fuel ds r /\ knows fuel ds r /\ warns fuel r order w
  | (w, Fails m) => exists s, In s ds /\ forall r, knows fuel ds r -> structure_to_refract fuel r s = Some (Throws m)
  | (w, Breaks) => exists s, In s ds /\ forall r, knows fuel ds r -> structure_to_refract fuel r s = Some Undefined
  | _ => False
  end.
Proof.
  intros ds W R. destruct (registered ds W R) as (f0 & H). exists f0. intros fuel L order P. destruct (H fuel L) as [K H']. destruct (H' order P) as (r1 & I1 & [(r & ws & E & I & F & G & U)|(p & s & q & ws & -> & F & N & O)]).
  - rewrite E. assert (C : forall s, structure_to_refract fuel r s = structure_to_refract fuel r1 s) by (intros s; now apply (knows_alike ds fuel fuel r r1 s W); apply K).
    assert (Mem : forall s, In s ds -> In s order) by (intros s Hs; now apply Permutation_in with ds).
    split; [|split; [now apply K|]].
    + split; [apply I|]. split; [|split].
      * intros s Hs N. destruct (G s (Mem s Hs) N) as (e & w & E1 & E2). assert (D := proj2 (proj2 I) _ (not_base ds R s Hs)). rewrite E2 in D. destruct D as [_ D]. unfold entry_fine in D.
        rewrite (proj2 (String.eqb_neq _ _) N) in D. destruct D as (k & D1 & D2 & _). exists e, w, k. rewrite C. now split.
      * intros n N B D. assert (D' := proj2 (proj2 I) n B). destruct (rfind r n) as [e|]; [|reflexivity]. exfalso. destruct D' as [(s & Hs & E') _]. now apply (D s).
      * now apply nameless_entry.
    + exists ws. split; [|reflexivity]. eapply Forall2_imp; [|exact F]. intros s v Hv. unfold converts in Hv. destruct (String.eqb _ ""); [exact Hv|]. now rewrite C.
  - assert (Hs : In s ds) by (apply Permutation_in with (p ++ s :: q)%list; [now apply Permutation_sym|apply in_or_app; right; now left]).
    destruct O as [(m & C & E)|[C E]]; rewrite E; exists s; (split; [exact Hs|]); intros r Kr; rewrite <- C; apply (knows_alike ds); auto.
Qed.
(** if every conversion is one of those C61 covers, registration succeeds *)
Theorem C62_succeeds : forall ds, well_declared ds -> none_reserved ds -> exists f0, forall fuel, f0 <= fuel ->
  (forall s r, In s ds -> knows fuel ds r -> structure_fine fuel r s) -> forall order, Permutation ds order ->
  exists w r, register fuel ds order = (w, Done r) /\ holds_types fuel ds r /\ warns fuel r order w.
Proof.
  intros ds W R. destruct (registered ds W R) as (f0 & H). destruct (C62_registered ds W R) as (f1 & H1). exists (max f0 f1). intros fuel L Fine order P.
  specialize (H1 fuel ltac:(lia) order P). destruct (H fuel ltac:(lia)) as [K H']. destruct (H' order P) as (r1 & I1 & _).
  assert (Ok : forall s, In s ds -> exists o w, structure_to_refract fuel r1 s = ret (o, w)).
  { assert (KK : ancestors_end fuel r1) by (intros n; destruct (K r1 I1 n) as (o & -> & _); discriminate).
    intros s Hs. destruct (structure_ok fuel r1 KK s (Fine s r1 Hs (K r1 I1))) as (o & w & E). now exists o, w. }
  destruct (register fuel ds order) as [w [r|a|m|x| |]]; try contradiction.
  - exists w, r. now split.
  - exfalso. destruct H1 as (s & Hs & C). destruct (Ok s Hs) as (o & v & E). rewrite (C r1 (K r1 I1)) in E. discriminate.
  - exfalso. destruct H1 as (s & Hs & C). destruct (Ok s Hs) as (o & v & E). rewrite (C r1 (K r1 I1)) in E. discriminate.
Qed.

(** the order matters neither for what is registered nor for the warnings given *)
Theorem C62_order : forall ds, well_declared ds -> none_reserved ds -> exists f0, forall fuel, f0 <= fuel -> forall order order', Permutation ds order -> Permutation ds order' ->
  forall w r, register fuel ds order = (w, Done r) -> exists w' r', register fuel ds order' = (w', Done r') /\ Permutation w w' /\ forall n, rfind r n = rfind r' n.
Proof.
  intros ds W R. destruct (registered ds W R) as (f0 & H). exists f0. intros fuel L order order' P P' w r E. destruct (H fuel L) as [K H'].
  destruct (H' order P) as (r1 & I1 & [(ra & ws & E1 & I & F & G & U)|(p & s & q & ws & _ & _ & _ & [(m & _ & C)|[_ C]])]); [|congruence|congruence].
  assert (ra = r /\ w = concat ws) as [-> ->] by (split; congruence). clear E1.
  assert (Mem : forall s, In s ds -> In s order) by (intros s Hs; now apply Permutation_in with ds).
  assert (Mem' : forall s, In s order' -> In s ds) by (intros s Hs; now apply Permutation_in with order'; [apply Permutation_sym|]).
  assert (A : forall r2 s, inv ds r2 -> structure_to_refract fuel r2 s = structure_to_refract fuel r1 s) by (intros r2 s I2; now apply (knows_alike ds fuel fuel r2 r1 s W); apply K).
  destruct (H' order' P') as (r2 & I2 & [(r' & ws' & E2 & I' & F' & G' & U')|(p & s & q & ws' & Eq & _ & N & O)]).
  - exists (concat ws'), r'. split; [exact E2|]. split.
    + destruct (Forall2_permuted _ _ _ order order' ltac:(now transitivity ds; [apply Permutation_sym|]) ws F) as (m & Fm & Pm). apply concat_permuted. enough (ws' = m) by now subst.
      apply (Forall2_fun _ _ (converts fuel r1)) with order'; [|eapply Forall2_imp; [|exact F']|exact Fm].
      * intros s b b'. unfold converts. destruct (String.eqb _ ""); [congruence|]. intros (e & Q) (e' & Q'). rewrite Q in Q'. unfold ret in Q'. congruence.
      * intros s v. unfold converts. destruct (String.eqb _ ""); [auto|]. now rewrite A.
    + intros n. destruct (string_dec n "") as [->|N0]; [now rewrite (nameless_entry ds r I), (nameless_entry ds r' I')|].
      destruct (in_dec string_dec n (map type_name_of ds)) as [D|D].
      * apply in_map_iff in D as (s & <- & Hs). destruct (G s (Mem s Hs) N0) as (e & v & Q & ->). destruct (G' s (Permutation_in _ P' Hs) N0) as (e' & v' & Q' & ->). rewrite A in Q' by exact I2.
        rewrite Q in Q'. unfold ret in Q'. congruence.
      * destruct (base_dec n) as [(e & B)|B]; [now rewrite (proj1 (proj2 I) n e B), (proj1 (proj2 I') n e B)|].
        assert (Z : forall x, inv ds x -> rfind x n = None). { intros x (_ & _ & X). specialize (X n B). destruct (rfind x n); [|reflexivity]. destruct X as [(s & Hs & Es) _]. exfalso. apply D. rewrite <- Es. now apply in_map. }
        now rewrite !Z.
  - exfalso. assert (Hs : In s ds) by (apply Mem'; rewrite Eq; apply in_or_app; right; now left). destruct (G s (Mem s Hs) N) as (e & v & Q & _). rewrite <- (A r2 s I2) in Q.
    destruct O as [(m & C & _)|[C _]]; rewrite C in Q; discriminate.
Qed.
(** the first type with a reserved name is refused, before anything is converted *)
Theorem C62_reserved : forall ds, well_declared ds -> exists f0, forall fuel, f0 <= fuel -> forall p s q, Permutation ds (p ++ s :: q) ->
  (forall x, In x p -> is_reserved (type_name_of x) = false) -> is_reserved (type_name_of s) = true -> register fuel ds (p ++ s :: q) = ([], Refused (reserved_error s)).
Proof.
  intros ds W. destruct (first_types ds W) as (f1 & H1). exists f1. intros fuel L p s q P R Rs. assert (In' : forall x, In x (p ++ s :: q) -> In x ds) by (intros x Hx; now apply Permutation_in with (p ++ s :: q)%list; [apply Permutation_sym|]).
  assert (Hs : In s ds) by (apply In'; apply in_or_app; right; now left).
  destruct (preregister_all ds fuel W (H1 fuel L) p [] base_types (fun x Hx => In' x (in_or_app _ _ _ (or_introl Hx))) R (held_start ds)) as (r1 & E1 & Hd).
  unfold register. rewrite xfold_app, E1, xbind_quiet. cbn [xfold]. unfold preregister at 1. destruct (H1 fuel L s Hs) as (b & ->). unfold add_type, radd. now rewrite stub_id, Rs.
Qed.

(** ** C63: what is registered can be expanded *)
Lemma nameless_shaped : well_shaped nameless.
Proof.
  intros x H. inversion H as [|? c ? Hc Hx]; subst; [cbn; repeat split; intros; try discriminate; contradiction|]. destruct Hc.
Qed.
Lemma base_shaped : forall n p, In (n, p) base_types -> well_shaped p.
Proof.
  intros n p B. cbn in B. intros x W. repeat (destruct B as [B|B]; [injection B as <- <-; inversion W as [|? c ? Hc]; subst; [cbn; repeat split; intros; try discriminate; contradiction|destruct Hc]|]). destruct B.
Qed.
Lemma held_entry : forall fuel ds r, holds_types fuel ds r -> none_reserved ds -> forall n p, rfind r n = Some p ->
  In (n, p) base_types \/ (n = ""%string /\ p = nameless) \/ exists s w, In s ds /\ type_name_of s = n /\ structure_to_refract fuel r s = ret (Some p, w).
Proof.
  intros fuel ds r (H1 & H2 & H3 & H4) R n p E. destruct (base_dec n) as [(e & B)|B].
  - left. rewrite (H1 n e B) in E. now injection E as <-.
  - right. destruct (string_dec n "") as [->|N].
    + left. split; [reflexivity|]. rewrite H4 in E. destruct (existsb _ ds); congruence.
    + right. destruct (in_dec string_dec n (map type_name_of ds)) as [D|D].
      * apply in_map_iff in D as (s & <- & Hs). destruct (H2 s Hs N) as (e & w & k & E1 & E2 & _). exists s, w. rewrite E in E1. injection E1 as <-. now split.
      * exfalso. rewrite (H3 n N B) in E; [discriminate|]. intros s Hs Es. apply D. rewrite <- Es. now apply in_map.
Qed.
Theorem C63_expansion : forall ds, well_declared ds -> none_reserved ds -> exists f0, forall fuel, f0 <= fuel -> forall order, Permutation ds order ->
  forall w r, register fuel ds order = (w, Done r) -> forall s e w', structure_to_refract fuel r s = ret (Some e, w') ->
  exists x f1, (forall f, f1 <= f -> expand f r [] e = Some x) /\
    ((exists e', x = Ok e') \/ exists t, x = Throws ("named type '" ++ t ++ "' is circularly referencing itself by mixin")%string).
Proof.
  intros ds W R. destruct (C62_registered ds W R) as (f0 & H). exists f0. intros fuel L order P w r E s e w' C. specialize (H fuel L order P). rewrite E in H. destruct H as (H & K & _).
  assert (Rt : forall n, rooted r n) by (intros n; apply C23_root_ancestor; exists fuel; destruct (K n) as (o & -> & _); discriminate).
  destruct (C23_acyclic_terminates r Rt e) as (x & f1 & X). exists x, f1. split; [exact X|].
  assert (D : expand f1 r [] e <> Some Undefined).
  { apply C23_defined; [|apply sane_shaped; now apply (structure_sane fuel r s e w')]. intros n p En. destruct (held_entry fuel ds r H R n p En) as [B|[[_ ->]|(s' & v & _ & _ & C')]].
    - now apply (base_shaped n).
    - apply nameless_shaped.
    - apply sane_shaped. now apply (structure_sane fuel r s' p v). }
  rewrite (X f1 (le_n _)) in D. destruct x as [e'|m|]; [left; now exists e'|right|now destruct D].
  destruct (C23_only_mixin_errors r f1 [] e m (X f1 (le_n _))) as (t & ->). now exists t.
Qed.
(** types the parser accepts are well declared: a specification is a base type or a name, no variable *)
Theorem C63_accepted : forall ds n t, preprocess n (declarations ds) = Some (t, None) -> none_reserved ds ->
  (forall s, In s ds -> (base_of s = UndefinedTN \/ parent_of s = ""%string) /\ s_variable (n_symbol (t_name (td_spec (ds_type s)))) = false) -> well_declared ds.
Proof.
  intros ds n t H R V. assert (Nm : forall s, In s ds -> type_name_of s <> ""%string -> In (Decl (type_name_of s) (td_spec (ds_type s))) (declarations ds)).
  { intros s Hs N. unfold declarations. apply in_map_iff. exists s. split; [reflexivity|]. apply filter_In. split; [exact Hs|]. now apply negb_true_iff, String.eqb_neq. }
  assert (NE : Forall (fun d => d_id d <> ""%string) (declarations ds)).
  { apply Forall_forall. intros d Hd. unfold declarations in Hd. apply in_map_iff in Hd as (s & <- & Hs). apply filter_In in Hs as [_ Hs]. now apply negb_true_iff, String.eqb_neq in Hs. }
  pose proof (proj1 (C50_accepted _ _ _ _ NE H) eq_refl) as (S1 & S2 & S3).
  assert (Inh : forall s, In s ds -> type_name_of s <> ""%string -> base_of s = UndefinedTN -> parent_of s <> ""%string -> inherits (declarations ds) (type_name_of s) (parent_of s)).
  { intros s Hs N B Np. exists (Decl (type_name_of s) (td_spec (ds_type s))). split; [now apply Nm|]. split; [reflexivity|]. split; [exact B|]. split; [reflexivity|]. split; [exact Np|]. now apply V. }
  split; [|split; [|split]].
  - assert (E : map d_id (declarations ds) = filter (fun a => negb (String.eqb a "")) (map type_name_of ds)).
    { unfold declarations. rewrite map_map. cbn. clear. induction ds as [|s l IH]; [reflexivity|]. cbn. destruct (negb _); cbn; now rewrite IH. }
    now rewrite <- E.
  - intros s Hs _. now apply V.
  - intros s Hs N C. assert (Np : parent_of s <> ""%string) by (intros E; rewrite E in C; cbn in C; intuition discriminate). destruct (V s Hs) as [[B|B] _]; [|contradiction].
    destruct (S3 _ _ (Inh s Hs N B Np)) as (k & K). assert (exists x, In x ds /\ type_name_of x = parent_of s) as (x & Hx & Ex).
    { assert (exists y, In y (declarations ds) /\ d_id y = parent_of s) as (y & Y1 & Y2).
      { destruct (kind_cases _ _ _ K) as [[(y & Y & Y' & _)|(y & Y & Y' & _)]|(q & (y & Y & Y' & _) & _)]; eauto. }
      unfold declarations in Y1. apply in_map_iff in Y1 as (x & <- & Hx). apply filter_In in Hx as [Hx _]. now exists x. }
    apply base_reserved in C. rewrite <- Ex, (R x Hx) in C. discriminate.
  - intros a C. assert (exists b, parent ds a b) as (b & s & Hs & [Ca Na] & B & Pb & Nb) by (inversion C; subst; eauto). subst a.
    apply (S2 (type_name_of s) (parent_of s)); [apply Inh; congruence|]. eapply reaches_mono; [|exact C]. intros x y (z & Hz & [Cz Nz] & Bz & Pz & Nz'). left. subst x y. now apply Inh.
Qed.

(** ** Concrete blueprints *)
Local Open Scope string_scope.
Definition declare (name : string) (t : type_def) (l : list melement) : structure :=
  Str (TN UndefinedTN (Sym name false)) t [items_section l] [] [Range 3 4] [].
(** # Student (Human)
    + marks (Marks)
    # Marks (array[number])
    # Human (object)
    + age: x (number) *)
Definition student := declare "Student" (called "Human") [MProperty (named "marks") (mem (lits [] (called "Marks")) "" [])].
Definition marks := declare "Marks" (ty ArrayTN [TN NumberTN (Sym "" false)] 0) [].
Definition human := declare "Human" (ty ObjectTN [] 0) [MProperty (named "age") (mem (lits ["x"] (ty NumberTN [] 0)) "" [])].
(** attributes of a resource without a name *)
Definition unnamed := declare "" no_type [MProperty (named "id") (mem (lits ["1"] no_type) "" [])].
Definition no_text : text := ("", []).
Definition no_structure : structure := Str (TN UndefinedTN (Sym "" false)) (TD UndefinedBT (TS (TN UndefinedTN (Sym "" false)) []) 0) [] [] [] [].
Definition no_resource : resource := Res no_text no_text no_text no_structure [] [].
Definition of_structure (s : structure) : belement := BElem DataStructureElement no_text no_text no_resource s [] UndefinedCategory.
Definition of_group (l : list belement) : belement := BElem CategoryElement no_text no_text no_resource no_structure l ResourceGroupCategory.
Definition of_resource (s : structure) : belement := BElem ResourceElement no_text no_text (Res ("/", []) no_text no_text s [] []) no_structure [] UndefinedCategory.
Definition document : list belement := [of_group [of_resource unnamed; of_resource no_structure]; of_group [of_structure student; of_structure marks]; of_structure human].
Definition found : list structure := [unnamed; student; marks; human].

Lemma document_tidy : forall b, In b document -> tidy b.
Proof.
  assert (L : forall c n y r d t, structure_empty (re_attributes r) = true \/ c = ResourceElement -> tidy (BElem c n y r d [] t)).
  { intros c n y r d t H. constructor; [|intros x []]. cbn. intros N. destruct H; [assumption|contradiction]. }
  intros b H. cbn in H. repeat (destruct H as [<-|H]; [first [apply L; left; reflexivity|constructor; [reflexivity|]; intros x Hx; cbn in Hx; repeat (destruct Hx as [<-|Hx]; [apply L; first [left; reflexivity|right; reflexivity]|]); destruct Hx]|]). destruct H.
Qed.
Example C62_found_nonvacuous : find_named_types document = found.
Proof. reflexivity. Qed.
Lemma found_accepted : exists t, preprocess 9 (declarations found) = Some (t, None).
Proof. eexists. vm_compute. reflexivity. Qed.
Lemma found_fine : none_reserved found /\ well_declared found.
Proof.
  assert (R : none_reserved found) by (intros s H; cbn in H; repeat (destruct H as [<-|H]; [reflexivity|]); destruct H).
  split; [exact R|]. destruct found_accepted as (t & A). apply (C63_accepted _ _ _ A R). intros s H. cbn in H. repeat (destruct H as [<-|H]; [split; [first [left; reflexivity|right; reflexivity]|reflexivity]|]). destruct H.
Qed.
(** both orders register the same three types; the sub type comes first in one of them *)
Example C62_nonvacuous : exists w r w' r' a b c, register 9 found [student; unnamed; marks; human] = (w, Done r) /\ register 9 found [human; marks; unnamed; student] = (w', Done r') /\
  map a_message w = ["invalid value format for 'number' type. please check mson specification for valid format"] /\ w' = w /\
  rfind r "Student" = Some a /\ ename a = "Human" /\ ekind a = KObject /\ rfind r "Marks" = Some b /\ ekind b = KArray /\ rfind r "Human" = Some c /\ rfind r "" = Some nameless /\
  rfind r' "Student" = Some a /\ rfind r' "Marks" = Some b /\ rfind r' "Human" = Some c.
Proof. do 7 eexists. split; [vm_compute; reflexivity|]. split; [vm_compute; reflexivity|]. vm_compute. do 11 (split; [reflexivity|]). reflexivity. Qed.
Example C62_reserved_nonvacuous : exists fuel, register fuel [student; declare "enum" (ty ObjectTN [] 0) []] [student; declare "enum" (ty ObjectTN [] 0) []] =
  ([], Refused (Annotation "enum is a reserved keyword and cannot be used." 4 [Range 3 4])).
Proof. exists 9. vm_compute. reflexivity. Qed.
(** the registered type can be expanded *)
Example C63_nonvacuous : exists w r a x, register 9 found [student; unnamed; marks; human] = (w, Done r) /\ rfind r "Student" = Some a /\ expand 9 r [] a = Some (Ok (Some x)) /\ ekind x = KExtend.
Proof. do 4 eexists. split; [vm_compute; reflexivity|]. split; [vm_compute; reflexivity|]. split; [vm_compute; reflexivity|reflexivity]. Qed.

Print Assumptions C62_found.
Print Assumptions C62_registered.
Print Assumptions C62_succeeds.
Print Assumptions C62_order.
Print Assumptions C62_reserved.
Print Assumptions C63_expansion.
Print Assumptions C63_accepted.
