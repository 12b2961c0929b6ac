From Coq Require Import Permutation.
From Verif Require Import Base TypeTables TypeTablesSpec TypeTablesProofs NamedTypes NamedTypesSpec NamedTypesProofs Prop_NamedTypes Element Extend Registry RegistryProofs InfoProofs Expand ExpandSpec ExpandProofs ExpandClosed
  SourceMap Mson MsonSpec MsonProofs MsonSane MsonTree MsonTotal MsonKinds Prop_Mson Blueprint Register RegisterSpec.

(** * Declarations *)
Lemma filter_once : forall A (f : A -> string) p l x y, NoDup (filter p (map f l)) -> In x l -> In y l -> f x = f y -> p (f x) = true -> x = y.
Proof.
  induction l as [|z l IH]; intros x y N Hx Hy E P; [destruct Hx|]. cbn in N.
  assert (G : forall t, In t l -> f z = f t -> p (f z) = true -> False).
  { intros t Ht Et Pz. rewrite Pz in N. inversion N as [|? ? Nn _]; subst. apply Nn, filter_In. split; [|exact Pz]. rewrite Et. now apply in_map. }
  assert (N' : NoDup (filter p (map f l))) by (destruct (p (f z)); [now inversion N|exact N]).
  destruct Hx as [<-|Hx], Hy as [<-|Hy]; [reflexivity| | |now apply IH].
  - exfalso. now apply (G y).
  - exfalso. apply (G x); [exact Hx|congruence|congruence].
Qed.
Lemma last_of : forall l a s, NoDup (filter (fun x => negb (String.eqb x "")) (map type_name_of l)) -> In s l -> is_called a s -> last_named (map seen_type l) a (seen_type s).
Proof.
  induction l as [|x l IH]; intros a s N Hs C; [destruct Hs|]. cbn [map filter] in N. destruct Hs as [->|Hs].
  - exists [], (map seen_type l). split; [reflexivity|]. split; [apply C|]. intros e He En. apply in_map_iff in He as (y & <- & Hy). cbn in En.
    destruct C as [C1 C2]. rewrite C1 in N. assert (T : negb (String.eqb a "") = true) by now apply negb_true_iff, String.eqb_neq. rewrite T in N. inversion N as [|? ? Nn _]; subst.
    apply Nn, filter_In. split; [rewrite <- En; now apply in_map|exact T].
  - destruct (IH a s) as (p & q & E & En & L); [|exact Hs|exact C|]. { destruct (negb (String.eqb (type_name_of x) "")); [now inversion N|exact N]. }
    exists (seen_type x :: p), q. cbn [map]. rewrite E. now split.
Qed.
Lemma parent_intro : forall ds a s p, In s ds -> is_called a s -> base_of s = UndefinedTN -> parent_of s = p -> p <> ""%string -> parent ds a p.
Proof. intros ds a s p H1 H2 H3 H4 H5. exists s. split; [exact H1|]. split; [exact H2|]. now split. Qed.
Section Declared.
  Context (ds : list structure) (W : well_declared ds).
  Let W1 := proj1 W. Let W2 := proj1 (proj2 W). Let W3 := proj1 (proj2 (proj2 W)). Let W4 := proj2 (proj2 (proj2 W)).
  Lemma called_once : forall a s s', In s ds -> In s' ds -> is_called a s -> is_called a s' -> s = s'.
  Proof.
    intros a s s' H H' [E N] [E' _]. apply (filter_once _ _ _ _ _ _ W1); [exact H|exact H'|congruence|]. rewrite E. now apply negb_true_iff, String.eqb_neq.
  Qed.
  Lemma declared_dec : forall a, (exists s, In s ds /\ is_called a s) \/ (forall s, In s ds -> ~ is_called a s).
  Proof.
    intros a. destruct (string_dec a "") as [->|N]; [right; intros s _ [_ C]; now apply C|]. clear W W1 W2 W3 W4. induction ds as [|x l IH]; [right; intros s []|].
    destruct (string_dec (type_name_of x) a) as [E|E]; [left; exists x; split; [now left|now split]|].
    destruct IH as [(s & H & C)|IH]; [left; exists s; split; [now right|exact C]|right]. intros s [<-|H]; [intros [C _]; contradiction|now apply IH].
  Qed.
  Lemma type_kind_called : forall a k, type_kind ds a k -> exists s, In s ds /\ is_called a s.
  Proof. intros a k H. inversion H as [s ? Hs C|s ? Hs C|s ? Hs C|? p ? (s & Hs & C & _)]; subst; exists s; now split. Qed.
  Lemma type_kind_fun : forall a k, type_kind ds a k -> forall k', type_kind ds a k' -> k = k'.
  Proof.
    induction 1 as [s a Hs C B|s a Hs C B P|s a Hs C B P|a p k (s & Hs & C & B & P & N) K IH]; intros k' K';
      inversion K' as [s' ? Hs' C' B'|s' ? Hs' C' B' P'|s' ? Hs' C' B' P'|? p' ? (s' & Hs' & C' & B' & P' & N') Q']; subst;
      assert (s = s') by (eapply called_once; eassumption); subst s'; try congruence; try reflexivity.
    - exfalso. destruct (type_kind_called _ _ Q') as (x & Hx & Cx). now apply (P x).
    - exfalso. destruct (type_kind_called _ _ K) as (x & Hx & Cx). now apply (P' x).
    - now apply IH.
  Qed.

  (** the names the sort and the first types look at *)
  Lemma last_seen : forall a d, last_named (map seen_type ds) a d -> exists s, In s ds /\ d = seen_type s /\ type_name_of s = a.
  Proof.
    intros a d (p & q & E & N & _). assert (H : In d (map seen_type ds)) by (rewrite E; apply in_or_app; right; now left). apply in_map_iff in H as (s & <- & Hs). exists s. repeat split; auto.
  Qed.
  Lemma derives_seen : forall a p, derives (map seen_type ds) a p -> a <> ""%string -> exists s, In s ds /\ is_called a s /\ parent_of s = p /\ p <> ""%string.
  Proof.
    intros a p (l & d & q & E & N & P & NE & _) Na. assert (H : In d (map seen_type ds)) by (rewrite E; apply in_or_app; right; now left). apply in_map_iff in H as (s & <- & Hs).
    exists s. repeat split; auto.
  Qed.
  Lemma seen_last : forall a s, In s ds -> is_called a s -> last_named (map seen_type ds) a (seen_type s).
  Proof. intros a s. now apply last_of. Qed.
  Lemma parent_derives : forall a p, parent ds a p -> derives (map seen_type ds) a p.
  Proof.
    intros a p (s & Hs & C & B & P & N). destruct (seen_last a s Hs C) as (l & q & E & En & L). exists l, (seen_type s), q. repeat split; auto. intros e He Hn. now apply L in He.
  Qed.
  Lemma nearest_unknown_inv : forall a b, nearest (map seen_type ds) a b -> (forall s, In s ds -> ~ is_called a s) -> b = UndefinedTN.
  Proof.
    intros a b H U. assert (G : forall d, a <> ""%string -> last_named (map seen_type ds) a d -> False).
    { intros d N L. apply last_seen in L as (s & Hs & _ & E). now apply (U s Hs). }
    inversion H; subst; try reflexivity; exfalso; eapply G; eassumption.
  Qed.
  Lemma nearest_kind : forall a b, nearest (map seen_type ds) a b -> (exists s, In s ds /\ is_called a s) -> type_kind ds a (kind_of b).
  Proof.
    assert (S : forall a d s, last_named (map seen_type ds) a d -> In s ds -> is_called a s -> d = seen_type s).
    { intros a d s L Hs C. apply last_seen in L as (s' & Hs' & -> & E). f_equal. apply (called_once a); try assumption. split; [exact E|apply C]. }
    induction 1 as [a d N L B|a d p b N L B D P Hp IH| |a U|a d N L B T|a d N L B D]; intros (s & Hs & C).
    - rewrite (S a d s L Hs C) in B |- *. now apply tk_base.
    - rewrite (S a d s L Hs C) in B. apply derives_seen in D as (s' & Hs' & C' & P' & NP); [|exact N]. assert (s = s') by (eapply called_once; eassumption). subst s'.
      destruct (declared_dec p) as [Q|Q]; [apply tk_parent with p; [now apply (parent_intro ds a s)|now apply IH]|].
      rewrite (nearest_unknown_inv p b Hp Q). cbn. apply (tk_unknown ds s); try assumption. now rewrite P'.
    - now destruct C as [_ C].
    - exfalso. exact (U (seen_type s) (seen_last a s Hs C)).
    - rewrite (S a d s L Hs C) in B. cbn. apply (tk_object ds s); try assumption. destruct (string_dec (parent_of s) "") as [E|E]; [exact E|]. exfalso. apply (T (parent_of s)).
      apply parent_derives. now apply (parent_intro ds a s).
    - exfalso. apply derives_seen in D as (s' & Hs' & C' & P' & NP); [|exact N]. assert (s = s') by (eapply called_once; eassumption). subst s'. rewrite (S a d s L Hs C) in B.
      apply (W4 a). apply reach_one. now apply (parent_intro ds a s).
  Qed.
  Lemma seen_acyclic : forall a, ~ reaches (climbs (map seen_type ds)) a a.
  Proof.
    assert (G : forall a b, reaches (climbs (map seen_type ds)) a b -> b <> ""%string /\ (a <> ""%string -> reaches (parent ds) a b)).
    { assert (S : forall a b, climbs (map seen_type ds) a b -> b <> ""%string /\ (a <> ""%string -> parent ds a b)).
      { intros a b (d & L & B & D & N). split; [destruct D as (? & ? & ? & _ & _ & _ & NE & _); exact NE|]. intros Na. apply last_seen in L as (s & Hs & -> & E).
        apply derives_seen in D as (s' & Hs' & C' & P' & NP); [|exact Na]. assert (s = s') by (apply (called_once a); try assumption; now split). subst s'. now apply (parent_intro ds a s). }
      induction 1 as [a b H|a b c H _ [IH1 IH2]]; destruct (S _ _ H) as [S1 S2].
      - split; [exact S1|]. intros N. apply reach_one. now apply S2.
      - split; [exact IH1|]. intros N. apply reach_more with b; [now apply S2|now apply IH2]. }
    intros a R. destruct (G a a R) as [N P]. now apply (W4 a), P.
  Qed.
  Lemma type_kind_total : forall a, (exists s, In s ds /\ is_called a s) -> exists k, type_kind ds a k.
  Proof. intros a H. destruct (nearest_total _ seen_acyclic a) as (b & B). exists (kind_of b). now apply nearest_kind. Qed.
End Declared.

Lemma first_type_mono : forall n m ds d b, (n <= m)%nat -> first_type n ds d = Some b -> first_type m ds d = Some b.
Proof.
  intros n m ds d b L H. unfold first_type in *. destruct (make_info n ds) as [i|] eqn:E; [|discriminate].
  unfold make_info in *. destruct (deep_map n (NamedTypes.member_map ds)) as [dm|] eqn:D; [|discriminate]. rewrite (deep_map_mono _ n m dm L D). injection E as <-. now apply (resolve_mono' n).
Qed.
Lemma first_types : forall ds, well_declared ds -> exists f0, forall f, (f0 <= f)%nat -> forall s, In s ds -> exists b, first_type f (map seen_type ds) (seen_type s) = Some b.
Proof.
  intros ds W. assert (G : forall l, exists f0, forall f, (f0 <= f)%nat -> forall s, In s l -> exists b, first_type f (map seen_type ds) (seen_type s) = Some b).
  { induction l as [|x l (f0 & IH)]; [exists 0%nat; intros f _ s []|]. destruct (C39_ends (map seen_type ds) (seen_type x) (seen_acyclic ds W)) as (n & b & B).
    exists (max f0 n). intros f Hf s [<-|Hs]; [|apply IH; [lia|exact Hs]]. exists b. apply (first_type_mono n); [lia|exact B]. }
  apply G.
Qed.
Lemma first_kind : forall ds f s b, well_declared ds -> In s ds -> first_type f (map seen_type ds) (seen_type s) = Some b ->
  if String.eqb (type_name_of s) "" then b = UndefinedTN else type_kind ds (type_name_of s) (kind_of b).
Proof.
  intros ds f s b W Hs H. assert (N : nearest (map seen_type ds) (type_name_of s) b) by (apply (C39_nearest _ (seen_type s)); now exists f).
  destruct (String.eqb_spec (type_name_of s) "") as [E|E].
  - rewrite E in N. inversion N; subst; try reflexivity; contradiction.
  - apply nearest_kind; [exact W|exact N|]. exists s. repeat split; auto.
Qed.

(** * Registries that hold every type, converted or not *)
Lemma base_reserved : forall n, In n (map fst base_types) -> is_reserved n = true.
Proof. intros n H. cbn in H. repeat (destruct H as [<-|H]; [reflexivity|]). destruct H. Qed.
Lemma base_entry : forall n e, In (n, e) base_types -> is_reserved (ename e) = true /\ is_reserved n = true.
Proof. intros n e H. cbn in H. repeat (destruct H as [H|H]; [injection H as <- <-; split; reflexivity|]). destruct H. Qed.
Lemma base_dec : forall n, (exists e, In (n, e) base_types) \/ ~ In n (map fst base_types).
Proof.
  intros n. destruct (in_dec string_dec n (map fst base_types)) as [H|H]; [left|now right]. apply in_map_iff in H as ([m e] & <- & H). now exists e.
Qed.
Definition entry_ok (ds : list structure) (n : string) (e : element) : Prop :=
  exists k, type_kind ds n k /\ ekind e = k /\
    (is_reserved (ename e) = true \/ exists s, In s ds /\ is_called n s /\ base_of s = UndefinedTN /\ ename e = parent_of s /\ parent_of s <> ""%string).
Definition entry_fine (ds : list structure) (n : string) (e : element) : Prop := if String.eqb n "" then e = nameless else entry_ok ds n e.
Definition inv (ds : list structure) (r : registry) : Prop :=
  NoDup (map fst r) /\ (forall n e, In (n, e) base_types -> rfind r n = Some e) /\
  (forall n, ~ In n (map fst base_types) -> match rfind r n with None => forall s, In s ds -> type_name_of s <> n | Some e => (exists s, In s ds /\ type_name_of s = n) /\ entry_fine ds n e end).

Section Roots.
  Context (ds : list structure) (W : well_declared ds) (R : none_reserved ds).
  Lemma not_base : forall s, In s ds -> ~ In (type_name_of s) (map fst base_types).
  Proof. intros s Hs H. apply base_reserved in H. now rewrite (R s Hs) in H. Qed.
  Lemma root_ends : forall a k, type_kind ds a k -> exists F, forall r, inv ds r -> forall e, rfind r a = Some e -> forall f, F <= f -> exists x, find_root_from f r a e = Some x /\ ekind x = k.
  Proof.
    intros a k K0. assert (Here : forall a k r e, type_kind ds a k -> inv ds r -> rfind r a = Some e -> ekind e = k /\
      (is_reserved (ename e) = true \/ exists s, In s ds /\ is_called a s /\ base_of s = UndefinedTN /\ ename e = parent_of s /\ parent_of s <> ""%string)).
    { clear a k K0. intros a k r e K (_ & _ & I) E. destruct (type_kind_called _ _ _ K) as (s & Hs & C1 & C2). subst a. specialize (I _ (not_base s Hs)). rewrite E in I. destruct I as [_ I]. unfold entry_fine in I.
      rewrite (proj2 (String.eqb_neq _ _) C2) in I. destruct I as (k' & K' & E' & O). rewrite (type_kind_fun ds W _ _ K _ K'). now split. }
    induction K0 as [s a Hs C B|s a Hs C B P|s a Hs C B P|a p k HP K IH].
    1-3: exists 1%nat; intros r I e E [|f] L; [lia|]; cbn [find_root_from].
    - destruct (Here a _ r e (tk_base ds s a Hs C B) I E) as [Ek [O|(s' & Hs' & C' & B' & _)]]; [rewrite O; eauto|]. assert (s = s') by (eapply (called_once ds W); eassumption). subst s'. contradiction.
    - destruct (Here a _ r e (tk_object ds s a Hs C B P) I E) as [Ek [O|(s' & Hs' & C' & B' & _ & N)]]; [rewrite O; eauto|]. assert (s = s') by (eapply (called_once ds W); eassumption). subst s'. contradiction.
    - destruct (Here a _ r e (tk_unknown ds s a Hs C B P) I E) as [Ek [O|(s' & Hs' & C' & B' & P' & N)]]; [rewrite O; eauto|]. assert (s = s') by (eapply (called_once ds W); eassumption). subst s'.
      destruct (is_reserved (ename e)); [eauto|]. destruct I as (_ & _ & I). specialize (I (parent_of s) (proj1 (proj2 (proj2 W)) s Hs ltac:(destruct C as [-> ?]; assumption))). rewrite P'. destruct (rfind r (parent_of s)) as [x|]; [|eauto].
      exfalso. destruct I as [(y & Hy & Ey) _]. now apply (P y Hy).
    - destruct IH as (F & IH). exists (S F). intros r I e E [|f] L; [lia|]. cbn [find_root_from].
      destruct (Here a _ r e (tk_parent ds a p k HP K) I E) as [Ek [O|(s & Hs & C & B & P & N)]]; [rewrite O; eauto|].
      destruct HP as (s' & Hs' & C' & B' & P' & N'). assert (s = s') by (eapply (called_once ds W); eassumption). subst s'.
      destruct (is_reserved (ename e)); [eauto|]. rewrite P, P'. destruct (rfind r p) as [x|] eqn:Ex; [|eauto]. destruct (String.eqb_spec p a) as [->|Np].
      { eauto. }
      apply IH; [exact I|exact Ex|lia].
  Qed.
  Lemma roots : exists F, (1 <= F)%nat /\ forall a k, type_kind ds a k -> forall r, inv ds r -> forall e, rfind r a = Some e -> forall f, F <= f -> exists x, find_root_from f r a e = Some x /\ ekind x = k.
  Proof.
    assert (G : forall l, incl l ds -> exists F, (1 <= F)%nat /\ forall s, In s l -> forall k, type_kind ds (type_name_of s) k -> forall r, inv ds r -> forall e, rfind r (type_name_of s) = Some e ->
      forall f, F <= f -> exists x, find_root_from f r (type_name_of s) e = Some x /\ ekind x = k).
    { induction l as [|s l IH]; intros I; [exists 1%nat; split; [lia|]; intros s []|]. destruct IH as (F & F1 & IH); [intros x Hx; apply I; now right|].
      destruct (string_dec (type_name_of s) "") as [E|N].
      { exists F. split; [exact F1|]. intros x [<-|Hx]; [|now apply IH]. intros k K. exfalso. destruct (type_kind_called _ _ _ K) as (y & _ & _ & C). contradiction. }
      destruct (type_kind_total ds W (type_name_of s)) as (k & K); [exists s; split; [apply I; now left|now split]|]. destruct (root_ends _ _ K) as (F' & H). exists (max F F'). split; [lia|].
      intros x [<-|Hx] k' K' r Hr e E f L; [|apply (IH x Hx k' K' r Hr e E); lia]. rewrite (type_kind_fun ds W _ _ K' _ K). apply (H r Hr e E). lia. }
    destruct (G ds (incl_refl _)) as (F & F1 & H). exists F. split; [exact F1|]. intros a k K. destruct (type_kind_called _ _ _ K) as (s & Hs & <- & _). now apply H.
  Qed.
  Definition expected (n : string) (o : option element) : Prop :=
    (exists e, In (n, e) base_types /\ o = Some e) \/
    (~ In n (map fst base_types) /\ match o with
       | None => forall s, In s ds -> type_name_of s <> n
       | Some x => (n = ""%string /\ (exists s, In s ds /\ type_name_of s = n) /\ ekind x = KObject) \/ type_kind ds n (ekind x)
       end).
  Lemma expected_kind : forall n o o', expected n o -> expected n o' -> option_map ekind o = option_map ekind o'.
  Proof.
    intros n o o' [(e & H & ->)|[H1 H2]] [(e' & H' & ->)|[H1' H2']].
    - assert (e = e'); [|now subst]. cbn in H, H'. repeat (destruct H as [H|H]; [injection H as <- <-; repeat (destruct H' as [H'|H']; [congruence|]); destruct H'|]). destruct H.
    - exfalso. apply H1'. apply in_map_iff. now exists (n, e).
    - exfalso. apply H1. apply in_map_iff. now exists (n, e').
    - destruct o as [x|], o' as [x'|]; cbn; [|exfalso|exfalso|reflexivity].
      + destruct H2 as [(E & _ & K)|K], H2' as [(E' & _ & K')|K'].
        * congruence.
        * exfalso. subst n. destruct (type_kind_called _ _ _ K') as (s & _ & _ & C). now apply C.
        * exfalso. subst n. destruct (type_kind_called _ _ _ K) as (s & _ & _ & C). now apply C.
        * f_equal. now apply (type_kind_fun ds W n).
      + destruct H2 as [(_ & (s & Hs & E) & _)|K]; [now apply (H2' s)|]. destruct (type_kind_called _ _ _ K) as (s & Hs & C & _). now apply (H2' s).
      + destruct H2' as [(_ & (s & Hs & E) & _)|K]; [now apply (H2 s)|]. destruct (type_kind_called _ _ _ K) as (s & Hs & C & _). now apply (H2 s).
  Qed.
  Lemma ancestors : exists F, forall r, inv ds r -> forall f, F <= f -> forall n, exists o, FindRootAncestor f r n = Some o /\ expected n o.
  Proof.
    destruct roots as (F & F1 & H). exists F. intros r I f L n. unfold FindRootAncestor. destruct (base_dec n) as [(e & B)|B].
    - assert (E : rfind r n = Some e) by now apply (proj1 (proj2 I)). rewrite E. exists (Some e). split; [|left; now exists e]. destruct f as [|f]; [lia|]. cbn [find_root_from].
      now rewrite (proj1 (base_entry n e B)).
    - assert (G := proj2 (proj2 I) n B). destruct (rfind r n) as [e|] eqn:E; [|exists None; split; [reflexivity|right; now split]]. destruct G as [D G]. unfold entry_fine in G.
      destruct (String.eqb_spec n "") as [->|N].
      + subst e. exists (Some nameless). split; [destruct f as [|f]; [lia|reflexivity]|]. right. split; [exact B|]. left. split; [reflexivity|]. now split.
      + destruct G as (k & K & _). destruct (H n k K r I e E f L) as (x & Hx & Kx). rewrite Hx. exists (Some x). split; [reflexivity|]. right. split; [exact B|]. right. now rewrite Kx.
  Qed.
  Lemma same_conversion : forall F, (forall r, inv ds r -> forall f, F <= f -> forall n, exists o, FindRootAncestor f r n = Some o /\ expected n o) ->
    forall f f' r r' s, F <= f -> F <= f' -> inv ds r -> inv ds r' -> structure_to_refract f r s = structure_to_refract f' r' s.
  Proof.
    intros F H f f' r r' s L L' I I'. apply structure_kinds. intros n. unfold root_kind, root_ancestor. destruct (H r I f L n) as (o & -> & E). destruct (H r' I' f' L' n) as (o' & -> & E').
    cbn. now rewrite (expected_kind n o o' E E').
  Qed.
End Roots.

(** * The first pass *)
Definition held (ds done : list structure) (r : registry) : Prop :=
  NoDup (map fst r) /\ (forall n e, In (n, e) base_types -> rfind r n = Some e) /\
  (forall n, ~ In n (map fst base_types) -> match rfind r n with None => forall s, In s done -> type_name_of s <> n | Some e => (exists s, In s done /\ type_name_of s = n) /\ entry_fine ds n e end).
Lemma stub_is : forall b s, stub b s = Elem (kind_name (kind_of b)) [("id"%string, str_elem (type_name_of s))] [] false (dsd_default (kind_of b)).
Proof. intros [] s; reflexivity. Qed.
Lemma stub_id : forall b s, element_id (stub b s) = Ok (type_name_of s).
Proof. intros b s. now rewrite stub_is. Qed.
Lemma kind_reserved : forall b, is_reserved (kind_name (kind_of b)) = true.
Proof. intros []; reflexivity. Qed.
Lemma held_start : forall ds, held ds [] base_types.
Proof.
  intros ds. split; [cbn; repeat constructor; cbn; intuition discriminate|]. split.
  - intros n e H. cbn in H. repeat (destruct H as [H|H]; [injection H as <- <-; reflexivity|]). destruct H.
  - intros n H. unfold rfind. rewrite (proj2 (ifind_None_keys _ base_types n) H). intros s [].
Qed.
Lemma preregister_step : forall ds f done r s, well_declared ds -> In s ds -> is_reserved (type_name_of s) = false -> held ds done r ->
  (exists b, first_type f (map seen_type ds) (seen_type s) = Some b) -> exists r', preregister f ds r s = ([], Done r') /\ held ds (done ++ [s]) r'.
Proof.
  intros ds f done r s W Hs R (H1 & H2 & H3) (b & B). unfold preregister. rewrite B. unfold add_type, radd. rewrite stub_id, R.
  assert (NB : ~ In (type_name_of s) (map fst base_types)) by (intros C; apply base_reserved in C; congruence).
  assert (G := H3 _ NB). destruct (rfind r (type_name_of s)) as [e|] eqn:E.
  - exists r. split; [reflexivity|]. split; [exact H1|]. split; [exact H2|]. intros n N. specialize (H3 n N). destruct (rfind r n) as [x|] eqn:En.
    + destruct H3 as [(y & Hy & Ey) F]. split; [|exact F]. exists y. split; [apply in_or_app; now left|exact Ey].
    + intros y Hy. apply in_app_or in Hy as [Hy|[<-|[]]]; [now apply H3|]. intros C. congruence.
  - exists (iset r (type_name_of s) (stub b s)). split; [reflexivity|]. split; [now apply keys_iset|]. split.
    + intros n e Hn. unfold rfind. rewrite ifind_iset. destruct (String.eqb_spec (type_name_of s) n) as [E1|_]; [|now apply H2]. exfalso. apply NB, in_map_iff. now exists (n, e).
    + intros n N. unfold rfind. rewrite ifind_iset. destruct (String.eqb_spec (type_name_of s) n) as [<-|Nn].
      * split; [exists s; split; [apply in_or_app; right; now left|reflexivity]|]. pose proof (first_kind ds f s b W Hs B) as K. unfold entry_fine. destruct (String.eqb (type_name_of s) "") eqn:E0.
        -- apply String.eqb_eq in E0. rewrite K, stub_is, E0. reflexivity.
        -- exists (kind_of b). split; [exact K|]. rewrite stub_is. split; [destruct b; reflexivity|left; apply kind_reserved].
      * specialize (H3 n N). unfold rfind in H3. destruct (ifind r n) as [x|].
        -- destruct H3 as [(y & Hy & Ey) F]. split; [|exact F]. exists y. split; [apply in_or_app; now left|exact Ey].
        -- intros y Hy. apply in_app_or in Hy as [Hy|[<-|[]]]; [now apply H3|exact Nn].
Qed.
Lemma xbind_done : forall A B w (a : A) (g : A -> X B), xbind (w, Done a) g = (w ++ fst (g a), snd (g a))%list.
Proof. intros A B w a g. unfold xbind. cbn. now destruct (g a). Qed.
Lemma xbind_quiet : forall A B (a : A) (g : A -> X B), xbind ([], Done a) g = g a.
Proof. intros A B a g. rewrite xbind_done. cbn. now destruct (g a). Qed.
Lemma preregister_all : forall ds f, well_declared ds -> (forall s, In s ds -> exists b, first_type f (map seen_type ds) (seen_type s) = Some b) ->
  forall l done r, incl l ds -> (forall s, In s l -> is_reserved (type_name_of s) = false) -> held ds done r -> exists r', xfold (preregister f ds) r l = ([], Done r') /\ held ds (done ++ l) r'.
Proof.
  intros ds f W B. induction l as [|s l IH]; intros done r I R H.
  - exists r. split; [reflexivity|]. now rewrite app_nil_r.
  - destruct (preregister_step ds f done r s W (I s (or_introl eq_refl)) (R s (or_introl eq_refl)) H (B s (I s (or_introl eq_refl)))) as (r1 & E1 & H1).
    destruct (IH (done ++ [s]) r1) as (r2 & E2 & H2); [intros x Hx; apply I; now right|intros x Hx; apply R; now right|exact H1|].
    exists r2. cbn [xfold]. rewrite E1, xbind_quiet. split; [exact E2|]. now rewrite <- app_assoc in H2.
Qed.
Lemma xfold_app : forall A B (g : A -> B -> X A) l a m, xfold g a (l ++ m) = xbind (xfold g a l) (fun a' => xfold g a' m).
Proof.
  induction l as [|x l IH]; intros a m; cbn [app xfold]; [change (@xret A a) with (([], Done a) : X A); now rewrite xbind_quiet|]. destruct (g a x) as [w [b| | | | |]] eqn:E; unfold xbind at 1 3; cbn [fst snd]; try (unfold xbind; reflexivity).
  rewrite IH. destruct (xfold g b l) as [w1 [c| | | | |]] eqn:E1; unfold xbind; cbn; try reflexivity. destruct (xfold g c m) as [w2 o]. now rewrite app_assoc.
Qed.

(** * The second pass *)
Section Second.
  Context (ds : list structure) (W : well_declared ds) (R : none_reserved ds) (F : nat)
    (HF : forall r, inv ds r -> forall f, F <= f -> forall n, exists o, FindRootAncestor f r n = Some o /\ expected ds n o).
  Context (f : nat) (L : F <= f).
  Lemma known_expected : forall r n k, inv ds r -> known f r n k -> ~ In n (map fst base_types) -> n <> ""%string -> type_kind ds n k.
  Proof.
    intros r n k I (e & E & <- & _) B N. destruct (HF r I f L n) as (o & E' & X). rewrite E in E'. injection E' as <-. destruct X as [(x & Hx & _)|[_ [(C & _)|X]]]; [|contradiction|exact X].
    exfalso. apply B, in_map_iff. now exists (n, x).
  Qed.
  Lemma kinds_value : forall n k, type_kind ds n k -> In k [KBoolean; KNumber; KString; KArray; KEnum; KObject].
  Proof. intros n k H. induction H as [s a _ _ _| | |]; try (cbn; tauto). destruct (base_of s); cbn; tauto. Qed.
  Lemma structure_kind_type : forall r s k, inv ds r -> In s ds -> type_name_of s <> ""%string -> structure_kind f r (ds_type s) k -> type_kind ds (type_name_of s) k.
  Proof.
    intros r s k I Hs N K. assert (C : is_called (type_name_of s) s) by now split. destruct W as (_ & W2 & W3 & _).
    destruct K as [b Hb Nb|k B NL Kn|[B U]].
    - subst b. now apply tk_base.
    - apply tk_parent with (type_literal (ds_type s)); [now apply (parent_intro ds _ s)|]. apply (known_expected r); try assumption. apply (W3 s Hs N).
    - destruct (string_dec (parent_of s) "") as [E|E]; [now apply (tk_object ds s)|]. destruct U as [U|U]; [contradiction|].
      apply (tk_unknown ds s); try assumption. intros x Hx Cx.
      destruct (HF r I f L (parent_of s)) as (o & Eo & X). destruct X as [(y & Hy & _)|[_ X]]; [apply (W3 s Hs N), in_map_iff; now exists (parent_of s, y)|].
      destruct o as [y|].
      + destruct X as [(C0 & _)|X]; [contradiction|]. apply (U (ekind y)). exists y. split; [exact Eo|]. split; [reflexivity|]. now apply (kinds_value _ _ X).
      + now apply (X x Hx), Cx.
  Qed.
  Lemma converted_id : forall r s e w, structure_to_refract f r s = ret (Some e, w) -> type_name_of s <> ""%string -> element_id e = Ok (type_name_of s).
  Proof.
    intros r s e w H N. pose proof (C57_structure f r s _ w H) as (_ & k & _ & _ & _ & _ & _ & _ & M & _). unfold element_id. unfold meta in M. rewrite M. unfold id_element, type_name_of in *.
    destruct (s_literal (n_symbol (ds_name s))) eqn:E; [contradiction|]. reflexivity.
  Qed.
  Lemma converted_some : forall r s o w, structure_to_refract f r s = ret (o, w) -> type_name_of s <> ""%string -> exists e, o = Some e.
  Proof.
    intros r s o w H N. pose proof (C57_structure f r s _ w H) as C. destruct o as [e|]; [now exists e|]. exfalso. destruct C as [C _]. unfold structure_empty, type_name_of in *.
    apply andb_true_iff in C as [C _]. apply andb_true_iff in C as [_ C]. unfold name_empty, symbol_empty in C. destruct (n_base (ds_name s)); try discriminate. apply andb_true_iff in C as [C _]. now apply String.eqb_eq in C.
  Qed.
  (** what the definition of one type does *)
  Lemma define_step : forall r s, inv ds r -> In s ds ->
    (type_name_of s = ""%string /\ define f r s = xret r) \/
    (type_name_of s <> ""%string /\ exists e w r', structure_to_refract f r s = ret (Some e, w) /\ define f r s = (w, Done r') /\ inv ds r' /\
       (forall n, rfind r' n = if String.eqb (type_name_of s) n then Some e else rfind r n)) \/
    (exists m, structure_to_refract f r s = Some (Throws m) /\ define f r s = ([], Fails m)) \/
    (structure_to_refract f r s = Some Undefined /\ define f r s = ([], Breaks)).
  Proof.
    intros r s I Hs. unfold define. destruct (String.eqb_spec (type_name_of s) "") as [E|N]; [now left|right].
    assert (T : structure_to_refract f r s <> None).
    { apply structure_ends. intros n. destruct (HF r I f L n) as (o & -> & _). discriminate. }
    destruct (structure_to_refract f r s) as [[[o w]|m|]|] eqn:E; [left|right; left|right; right|now destruct T].
    2:{ exists m. now split. }
    2:{ now split. }
    split; [exact N|]. destruct (converted_some r s o w E N) as (e & ->). assert (Id := converted_id r s e w E N).
    cbn [of_mson]. rewrite xbind_done. unfold add_type, radd. rewrite Id, (R s Hs).
    assert (NB := not_base ds R s Hs). pose proof I as (I1 & I2 & I3). assert (D := I3 _ NB). unfold rremove.
    destruct (rfind r (type_name_of s)) as [x|] eqn:Ex; [|exfalso; now apply (D s Hs)]. cbn [snd].
    destruct (ierase1_spec _ r (type_name_of s) I1) as (J1 & _ & J3).
    assert (Z : rfind (ierase1 r (type_name_of s)) (type_name_of s) = None) by (unfold rfind; now rewrite J3, String.eqb_refl). rewrite Z.
    exists e, w, (iset (ierase1 r (type_name_of s)) (type_name_of s) e). split; [reflexivity|]. split; [cbn; now rewrite app_nil_r|].
    assert (G : forall n, rfind (iset (ierase1 r (type_name_of s)) (type_name_of s) e) n = if String.eqb (type_name_of s) n then Some e else rfind r n).
    { intros n. unfold rfind. rewrite ifind_iset, J3. now destruct (String.eqb (type_name_of s) n). }
    split; [|exact G]. split; [now apply keys_iset|]. split.
    - intros n b Hn. rewrite G. destruct (String.eqb_spec (type_name_of s) n) as [<-|_]; [|now apply I2]. exfalso. apply NB, in_map_iff. now exists (type_name_of s, b).
    - intros n Hn. rewrite G. destruct (String.eqb_spec (type_name_of s) n) as [<-|_]; [|now apply I3]. split; [now exists s|]. unfold entry_fine. rewrite (proj2 (String.eqb_neq _ _) N).
      pose proof (C57_structure f r s _ w E) as (_ & k & K1 & K2 & K3 & _). exists k. split; [now apply (structure_kind_type r)|]. split; [exact K2|].
      rewrite K3. unfold label. destruct (String.eqb_spec (type_literal (ds_type s)) "") as [El|El].
      + left. apply kind_name_reserved. intros ->. apply (structure_kind_type r s KHolder I Hs N), kinds_value in K1. cbn in K1. intuition discriminate.
      + right. exists s. split; [exact Hs|]. split; [now split|]. split; [|now split]. destruct (proj1 (proj2 W) s Hs N) as [B|B]; [exact B|contradiction].
  Qed.
  (** what the definition of every type does: [r0] is any registry that holds every type *)
  Context (r0 : registry) (I0 : inv ds r0).
  Definition converts (s : structure) (v : list annotation) : Prop :=
    if String.eqb (type_name_of s) "" then v = [] else exists e, structure_to_refract f r0 s = ret (Some e, v).
  Lemma same : forall r s, inv ds r -> structure_to_refract f r s = structure_to_refract f r0 s.
  Proof. intros r s I. now apply (same_conversion ds W F HF). Qed.
  Lemma define_all : forall l r, inv ds r -> incl l ds ->
    (exists r' ws, xfold (define f) r l = (concat ws, Done r') /\ inv ds r' /\ Forall2 converts l ws /\
      (forall s, In s l -> type_name_of s <> ""%string -> exists e w, structure_to_refract f r0 s = ret (Some e, w) /\ rfind r' (type_name_of s) = Some e) /\
      (forall n, (forall s, In s l -> type_name_of s <> ""%string -> type_name_of s <> n) -> rfind r' n = rfind r n)) \/
    (exists p s q ws, l = p ++ s :: q /\ Forall2 converts p ws /\ type_name_of s <> ""%string /\
      ((exists m, structure_to_refract f r0 s = Some (Throws m) /\ xfold (define f) r l = (concat ws, Fails m)) \/
       (structure_to_refract f r0 s = Some Undefined /\ xfold (define f) r l = (concat ws, Breaks)))).
  Proof.
    induction l as [|s l IH]; intros r I L'.
    - left. exists r, []. split; [reflexivity|]. split; [exact I|]. split; [constructor|]. split; [intros s []|reflexivity].
    - assert (Hs : In s ds) by (apply L'; now left). assert (Ll : incl l ds) by (intros x Hx; apply L'; now right). cbn [xfold].
      assert (N : type_name_of s = ""%string \/ type_name_of s <> ""%string) by (destruct (string_dec (type_name_of s) ""); auto).
      destruct (define_step r s I Hs) as [[E D]|[(E & e & w & r' & C & D & I' & G)|[(m & C & D)|[C D]]]].
      + rewrite D. unfold xret. rewrite xbind_quiet. assert (K : converts s []) by (unfold converts; rewrite E; reflexivity).
        destruct (IH r I Ll) as [(r1 & ws & E1 & I1 & F1 & G1 & U1)|(p & s' & q & ws & -> & F1 & N1 & O)].
        * left. exists r1, ([] :: ws). split; [exact E1|]. split; [exact I1|]. split; [now constructor|]. split.
          -- intros x [<-|Hx] Nx; [contradiction|now apply G1].
          -- intros n Hn. apply U1. intros x Hx. apply Hn. now right.
        * right. exists (s :: p), s', q, ([] :: ws). split; [reflexivity|]. split; [now constructor|]. now split.
      + rewrite D, xbind_done. rewrite (same r s I) in C. assert (K : converts s w) by (unfold converts; rewrite (proj2 (String.eqb_neq _ _) E); now exists e).
        destruct (IH r' I' Ll) as [(r1 & ws & E1 & I1 & F1 & G1 & U1)|(p & s' & q & ws & -> & F1 & N1 & O)].
        * left. exists r1, (w :: ws). rewrite E1. split; [reflexivity|]. split; [exact I1|]. split; [now constructor|]. split.
          -- intros x [<-|Hx] Nx; [|now apply G1]. exists e, w. split; [exact C|].
             destruct (in_dec string_dec (type_name_of s) (map type_name_of l)) as [Q|Q].
             ++ apply in_map_iff in Q as (y & Ey & Hy). destruct (G1 y Hy) as (e' & w' & C' & R'); [congruence|]. assert (y = s).
                { apply (called_once ds W (type_name_of s)); [now apply Ll|exact Hs|now split|now split]. } subst y. rewrite R'. rewrite C in C'. unfold ret in C'. congruence.
             ++ rewrite U1, G, String.eqb_refl; [reflexivity|]. intros y Hy _ Ey. apply Q. rewrite <- Ey. now apply in_map.
          -- intros n Hn. rewrite U1; [|intros x Hx; apply Hn; now right]. rewrite G. rewrite (proj2 (String.eqb_neq _ _)); [reflexivity|]. apply Hn; [now left|exact E].
        * right. exists (s :: p), s', q, (w :: ws). split; [reflexivity|]. split; [now constructor|]. split; [exact N1|].
          destruct O as [(m & C' & ->)|(C' & ->)]; [left; exists m|right]; now split.
      + assert (E : type_name_of s <> ""%string) by (intros E; unfold define in D; rewrite E in D; discriminate). right. exists [], s, l, []. rewrite D. rewrite (same r s I) in C.
        split; [reflexivity|]. split; [constructor|]. split; [exact E|]. left. exists m. now split.
      + assert (E : type_name_of s <> ""%string) by (intros E; unfold define in D; rewrite E in D; discriminate). right. exists [], s, l, []. rewrite D. rewrite (same r s I) in C.
        split; [reflexivity|]. split; [constructor|]. split; [exact E|]. right. now split.
  Qed.
End Second.
Lemma held_inv : forall ds order r, Permutation ds order -> held ds order r -> inv ds r.
Proof.
  intros ds order r P (H1 & H2 & H3). split; [exact H1|]. split; [exact H2|]. intros n N. specialize (H3 n N). destruct (rfind r n) as [e|].
  - destruct H3 as [(s & Hs & E) G]. split; [|exact G]. exists s. split; [|exact E]. now apply Permutation_in with order; [apply Permutation_sym|].
  - intros s Hs. apply H3. now apply Permutation_in with ds.
Qed.
