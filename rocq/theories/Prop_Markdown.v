(** C73: the Markdown tree *)
From Verif Require Import Base ByteBuffer ByteSpec ByteProofs Prop_Bytes StringProofs Markdown MarkdownSpec MarkdownProofs MarkdownTree.
Local Open Scope N_scope.

(** For every document the tree in memory is the one described, rooted at the node given; every node but the root has the node it is a
    child of as its parent, and the parser is ready for the next block of the document. *)
Theorem C73_tree : forall source bs, slen source + 1 < 2 ^ 64 -> Forall (all_places (placed (slen source))) bs ->
  exists s, parse source (concat (map events bs)) = Good s /\ stores (s_heap s) 0%nat (document source bs) /\ s_working s = Some 0%nat /\ s_list s = false.
Proof.
  intros source bs L F. pose proof (parse_sim source (concat (map events bs))) as A. rewrite (document_ok source L bs F) in A.
  destruct (parse source (concat (map events bs))) as [s| | | | | ]; try contradiction. exists s. split; [reflexivity|]. cbn [agree] in A.
  destruct A as (a0 & l0 & W & Ls & (p & cs & l1 & l2 & R & C & -> & -> & -> & ->) & N & _). cbn [opt fst snd] in *. rewrite app_nil_r in *.
  split; [|now split]. exists (0%nat :: l1). split; [|exact N]. econstructor; [exact R|exact C].
Qed.

(** ** Every list item begins with a paragraph *)
Definition item_titled (t : tree) : Prop :=
  node_kind t = ItemNode -> exists p r, node_children t = p :: r /\ node_kind p = ParagraphNode.
Lemma every_children : forall P cs, fold_right (fun c r => every_node P c /\ r) True cs <-> Forall (every_node P) cs.
Proof.
  intros P cs. induction cs as [|c cs IH]; cbn [fold_right]; [now split|]. rewrite IH. split; [intros [A B]; now constructor|]. intros H. now inversion H.
Qed.
Lemma every_tree : forall P ty tx d m cs, every_node P (Tree ty tx d m cs) <-> P (Tree ty tx d m cs) /\ Forall (every_node P) cs.
Proof. intros. cbn [every_node]. rewrite every_children. reflexivity. Qed.
(** what holds of every node while the tree grows *)
Section Growing.
  Variables (source : string) (P : tree -> Prop).
  Hypothesis Leaf_ok : forall l, P (leaf_tree l).
  Hypothesis Para_ok : forall t, P (Tree ParagraphNode t 0 [] []).
  Hypothesis Quote_ok : forall t cs, P (Tree QuoteNode t 0 [] cs).
  Hypothesis Item_ok : forall f t cs, P (Tree ItemNode "" f [] (titled t cs)).
  Variable Q : list range -> Prop.
  Hypothesis Place_ok : forall m w t, Q m -> inside (slen source) m = Some w -> every_node P t -> every_node P (locate source m w t).
  Lemma finish_every : forall m ts, Q m -> Forall (every_node P) ts -> Forall (every_node P) (finish source m ts).
  Proof.
    intros m ts Hm F. unfold finish. destruct (rev ts) as [|t r] eqn:E; [exact F|]. destruct (inside (slen source) m) as [w|] eqn:W; [|exact F].
    assert (T : ts = (rev r ++ [t])%list) by (rewrite <- (rev_involutive ts), E; reflexivity). subst ts. apply Forall_app in F as [F1 F2]. inversion F2; subst.
    apply Forall_app. split; [exact F1|]. constructor; [now apply Place_ok|constructor].
  Qed.
  Lemma titled_every : forall t ts, Forall (every_node P) ts -> Forall (every_node P) (titled t ts).
  Proof.
    intros t ts F. assert (K : Forall (every_node P) (Tree ParagraphNode t 0 [] [] :: ts)).
    { constructor; [|exact F]. apply every_tree. split; [apply Para_ok|constructor]. }
    unfold titled. destruct ts as [|[ty tx d m cs] ts]; [exact K|]. destruct ty; try exact K. exact F.
  Qed.
  Lemma grow_every : forall b ts, all_places Q b -> Forall (every_node P) ts -> Forall (every_node P) (grow source ts b).
  Proof.
    fix IH 1. intros b ts H F.
    assert (Snoc : forall t, every_node P t -> Forall (every_node P) (ts ++ [t])) by (intros t T; apply Forall_app; split; [exact F|repeat constructor; exact T]).
    destruct b as [l m|inner t m|items m|f f' inner t m|m]; cbn [all_places grow] in *.
    - apply finish_every; [exact H|]. apply Snoc. pose proof (Leaf_ok l) as L. destruct l; cbn [leaf_tree] in *; apply every_tree; (split; [exact L|constructor]).
    - destruct H as [H1 H2]. apply finish_every; [exact H1|]. apply Snoc. apply every_tree. split; [apply Quote_ok|].
      assert (K : Forall (every_node P) []) by constructor. revert H2 K. generalize (@nil tree). clear -IH.
      induction inner as [|b bs I]; intros acc H K; [exact K|]. cbn [fold_right fold_left] in *. apply I; [tauto|]. apply IH; tauto.
    - destruct H as [_ H2]. revert ts H2 F Snoc. clear -IH. induction items as [|b bs I]; intros acc H K _; [exact K|]. cbn [fold_right fold_left] in *.
      apply I; [tauto|apply IH; tauto|intros t T; apply Forall_app; split; [apply IH; tauto|repeat constructor; exact T]].
    - destruct H as [H1 H2]. apply finish_every; [exact H1|]. apply Snoc. apply every_tree. split; [apply Item_ok|]. apply titled_every.
      assert (K : Forall (every_node P) []) by constructor. revert H2 K. generalize (@nil tree). clear -IH.
      induction inner as [|b bs I]; intros acc H K; [exact K|]. cbn [fold_right fold_left] in *. apply I; [tauto|]. apply IH; tauto.
    - now apply finish_every.
  Qed.
  Lemma document_every : forall bs, P (document source bs) -> Forall (all_places Q) bs -> every_node P (document source bs).
  Proof.
    intros bs R F. apply every_tree. split; [exact R|]. assert (K : Forall (every_node P) []) by constructor. revert F K. generalize (@nil tree). clear R.
    induction bs as [|b bs I]; intros acc H K; [exact K|]. inversion H; subst. cbn [fold_left]. apply I; [assumption|]. now apply grow_every.
  Qed.
End Growing.
Theorem C73_items : forall source bs, every_node item_titled (document source bs).
Proof.
  intros source bs. apply (document_every source item_titled) with (Q := fun _ => True); try discriminate.
  - intros []; discriminate.
  - intros f t cs _. cbn [node_children]. unfold titled. destruct cs as [|[ty tx d m cs'] cs]; [now exists (Tree ParagraphNode t 0 [] []), []|].
    destruct ty; try (now eexists _, _). 
  - intros m w [ty tx d m0 cs] _ _ E. apply every_tree in E as [E1 E2]. cbn [locate]. apply every_tree.
    destruct ty; try (split; [discriminate|exact E2]). destruct cs as [|[ty' tx' d' m' cs'] r]; [now split|]. destruct m' as [|x m']; [|now split]. split.
    + intros _. destruct (E1 eq_refl) as (p & r' & K & Kp). cbn [node_children] in *. injection K as <- <-. eexists _, _. split; [reflexivity|exact Kp].
    + inversion E2 as [|? ? E3 E4]; subst. constructor; [|exact E4]. apply every_tree in E3 as [E3 E5]. apply every_tree. split; [|exact E5]. exact E3.
  - clear. induction bs as [|b bs IH]; constructor; [|exact IH]. clear. revert b. fix IH 1. intros [l m|inner t m|items m|f f' inner t m|m]; cbn [all_places]; try exact I;
      (split; [exact I|]); [induction inner as [|b bs K]|induction items as [|b bs K]|induction inner as [|b bs K]]; cbn [fold_right]; try exact I; (split; [apply IH|exact K]).
Qed.

(** ** Places lie within the source; those of paragraphs may go one byte further *)
Definition well_placed (source : string) (t : tree) : Prop :=
  Forall (fun r => location r + length r <= slen source + 1) (node_place t) /\
  (node_kind t <> ParagraphNode -> Forall (fun r => location r + length r <= slen source) (node_place t)).
Lemma join_below : forall n a b, Forall (fun r => location r + length r <= n) a -> Forall (fun r => location r + length r <= n) b ->
  Forall (fun r => location r + length r <= n) (join a b).
Proof.
  intros n a b A B. unfold join. destruct (rev a) as [|x r] eqn:E; [now apply Forall_app|]. destruct b as [|v b]; [now rewrite app_nil_r|].
  assert (T : a = (rev r ++ [x])%list) by (rewrite <- (rev_involutive a), E; reflexivity). destruct (N.eqb_spec (location v) (location x + length x)) as [Q|Q]; [|now apply Forall_app].
  subst a. apply Forall_app in A as [A1 A2]. inversion B; subst. apply Forall_app. split; [exact A1|]. constructor; [cbn; lia|assumption].
Qed.
Lemma text_place_reach : forall source m t, placed (slen source) m -> reach source (text_place source m t).
Proof.
  intros source m t P. pose proof (placed_reach source m P) as R. unfold text_place. destruct (index 0 t (text_at source (covered m))) as [pos|] eqn:E; [|exact R].
  destruct m as [|f m]; [exact R|]. apply index_bound in E. pose proof (text_at_length source (covered (f :: m))) as L.
  destruct P as (a & b & _ & A & _). pose proof (covered_length source _ f m _ eq_refl A R eq_refl) as K. unfold reach. repeat constructor. cbn [location length]. unfold slen in *. lia.
Qed.
Lemma every_impl : forall (P Q : tree -> Prop), (forall t, P t -> Q t) -> forall t, every_node P t -> every_node Q t.
Proof.
  intros P Q H. fix IH 1. intros [ty tx d m cs] E. apply every_tree in E as [E1 E2]. apply every_tree. split; [auto|].
  clear E1. induction cs as [|c cs K]; constructor; inversion E2; subst; auto.
Qed.
Theorem C73_within : forall source bs, Forall (all_places (placed (slen source))) bs -> every_node (well_placed source) (document source bs).
Proof.
  intros source bs F. apply (every_impl (fun t => item_titled t /\ well_placed source t)); [tauto|].
  assert (N : forall ty tx d cs, well_placed source (Tree ty tx d [] cs)) by (intros; split; [constructor|intros _; constructor]).
  apply (document_every source _) with (Q := placed (slen source)); try exact F.
  - intros []; (split; [discriminate|apply N]).
  - intros t. split; [discriminate|apply N].
  - intros t cs. split; [discriminate|apply N].
  - intros f t cs. split; [|apply N]. intros _. cbn [node_children]. unfold titled. destruct cs as [|[ty tx d m cs'] cs]; [now exists (Tree ParagraphNode t 0 [] []), []|].
    destruct ty; try (now eexists _, _).
  - intros m w [ty tx d m0 cs] Pm W E. apply every_tree in E as [[E0 [E1 E1']] E2]. destruct (inside_reach source m w Pm W) as [W1 W2]. cbn [node_place node_kind locate] in *. apply every_tree.
    assert (Wp : forall cs', well_placed source (Tree ty tx d (join m0 w) cs')).
    { intros cs'. split; cbn [node_place node_kind]; [now apply join_below|]. intros K. apply join_below; auto. }
    destruct ty; try (split; [split; [discriminate|apply Wp]|exact E2]). destruct cs as [|[ty' tx' d' m' cs'] r]; [split; [split; [exact E0|apply Wp]|exact E2]|].
    destruct m' as [|x m']; [|split; [split; [exact E0|apply Wp]|exact E2]].
    destruct (E0 eq_refl) as (p & r' & K & Kp). cbn [node_children] in K. injection K as <- <-. cbn [node_kind] in Kp. subst ty'. split; [split|].
    + intros _. eexists _, _. split; reflexivity.
    + apply Wp.
    + inversion E2 as [|? ? E3 E4]; subst. constructor; [|exact E4]. apply every_tree in E3 as [[E3 _] E5]. apply every_tree. split; [|exact E5].
      split; [discriminate|]. split; cbn [node_place node_kind]; [now apply text_place_reach|congruence].
  - split; [discriminate|]. split; [|intros _]; repeat constructor; cbn [location length]; lia.
Qed.
(** "- a" and a continuation line, without a line feed at the end: the place of the paragraph ends behind the source *)
Definition beyond : string := "- a" +++ String (chr 10) "  b".
Theorem C73_within_refuted : Forall (all_places (placed (slen beyond))) [ListBlock [Item 0 0 [] ("a" +++ String (chr 10) "b") [R 0 8]] [R 0 8]] /\
  document beyond [ListBlock [Item 0 0 [] ("a" +++ String (chr 10) "b") [R 0 8]] [R 0 8]] =
  Tree RootNode "" 0 [R 0 7] [Tree ItemNode "" 0 [R 0 7] [Tree ParagraphNode ("a" +++ String (chr 10) "b") 0 [R 0 8] []]].
Proof.
  assert (P : placed (slen beyond) [R 0 8]).
  { exists [], (R 0 8). change (slen beyond) with 7. repeat split; cbn; auto; lia. }
  split; [|vm_compute; reflexivity]. repeat constructor; exact P.
Qed.

(** ** The place of a paragraph added to an item: exactly its text, if the item is one range of the source and contains it *)
Lemma get_upfrom : forall s n p, (p + N.of_nat n <= slen s) -> String.length (text_at s (upfrom p n)) = n.
Proof.
  induction n as [|n IH]; intros p L; [reflexivity|]. cbn [upfrom text_at fold_right]. fold (text_at s (upfrom (p + 1) n)).
  assert (G : exists a, get (N.to_nat p) s = Some a).
  { unfold slen in L. assert (K : (N.to_nat p < String.length s)%nat) by lia. generalize (N.to_nat p) K. clear. induction s as [|x s IH]; intros [|k] H; cbn in *; try lia; [now exists x|].
    apply IH. lia. }
  destruct G as [a ->]. cbn [String.length]. rewrite IH by lia. reflexivity.
Qed.
Lemma substring_sub : forall s p n i k, (i + k <= n)%nat -> substring i k (substring p n s) = substring (p + i) k s.
Proof.
  assert (Z : forall s p, substring p 0 s = "") by (induction s as [|x s IH]; intros [|p]; cbn; auto).
  assert (Z' : forall p n, substring p n "" = "") by (intros [|p] [|n]; reflexivity).
  induction s as [|x s IH]; intros p n i k L.
  - now rewrite !Z'.
  - destruct p as [|p].
    + destruct n as [|n]; [assert (i = 0%nat /\ k = 0%nat) as [-> ->] by lia; now rewrite !Z|]. cbn [substring]. destruct i as [|i].
      * destruct k as [|k]; [reflexivity|]. cbn [substring Nat.add]. f_equal. change k with k. rewrite (IH 0%nat n 0%nat k) by lia. reflexivity.
      * cbn [substring Nat.add]. rewrite (IH 0%nat n i k) by lia. reflexivity.
    + cbn [substring Nat.add]. apply IH. exact L.
Qed.
Theorem C73_text : forall source ts f f' inner t r, placed (slen source) [r] -> location r < slen source ->
  (forall p l, fold_left (grow source) inner [] = p :: l -> node_kind p <> ParagraphNode) ->
  exists m w, grow source ts (Item f f' inner t [r]) =
      (ts ++ [Tree ItemNode "" f' w (Tree ParagraphNode t 0 m [] :: fold_left (grow source) inner [])])%list /\
    ((text_at source (covered m) = t /\ forall x, In x (covered m) -> In x (bytes_of r)) \/
     (m = [r] /\ forall a b, text_at source (bytes_of r) <> a +++ t +++ b)).
Proof.
  intros source ts f f' inner t r P Lr N. cbn [grow].
  assert (T : titled t (fold_left (grow source) inner []) = Tree ParagraphNode t 0 [] [] :: fold_left (grow source) inner []).
  { unfold titled. destruct (fold_left (grow source) inner []) as [|[ty tx d m cs] l]; [reflexivity|]. specialize (N _ _ eq_refl). cbn [node_kind] in N. now destruct ty. }
  rewrite T. unfold finish. rewrite rev_app_distr. cbn [rev app].
  assert (W : exists w, inside (slen source) [r] = Some w).
  { unfold inside. cbn [rev app]. destruct (location r + length r <=? slen source); [now eexists|]. destruct (N.ltb_spec (location r) (slen source)); [now eexists|lia]. }
  destruct W as [w ->]. rewrite rev_involutive. cbn [locate]. eexists _, _. split; [reflexivity|].
  pose proof P as (a & b & Eab & _ & _ & B1 & B2). destruct a as [|? [|]]; try discriminate. injection Eab as <-.
  unfold text_place, covered. cbn [map concat]. rewrite app_nil_r. destruct (index 0 t (text_at source (bytes_of r))) as [pos|] eqn:E.
  - left. pose proof (index_bound _ _ _ E) as Bd. pose proof (text_at_length source (bytes_of r)) as L1. unfold bytes_of in L1. rewrite upfrom_length in L1.
    cbn [map concat]. rewrite app_nil_r. unfold bytes_of at 1. cbn [location length]. rewrite text_at_substring. split.
    + unfold slen. rewrite Nat2N.id. apply index_correct1 in E. rewrite <- E at 2. unfold bytes_of. rewrite text_at_substring.
      unfold bytes_of in Bd. rewrite substring_sub by lia. f_equal. lia.
    + unfold bytes_of. cbn [location length]. unfold slen. rewrite Nat2N.id. intros x X.
      assert (U : forall n a, In x (upfrom a n) <-> a <= x < a + N.of_nat n).
      { clear. induction n as [|n IH]; intros a; cbn [upfrom In]; [lia|]. rewrite IH. lia. }
      apply U in X. apply U. unfold bytes_of in Bd. lia.
  - right. split; [reflexivity|]. intros a b K. destruct t as [|x t]; [|assert (D : String x t <> "") by discriminate; pose proof (index_none 0 _ _ D E a b K); lia].
    destruct (text_at source (bytes_of r)); discriminate.
Qed.
(** With several ranges the place may be somewhere else: here the text "b" is at 6, the place told is 4. *)
Theorem C73_text_refuted :
  placed 7 [R 0 3; R 5 2] /\
  document "- axx b" [ListBlock [Item 0 0 [] "b" [R 0 3; R 5 2]] [R 0 7]] =
    Tree RootNode "" 0 [R 0 7] [Tree ItemNode "" 0 [R 0 3; R 5 2] [Tree ParagraphNode "b" 0 [R 4 1] []]] /\
  text_at "- axx b" (covered [R 4 1]) = "x" /\ text_at "- axx b" (covered [R 6 1]) = "b".
Proof.
  split; [exists [R 0 3], (R 5 2); repeat split; cbn; auto; try lia; repeat constructor; cbn; lia|]. vm_compute. repeat split; reflexivity.
Qed.

(** ** Nothing of the source is lost or told twice: the places of the children of the root are, in order, those of the blocks *)
Fixpoint spots (len : N) (b : block) : list N :=
  match b with
  | Leaf _ m | QuoteBlock _ _ m | Item _ _ _ _ m | Gap m => match inside len m with Some w => covered w | None => [] end
  | ListBlock items _ => concat (map (spots len) items)
  end.
(** a block that yields a node first *)
Fixpoint begins (b : block) : Prop :=
  match b with Leaf _ _ | QuoteBlock _ _ _ | Item _ _ _ _ _ => True | ListBlock (b :: _) _ => begins b | _ => False end.
Definition coverage (ts : list tree) : list N := concat (map (fun t => covered (node_place t)) ts).
Lemma coverage_app : forall a b, coverage (a ++ b) = (coverage a ++ coverage b)%list.
Proof. intros. unfold coverage. now rewrite map_app, concat_app. Qed.
Lemma join_covers : forall a b, covered (join a b) = (covered a ++ covered b)%list.
Proof.
  intros a b. unfold join. destruct (rev a) as [|x r] eqn:E; [apply covered_app|]. destruct b as [|v b]; [now rewrite covered_app|].
  assert (T : a = (rev r ++ [x])%list) by (rewrite <- (rev_involutive a), E; reflexivity). destruct (N.eqb_spec (location v) (location x + length x)) as [Q|Q]; [|apply covered_app].
  subst a. rewrite !covered_app, <- app_assoc. f_equal. unfold covered. cbn [map concat]. rewrite app_nil_r, app_assoc. f_equal.
  unfold bytes_of. cbn [location length]. rewrite Q. replace (N.to_nat (length x + length v)) with (N.to_nat (length x) + N.to_nat (length v))%nat by lia.
  rewrite upfrom_app. do 2 f_equal. lia.
Qed.
Lemma finish_covers : forall source m ts, ts <> [] ->
  coverage (finish source m ts) = (coverage ts ++ match inside (slen source) m with Some w => covered w | None => [] end)%list /\ finish source m ts <> [].
Proof.
  intros source m ts N. unfold finish. destruct (rev ts) as [|t r] eqn:E.
  { destruct N. rewrite <- (rev_involutive ts), E. reflexivity. }
  destruct (inside (slen source) m) as [w|]; [|rewrite app_nil_r; now split].
  assert (T : ts = (rev r ++ [t])%list) by (rewrite <- (rev_involutive ts), E; reflexivity). split; [|now destruct (rev r)]. rewrite T, !coverage_app, <- app_assoc. f_equal.
  destruct t as [ty tx d m0 cs]. unfold coverage. cbn [map concat locate node_place]. rewrite !app_nil_r. apply join_covers.
Qed.
Lemma snoc_covers : forall ts t, node_place t = [] -> coverage (ts ++ [t]) = coverage ts.
Proof. intros ts t E. rewrite coverage_app. unfold coverage at 2. cbn [map concat]. rewrite E. now rewrite app_nil_r. Qed.
Lemma grow_covers : forall source b ts, ts <> [] \/ begins b -> coverage (grow source ts b) = (coverage ts ++ spots (slen source) b)%list /\ grow source ts b <> [].
Proof.
  intros source. fix IH 1. intros b ts N.
  assert (Snoc : forall m t, node_place t = [] -> coverage (finish source m (ts ++ [t])) = (coverage ts ++ match inside (slen source) m with Some w => covered w | None => [] end)%list /\
    finish source m (ts ++ [t]) <> []).
  { intros m t E. destruct (finish_covers source m (ts ++ [t])) as [-> K]; [now destruct ts|]. rewrite (snoc_covers ts t E). now split. }
  destruct b as [l m|inner t m|items m|f f' inner t m|m]; cbn [grow spots begins] in *.
  - apply Snoc. now destruct l.
  - now apply Snoc.
  - clear Snoc.
    destruct items as [|b items].
    { destruct N as [N|[]]. cbn. rewrite app_nil_r. now split. }
    cbn [fold_left map concat]. destruct (IH b ts) as [E Nb]; [exact N|]. rewrite app_assoc. rewrite <- E. revert Nb. generalize (grow source ts b). clear -IH.
    induction items as [|b items I]; intros ts N; [cbn; rewrite app_nil_r; now split|]. cbn [fold_left map concat].
    destruct (IH b ts) as [E Nb]; [now left|]. rewrite app_assoc, <- E. now apply I.
  - now apply Snoc.
  - destruct N as [N|[]]. now apply finish_covers.
Qed.
Theorem C73_cover : forall source b bs, begins b ->
  coverage (node_children (document source (b :: bs))) = concat (map (spots (slen source)) (b :: bs)).
Proof.
  intros source b bs B. cbn [document node_children fold_left map concat]. destruct (grow_covers source b []) as [E N]; [now right|].
  change (spots (slen source) b) with (coverage [] ++ spots (slen source) b)%list. rewrite <- E. clear E B. revert N. generalize (grow source [] b).
  induction bs as [|b' bs IH]; intros ts N; [cbn; now rewrite app_nil_r|]. cbn [fold_left map concat]. destruct (grow_covers source b' ts) as [E N']; [now left|].
  rewrite app_assoc, <- E. now apply IH.
Qed.
(** lines in front of the first node belong to none *)
Theorem C73_cover_refuted : document "  a" [Gap [R 0 2]; Leaf (Paragraph "a") [R 2 1]] = Tree RootNode "" 0 [R 0 3] [Tree ParagraphNode "a" 0 [R 2 1] []].
Proof. vm_compute. reflexivity. Qed.

(** ** Any calls in any order: the parser goes on as long as what ends is what was begun last, and stops with an exception (never anything worse) otherwise *)
Definition sound_places (source : string) (es : list event) : Prop := forall m, In (EDidParse (Some m)) es -> placed (slen source) m.
Definition frame_type (f : frame) : node_type := match f with Fr t _ _ _ _ => t end.
Lemma zadd_types : forall t z, map frame_type (zadd t z) = map frame_type z.
Proof. intros t [|[ty tx d m ts] z]; reflexivity. Qed.
Lemma calls_closed : forall source es z fl st, slen source + 1 < 2 ^ 64 -> sound_places source es -> map frame_type z = (st ++ [RootNode])%list ->
  Forall (fun t => t = ItemNode \/ t = QuoteNode) st ->
  (closes st es /\ exists zf, zsteps source es (z, fl) = Good zf) \/ (~ closes st es /\ zsteps source es (z, fl) = Mismatch).
Proof.
  intros source es. induction es as [|e es IH]; intros z fl st L P Z F.
  { left. split; [constructor|]. now eexists. }
  assert (P' : sound_places source es) by (intros m M; apply P; now right).
  assert (Go : forall z' fl', zstep source e (z, fl) = Good (z', fl') -> map frame_type z' = (st ++ [RootNode])%list ->
    match e with EBeginQuote | EBeginItem _ | EEndQuote _ | EEndItem _ _ => False | _ => True end ->
    (closes st (e :: es) /\ exists zf, zsteps source (e :: es) (z, fl) = Good zf) \/ (~ closes st (e :: es) /\ zsteps source (e :: es) (z, fl) = Mismatch)).
  { intros z' fl' E Z' H. cbn [zsteps]. rewrite E. cbn [next]. destruct (IH z' fl' st L P' Z' F) as [[C K]|[C K]]; [left|right]; (split; [|exact K]).
    - now apply closes_other.
    - intros C'. inversion C'; subst; try contradiction. }
  assert (Bad : zstep source e (z, fl) = Mismatch -> ~ closes st (e :: es) ->
    (closes st (e :: es) /\ exists zf, zsteps source (e :: es) (z, fl) = Good zf) \/ (~ closes st (e :: es) /\ zsteps source (e :: es) (z, fl) = Mismatch)).
  { intros E C. right. split; [exact C|]. cbn [zsteps]. now rewrite E. }
  assert (Leaf : forall t, zstep source e (z, fl) = Good (zadd t z, fl) -> match e with EBeginQuote | EBeginItem _ | EEndQuote _ | EEndItem _ _ => False | _ => True end ->
    (closes st (e :: es) /\ exists zf, zsteps source (e :: es) (z, fl) = Good zf) \/ (~ closes st (e :: es) /\ zsteps source (e :: es) (z, fl) = Mismatch)).
  { intros t E H. apply (Go _ _ E); [|exact H]. now rewrite zadd_types. }
  destruct e as [t n|t|t| |t| | |f|t f| |t|om]; try (now eapply Leaf).
  - now apply (Go z fl).
  - now apply (Go z true).
  - cbn [zsteps zstep next]. destruct (IH (Fr ItemNode "" f [] [] :: z) fl (ItemNode :: st) L P') as [[C K]|[C K]]; [cbn; now rewrite Z|constructor; auto| |].
    + left. split; [now constructor|exact K].
    + right. split; [|exact K]. intros C'. inversion C'; subst; contradiction.
  - destruct st as [|k st].
    { apply Bad; [|intros C; inversion C; subst; contradiction]. destruct z as [|[ty tx d m ts] z]; [discriminate|]. cbn in Z. injection Z as -> _. reflexivity. }
    inversion F as [|? ? F1 F2]; subst. destruct F1 as [->| ->].
    + destruct z as [|[ty tx d m ts] z]; [discriminate|]. cbn in Z. injection Z as -> Z. destruct z as [|up z]; [now destruct st|]. cbn [zsteps zstep next].
      destruct (IH (zadd (Tree ItemNode tx f m (titled t ts)) (up :: z)) fl st L P') as [[C K]|[C K]]; [now rewrite zadd_types|exact F2| |].
      * left. split; [now constructor|exact K].
      * right. split; [|exact K]. intros C'. inversion C'; subst; contradiction.
    + apply Bad; [|intros C; inversion C; subst; contradiction]. destruct z as [|[ty tx d m ts] z]; [discriminate|]. cbn in Z. injection Z as -> _. reflexivity.
  - cbn [zsteps zstep next]. destruct (IH (Fr QuoteNode "" 0 [] [] :: z) fl (QuoteNode :: st) L P') as [[C K]|[C K]]; [cbn; now rewrite Z|constructor; auto| |].
    + left. split; [now constructor|exact K].
    + right. split; [|exact K]. intros C'. inversion C'; subst; contradiction.
  - destruct st as [|k st].
    { apply Bad; [|intros C; inversion C; subst; contradiction]. destruct z as [|[ty tx d m ts] z]; [discriminate|]. cbn in Z. injection Z as -> _. reflexivity. }
    inversion F as [|? ? F1 F2]; subst. destruct F1 as [->| ->].
    + apply Bad; [|intros C; inversion C; subst; contradiction]. destruct z as [|[ty tx d m ts] z]; [discriminate|]. cbn in Z. injection Z as -> _. reflexivity.
    + destruct z as [|[ty tx d m ts] z]; [discriminate|]. cbn in Z. injection Z as -> Z. destruct z as [|up z]; [now destruct st|]. cbn [zsteps zstep next].
      destruct (IH (zadd (Tree QuoteNode t d m ts) (up :: z)) fl st L P') as [[C K]|[C K]]; [now rewrite zadd_types|exact F2| |].
      * left. split; [now constructor|exact K].
      * right. split; [|exact K]. intros C'. inversion C'; subst; contradiction.
  - destruct om as [m|]; [|now apply (Go z fl)]. assert (Pm : placed (slen source) m) by (apply P; now left).
    destruct fl; [now apply (Go z false)|]. destruct z as [|[ty tx d m0 ts] z]; [now destruct st|].
    assert (E : exists ts', zstep source (EDidParse (Some m)) (Fr ty tx d m0 ts :: z, false) = Good (Fr ty tx d m0 ts' :: z, false)).
    { unfold zstep. destruct (rev ts) as [|t ts'] eqn:Et; [now exists ts|]. rewrite (clip_inside source L m Pm). cbn [next].
      destruct (inside (slen source) m) as [w|]; [|now exists ts].
      assert (Q : exists t', zlocate source m w t = Good t').
      { destruct t as [ty' tx' d' m' cs']. unfold zlocate. destruct ty'; try (now eexists). destruct cs' as [|[ty2 tx2 d2 [|x2 m2] cs2] r2]; try (now eexists).
        rewrite (text_map_place source L m tx2 Pm). now eexists. }
      destruct Q as [t' ->]. cbn [next]. now eexists. }
    destruct E as [ts' E]. now apply (Go _ _ E).
Qed.
Theorem C73_calls : forall source es, slen source + 1 < 2 ^ 64 -> sound_places source es ->
  (closes [] es /\ exists s, parse source es = Good s) \/ (~ closes [] es /\ parse source es = Mismatch).
Proof.
  intros source es L P. pose proof (parse_sim source es) as A.
  destruct (calls_closed source es [Fr RootNode "" 0 [R 0 (slen source)] []] false [] L P eq_refl (Forall_nil _)) as [[C [zf E]]|[C E]]; unfold zstart in A; rewrite E in A;
    destruct (parse source es); try contradiction.
  - left. split; [exact C|]. now eexists.
  - now right.
Qed.
(** a source map without ranges is undefined behaviour *)
Theorem C73_empty_refuted : parse "a" [EParagraph "a"; EDidParse (Some [])] = Wild.
Proof. vm_compute. reflexivity. Qed.

(** a document with a heading, nested lists, a quote and an unfinished last line *)
Definition sample_source : string :=
  "# A" +++ String (chr 10) ("+ b" +++ String (chr 10) ("    + c" +++ String (chr 10) ("> q" +++ String (chr 10) ""))).
Definition sample : list block :=
  [Leaf (Heading "A" 1) [R 0 4];
   ListBlock [Item 0 0 [ListBlock [Item 0 0 [] "c" [R 12 4]] [R 12 4]] "b" [R 4 12]] [R 4 12];
   QuoteBlock [Leaf (Paragraph "q") [R 18 2]] "" [R 16 4]; Gap [R 20 1]].
Example C73_nonvacuous : Forall (all_places (placed (slen sample_source))) sample /\ slen sample_source + 1 < 2 ^ 64 /\ begins (hd (Gap []) sample) /\
  document sample_source sample =
  Tree RootNode "" 0 [R 0 20]
    [Tree HeaderNode "A" 1 [R 0 4] [];
     Tree ItemNode "" 0 [R 4 12] [Tree ParagraphNode "b" 0 [R 6 1] []; Tree ItemNode "" 0 [R 12 4] [Tree ParagraphNode "c" 0 [R 14 1] []]];
     Tree QuoteNode "" 0 [R 16 4] [Tree ParagraphNode "q" 0 [R 18 2] []]].
Proof.
  assert (P : forall l n, l <= 20 -> l + n <= 21 -> placed (slen sample_source) [R l n]).
  { intros l n A B. exists [], (R l n). change (slen sample_source) with 20. repeat split; cbn; auto. }
  split; [repeat constructor; apply P; lia|]. split; [vm_compute; reflexivity|]. split; [exact I|]. vm_compute. reflexivity.
Qed.
Example C73_calls_nonvacuous : parse "a" [EBeginQuote; EEndItem "a" 0] = Mismatch /\ closes [] [EBeginQuote; EParagraph "a"; EEndQuote "a"].
Proof. split; [vm_compute; reflexivity|]. apply closes_quote_begin. apply closes_other; [exact I|]. apply closes_quote_end. constructor. Qed.
Print Assumptions C73_tree.
Print Assumptions C73_items.
Print Assumptions C73_within.
Print Assumptions C73_text.
Print Assumptions C73_cover.
Print Assumptions C73_calls.
