(** The tree built is the one expected *)
From Verif Require Import Base ByteBuffer ByteSpec ByteProofs Prop_Bytes StringUtility StringProofs Markdown MarkdownSpec MarkdownProofs.
Local Open Scope N_scope.

Section Tree.
Variable source : string.
Hypothesis Small : slen source + 1 < 2 ^ 64.
Notation len := (slen source).

Definition reach (m : list range) : Prop := Forall (fun r => location r + length r <= len + 1) m.
Lemma reach_addressable : forall m, reach m -> addressable m.
Proof. intros m H. eapply Forall_impl; [|exact H]. cbn. intros. lia. Qed.
Lemma placed_reach : forall m, placed len m -> reach m.
Proof.
  clear Small. intros m (a & b & -> & A & F & B & C). apply Forall_app. split; [|repeat constructor; exact C]. eapply Forall_impl; [|exact F]. cbn. intros. lia.
Qed.
Lemma append_join : forall a b, reach a -> reach b -> append_set a b = join a b.
Proof.
  intros a b A B. unfold append_set, join. destruct b as [|v b].
  { destruct (rev a); now rewrite app_nil_r. }
  destruct (rev a) as [|x r] eqn:E; [reflexivity|].
  assert (T : a = rev r ++ [x]) by (rewrite <- (rev_involutive a), E; reflexivity). rewrite T in A. apply Forall_app in A as [_ A]. inversion A as [|? ? A1 _]; subst.
  inversion B as [|? ? B1 _]; subst. rewrite wadd_small by lia. destruct (N.eqb_spec (location v) (location x + length x)) as [Q|Q]; [|reflexivity].
  rewrite wadd_small by lia. reflexivity.
Qed.
Lemma join_reach : forall a b, reach a -> reach b -> reach (join a b).
Proof.
  clear Small. intros a b A B. unfold join. destruct (rev a) as [|x r] eqn:E; [now apply Forall_app|]. destruct b as [|v b]; [now rewrite app_nil_r|].
  assert (T : a = rev r ++ [x]) by (rewrite <- (rev_involutive a), E; reflexivity). destruct (N.eqb_spec (location v) (location x + length x)) as [Q|Q]; [|now apply Forall_app].
  subst a. apply Forall_app in A as [A1 A2]. inversion B; subst. apply Forall_app. split; [exact A1|]. constructor; [cbn; lia|assumption].
Qed.
Lemma inside_reach : forall m w, placed len m -> inside len m = Some w -> reach w /\ Forall (fun r => location r + length r <= len) w.
Proof.
  clear Small. intros m w (a & b & -> & A & F & B & C). unfold inside. rewrite rev_app_distr. cbn [rev app]. rewrite rev_involutive.
  assert (Fa : forall x, location x + length x <= len -> reach (a ++ [x]) /\ Forall (fun r => location r + length r <= len) (a ++ [x])).
  { intros x X. split; apply Forall_app; split; repeat constructor; try lia; [|exact F]. eapply Forall_impl; [|exact F]. cbn. intros; lia. }
  destruct (N.leb_spec (location b + length b) len) as [Q|Q]; [intros [= <-]; now apply Fa|].
  destruct (N.ltb_spec (location b) len) as [P|P]; [|discriminate]. intros [= <-]. apply Fa. cbn. lia.
Qed.
Lemma clip_inside : forall m, placed len m -> clip len m = Good (inside len m).
Proof.
  intros m (a & b & -> & A & F & B & C). unfold clip, inside. rewrite rev_app_distr. cbn [rev app]. rewrite rev_involutive. rewrite wadd_small by lia.
  destruct (N.ltb_spec len (location b + length b)) as [Q|Q], (N.leb_spec (location b + length b) len) as [P|P]; try lia; [|reflexivity].
  rewrite wsub_small by lia. destruct (N.eqb_spec (len - location b) 0) as [H|H], (N.ltb_spec (location b) len) as [K|K]; try lia; reflexivity.
Qed.

(** ** the text of a place *)
Lemma substring_clip : forall s p n, (String.length s <= p + n)%nat -> substring p n s = substring p (String.length s - p) s.
Proof.
  induction s as [|x s IH]; intros [|p] n L; cbn [String.length] in *; try (destruct n; reflexivity).
  - destruct n as [|n]; [lia|]. cbn [substring Nat.sub]. f_equal. rewrite (IH 0%nat n) by lia. f_equal. lia.
  - cbn [substring Nat.sub]. apply IH. lia.
Qed.
Lemma map_loop_app : forall a b s acc, slen s < 2 ^ 64 -> Forall (fun r => location r + length r <= slen s) a ->
  map_loop (a ++ b) s acc = map_loop b s (acc +++ text_at s (covered a))%string.
Proof.
  induction a as [|r a IH]; intros b s acc L F; cbn [app].
  - cbn. now rewrite append_nil_r.
  - inversion F as [|? ? F1 F2]; subst. pose proof (map_loop_ok [r] s acc L ltac:(repeat constructor; exact F1)) as H. cbn [map_loop] in H |- *.
    rewrite wadd_small in * by lia. destruct (N.ltb_spec (slen s) (location r + length r)); [lia|].
    destruct (substr s (location r) (length r)) as [t| | | ]; cbn [andthen] in *; try discriminate. injection H as H.
    rewrite IH by assumption. f_equal. rewrite H, append_assoc. f_equal. rewrite <- text_at_app. f_equal. unfold covered. cbn [map concat]. now rewrite app_nil_r.
Qed.
Lemma map_placed : forall m, placed len m -> map_ranges m source = Val (text_at source (covered m)).
Proof.
  intros m (a & b & -> & A & F & B & C). destruct (N.leb_spec (location b + length b) len) as [Q|Q].
  { apply C49_text; [lia|]. apply Forall_app. split; [exact F|repeat constructor; exact Q]. }
  assert (K : forall s l, map_ranges l s = map_loop l s "" \/ s = "") by (intros [|y t] l; [now right|now left]).
  destruct (K source (a ++ [b])%list) as [->|Es]; [|rewrite Es].
  2: { cbn [map_ranges]. f_equal. induction (covered (a ++ [b])) as [|p l IH]; [reflexivity|]. cbn [text_at fold_right]. fold (text_at "" l). rewrite <- IH. reflexivity. }
  rewrite map_loop_app by (lia || exact F). cbn [append map_loop]. rewrite wadd_small by lia.
  destruct (N.ltb_spec len (location b + length b)); [|lia]. rewrite wsub_small by lia.
  assert (H1 : location b + length b - len = 1) by lia. rewrite H1, N.eqb_refl.
  unfold substr. destruct (N.ltb_spec len (location b)); [lia|]. cbn [andthen]. f_equal. rewrite covered_app, text_at_app. f_equal.
  unfold covered. cbn [map concat]. rewrite app_nil_r. unfold bytes_of. rewrite text_at_substring. rewrite wsub_small by lia.
  symmetry. unfold slen in *. rewrite substring_clip by lia. f_equal. lia.
Qed.
Lemma index_bound : forall p s n, index 0 p s = Some n -> (n + String.length p <= String.length s)%nat.
Proof.
  clear Small. intros p s n H. destruct p as [|x p].
  - destruct s; cbn in H; injection H as <-; cbn; lia.
  - apply index_some in H as (a & b & -> & <- & _); [|discriminate]. rewrite !length_append. lia.
Qed.
Lemma text_at_length : forall s l, (String.length (text_at s l) <= List.length l)%nat.
Proof. clear Small. intros s. induction l as [|p l IH]; [cbn; lia|]. cbn [text_at fold_right]. fold (text_at s l). destruct (get (N.to_nat p) s); cbn [String.length List.length]; lia. Qed.
Lemma upfrom_length : forall n a, List.length (upfrom a n) = n.
Proof. clear Small. induction n as [|n IH]; intros a; cbn; [reflexivity|]. now rewrite IH. Qed.
(** ranges in ascending order cover no more bytes than lie between the first and the last *)
Lemma covered_length : forall m f r x, m = f :: r -> ascending m -> reach m -> x = N.of_nat (List.length (covered m)) -> location f + x <= len + 1.
Proof.
  clear Small. induction m as [|y m IH]; intros f r x [= -> ->] A R ->. unfold covered. cbn [map concat]. rewrite app_length. unfold bytes_of. rewrite upfrom_length. fold (covered r).
  inversion R as [|? ? R1 R2]; subst. destruct r as [|g r].
  - cbn. lia.
  - destruct A as [A1 A2]. specialize (IH g r _ eq_refl A2 R2 eq_refl). fold bytes_of in *. unfold covered in IH |- *. lia.
Qed.
Lemma text_map_place : forall m t, placed len m -> text_map source m t = Good (text_place source m t).
Proof.
  intros m t P. unfold text_map, text_place. rewrite (map_placed m P). cbn [lift next]. destruct (index 0 t (text_at source (covered m))) as [pos|] eqn:E; [|now destruct m].
  apply index_bound in E. pose proof (text_at_length source (covered m)) as L. pose proof (placed_reach m P) as R.
  destruct P as (a & b & Em & A & _). destruct m as [|f m]; [now destruct a|]. pose proof (covered_length _ f m _ eq_refl A R eq_refl) as K.
  rewrite wadd_small by lia. reflexivity.
Qed.

(** ** the tree *)
Definition okay (ts : list tree) : Prop := Forall (fun t => reach (node_place t)) ts.
Lemma finish_ok : forall ty tx d m0 ts r m, placed len m -> okay ts ->
  zstep source (EDidParse (Some m)) (Fr ty tx d m0 ts :: r, false) = Good (Fr ty tx d m0 (finish source m ts) :: r, false) /\ okay (finish source m ts).
Proof.
  intros ty tx d m0 ts r m P O. unfold zstep, finish. destruct (rev ts) as [|t ts'] eqn:E; [now split|].
  rewrite (clip_inside m P). cbn [next]. destruct (inside len m) as [w|] eqn:W; [|now split].
  destruct (inside_reach m w P W) as [Rw _].
  assert (T : ts = rev ts' ++ [t]) by (rewrite <- (rev_involutive ts), E; reflexivity). rewrite T in O. apply Forall_app in O as [O1 O2]. inversion O2 as [|? ? O3 _]; subst.
  assert (Z : zlocate source m w t = Good (locate source m w t)).
  { destruct t as [ty' tx' d' m' cs']. cbn [node_place] in O3. unfold zlocate, locate. rewrite (append_join m' w O3 Rw).
    destruct ty'; try reflexivity. destruct cs' as [|[ty2 tx2 d2 [|x2 m2] cs2] r2]; try reflexivity. rewrite (text_map_place m tx2 P). reflexivity. }
  rewrite Z. cbn [next]. split; [reflexivity|]. apply Forall_app. split; [exact O1|]. constructor; [|constructor].
  destruct t as [ty' tx' d' m' cs']. cbn [locate node_place] in *. now apply join_reach.
Qed.
Lemma zsteps_app : forall a b s, zsteps source (a ++ b) s = next (zsteps source a s) (zsteps source b).
Proof. induction a as [|e a IH]; intros b s; [reflexivity|]. cbn [app zsteps]. destruct (zstep source e s); cbn [next]; auto. Qed.

Definition grown (b : block) : Prop := forall ty tx d m0 ts r, okay ts ->
  zsteps source (events b) (Fr ty tx d m0 ts :: r, false) = Good (Fr ty tx d m0 (grow source ts b) :: r, false) /\ okay (grow source ts b).
Lemma grown_all : forall bs, Forall grown bs -> forall ty tx d m0 ts r, okay ts ->
  zsteps source (concat (map events bs)) (Fr ty tx d m0 ts :: r, false) = Good (Fr ty tx d m0 (fold_left (grow source) bs ts) :: r, false) /\ okay (fold_left (grow source) bs ts).
Proof.
  induction bs as [|b bs IH]; intros F ty tx d m0 ts r O; [now split|]. inversion F as [|? ? F1 F2]; subst. cbn [map concat fold_left]. rewrite zsteps_app.
  destruct (F1 ty tx d m0 ts r O) as [-> O']. cbn [next]. now apply IH.
Qed.
Lemma okay_snoc : forall ts t, okay ts -> node_place t = [] -> okay (ts ++ [t]).
Proof. intros ts t O E. apply Forall_app. split; [exact O|]. constructor; [rewrite E; constructor|constructor]. Qed.
Lemma all_places_forall : forall P bs, fold_right (fun b r => all_places P b /\ r) True bs -> Forall (all_places P) bs.
Proof. induction bs as [|b bs IH]; cbn [fold_right]; constructor; tauto. Qed.
Lemma block_grown : forall b, all_places (placed len) b -> grown b.
Proof.
  fix IH 1. intros b P.
  destruct b as [l m|inner t m|items m|f f' inner t m|m]; cbn [all_places] in P.
  - intros ty tx d m0 ts r O. cbn [events zsteps grow].
    assert (E : zstep source (leaf_event l) (Fr ty tx d m0 ts :: r, false) = Good (Fr ty tx d m0 (ts ++ [leaf_tree l]) :: r, false)) by (now destruct l).
    rewrite E. cbn [next]. assert (O' : okay (ts ++ [leaf_tree l])) by (apply okay_snoc; [exact O|now destruct l]).
    destruct (finish_ok ty tx d m0 _ r m P O') as [-> K]. now split.
  - destruct P as [P Q]. assert (G : Forall grown inner).
    { clear -IH Q. induction inner as [|b bs I]; constructor; cbn [fold_right] in Q; [apply IH|apply I]; tauto. }
    intros ty tx d m0 ts r O. cbn [events zsteps grow]. cbn [zstep next]. rewrite zsteps_app.
    destruct (grown_all inner G QuoteNode "" 0%Z [] [] (Fr ty tx d m0 ts :: r) (Forall_nil _)) as [-> _]. cbn [next zsteps]. cbn [zstep next zadd].
    destruct (finish_ok ty tx d m0 _ r m P (okay_snoc ts (Tree QuoteNode t 0 [] (fold_left (grow source) inner [])) O eq_refl)) as [E K].
    unfold zstep in E. rewrite E. now split.
  - destruct P as [P Q]. assert (G : Forall grown items).
    { clear -IH Q. induction items as [|b bs I]; constructor; cbn [fold_right] in Q; [apply IH|apply I]; tauto. }
    intros ty tx d m0 ts r O. cbn [events zsteps grow]. cbn [zstep next]. rewrite zsteps_app.
    destruct (grown_all items G ty tx d m0 ts r O) as [-> K]. now split.
  - destruct P as [P Q]. assert (G : Forall grown inner).
    { clear -IH Q. induction inner as [|b bs I]; constructor; cbn [fold_right] in Q; [apply IH|apply I]; tauto. }
    intros ty tx d m0 ts r O. cbn [events zsteps grow]. cbn [zstep next]. rewrite zsteps_app.
    destruct (grown_all inner G ItemNode "" f [] [] (Fr ty tx d m0 ts :: r) (Forall_nil _)) as [-> _]. cbn [next zsteps]. cbn [zstep next zadd].
    destruct (finish_ok ty tx d m0 _ r m P (okay_snoc ts (Tree ItemNode "" f' [] (titled t (fold_left (grow source) inner []))) O eq_refl)) as [E K].
    unfold zstep in E. rewrite E. now split.
  - intros ty tx d m0 ts r O. cbn [events zsteps grow]. destruct (finish_ok ty tx d m0 ts r m P O) as [-> K]. now split.
Qed.
Lemma document_ok : forall bs, Forall (all_places (placed len)) bs ->
  zsteps source (concat (map events bs)) (zstart source) = Good ([Fr RootNode "" 0 [R 0 len] (fold_left (grow source) bs [])], false).
Proof.
  intros bs F. apply grown_all; [|constructor]. eapply Forall_impl; [|exact F]. exact block_grown.
Qed.
End Tree.
