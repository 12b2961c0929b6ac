(** Properties C32, C33, C34 and C49: bytes and characters, ranges of bytes *)
From Verif Require Import Base Utf8Spec ByteBuffer ByteSpec ByteProofs.
Local Open Scope N_scope.

(** texts: scalar values other than NUL *)
Definition text (cs : list N) : Prop := Forall (fun c => scalar c /\ c <> 0) cs.

(** ** C32: the index has one entry for each byte, the number of the character the byte belongs to *)
Theorem C32_index : forall cs, text cs -> exists index, build_index (utf8s cs) = Val index /\
  N.of_nat (List.length index) = slen (utf8s cs) /\
  (forall p i, char_at cs p i -> nth_error index (N.to_nat p) = Some i).
Proof.
  intros cs T. exists (expected 0 cs). split; [exact (build_index_ok cs T)|]. split; [rewrite expected_length; reflexivity|].
  intros p i H. exact (expected_get cs 0 p i H).
Qed.
Print Assumptions C32_index.
(** every byte belongs to a character *)
Theorem C32_total : forall cs p, text cs -> p < slen (utf8s cs) -> exists i, char_at cs p i.
Proof.
  intros cs p T H.
  assert (K : forall n, (n <= List.length cs)%nat -> p < starts cs (N.of_nat n) -> exists i, char_at cs p i).
  { induction n as [|n IH]; intros L B; [unfold starts in B; cbn in B; lia|].
    destruct (N.lt_ge_cases p (starts cs (N.of_nat n))) as [A|A]; [apply IH; [lia|exact A]|].
    exists (N.of_nat n). split; [lia|]. split; [exact A|]. replace (N.of_nat n + 1) with (N.of_nat (S n)) by lia. exact B. }
  apply (K (List.length cs) (le_n _)). unfold starts. rewrite Nat2N.id, firstn_all. exact H.
Qed.
Print Assumptions C32_total.
Theorem C32_terminates : forall s, build_index s <> Endless.
Proof. intros s. apply index_terminates. lia. Qed.
Print Assumptions C32_terminates.
(** the source is not checked for UTF-8 before: a source that ends inside a character makes the index be written out of bounds *)
Theorem C32_truncated_refuted : forall cs, text cs -> build_index (utf8s cs +++ String (chr 0xC3) "")%string = Wild.
Proof.
  intros cs T. unfold build_index.
  assert (SL : String.length (utf8s cs +++ String (chr 0xC3) "")%string = (String.length (utf8s cs) + 1)%nat).
  { pose proof (slen_app (utf8s cs) (String (chr 0xC3) ""%string)) as H. unfold slen in H. cbn [String.length] in H. lia. }
  rewrite SL.
  assert (K : forall todo done fuel l k, Forall proper todo -> (List.length todo + 1 < fuel)%nat -> List.length l = String.length (utf8s done) ->
    index_loop fuel (utf8s (done ++ todo) +++ String (chr 0xC3) "")%string (slen (utf8s done)) k (l ++ repeat 0 (String.length (utf8s todo) + 1)) = Wild).
  { induction todo as [|c todo IH]; intros done fuel l k P F L; (destruct fuel as [|fuel]; [cbn in F; lia|]); cbn [index_loop].
    - rewrite app_nil_r, c_at_app. cbn [andthen]. change (Ascii.eqb (chr 0xC3) "000") with false. cbn [orb].
      rewrite (proj2 (N.ltb_lt _ _)) by (rewrite slen_app; cbn; lia). cbn [negb].
      change (char_len (chr 0xC3)) with 2. change (N.to_nat 2) with 2%nat. cbn [fill]. unfold vec_set at 1.
      replace (N.to_nat (slen (utf8s done) + 2 - N.of_nat 2)) with (List.length l) by (unfold slen; lia).
      change (repeat 0 (String.length (utf8s []) + 1)) with [0].
      rewrite set_nth_app. cbn [andthen]. unfold vec_set. replace (N.to_nat (slen (utf8s done) + 2 - N.of_nat 1)) with (List.length l + 1)%nat by (unfold slen; lia).
      assert (Z : forall (a : list N) x, set_nth (a ++ [k]) (List.length a + 1) x = None) by (induction a as [|y a IH]; intros x; cbn; [reflexivity|rewrite IH; reflexivity]).
      rewrite Z. reflexivity.
    - inversion P as [|? ? [Sc Nz] P']; subst. destruct (utf8_cons c Sc) as (a & r & E & CL & NZ).
      assert (Q : (utf8s (done ++ c :: todo) +++ String (chr 0xC3) "")%string = (utf8s done +++ String a (r +++ (utf8s todo +++ String (chr 0xC3) "")))%string).
      { rewrite utf8s_app, utf8s_cons, E, !app_assoc_s. reflexivity. }
      rewrite Q at 1. rewrite c_at_app. cbn [andthen]. rewrite (proj2 (Ascii.eqb_neq a "000") (NZ Nz)). cbn [orb].
      pose proof (char_len_pos a).
      rewrite (proj2 (N.ltb_lt _ _)) by (rewrite slen_app, utf8s_app, slen_app, utf8s_cons, slen_app; lia). cbn [negb].
      assert (RL : repeat 0 (String.length (utf8s (c :: todo)) + 1) = repeat 0 (String.length (utf8 c)) ++ repeat 0 (String.length (utf8s todo) + 1)).
      { rewrite <- repeat_app. f_equal. rewrite utf8s_cons. pose proof (slen_app (utf8 c) (utf8s todo)). unfold slen in *. lia. }
      rewrite RL.
      assert (CN : N.to_nat (char_len a) = List.length (repeat 0 (String.length (utf8 c)))) by (rewrite repeat_length, CL; unfold slen; lia).
      rewrite CN at 1. rewrite fill_ok; [|rewrite repeat_length, CL; unfold slen in *; lia].
      cbn [andthen]. rewrite repeat_length.
      replace (done ++ c :: todo) with ((done ++ [c]) ++ todo) by (rewrite <- app_assoc; reflexivity).
      replace (slen (utf8s done) + char_len a) with (slen (utf8s (done ++ [c]))).
      2: { rewrite utf8s_app, slen_app, CL, utf8s_cons. cbn. rewrite app_nil_s. reflexivity. }
      rewrite app_assoc. apply IH; [assumption|cbn in F; lia|].
      rewrite app_length, repeat_length, L, utf8s_app, utf8s_cons. pose proof (slen_app (utf8s done) (utf8 c +++ utf8s [])%string) as H'. cbn in H'. cbn. rewrite app_nil_s in *. unfold slen in H'. lia. }
  pose proof (proper_length cs T).
  exact (K cs [] (S (String.length (utf8s cs) + 1)) [] 0 T ltac:(lia) eq_refl).
Qed.
Print Assumptions C32_truncated_refuted.
(** NUL ends the work: the entries behind it stay 0 *)
Theorem C32_nul_refuted : exists cs, Forall scalar cs /\ build_index (utf8s cs) = Val [0; 1; 0; 0] /\ char_at cs 3 3.
Proof. exists [97; 98; 0; 99]. split; [repeat constructor|]. split; [reflexivity|]. split; [reflexivity|split; [vm_compute; discriminate|reflexivity]]. Qed.

Example C32_instance : exists cs, text cs /\ (* "aé€😀!" *) cs = [97; 0xE9; 0x20AC; 0x1F600; 33] /\
  build_index (utf8s cs) = Val [0; 1; 1; 2; 2; 2; 3; 3; 3; 3; 4] /\ char_at cs 4 2.
Proof. eexists. split; [|split; [reflexivity|]]; [repeat constructor; discriminate|]. split; [reflexivity|]. split; [reflexivity|split; [vm_compute; discriminate|reflexivity]]. Qed.

(** ** C33: a range of bytes at character boundaries becomes the range of its characters *)
Theorem C33_characters : forall before inside after, text (before ++ inside ++ after) ->
  to_characters (R (slen (utf8s before)) (slen (utf8s inside))) (utf8s (before ++ inside ++ after)) =
  Val (R (N.of_nat (List.length before)) (N.of_nat (List.length inside))).
Proof. intros b i a T. unfold text in T. rewrite !Forall_app in T. apply to_characters_ok; tauto. Qed.
Print Assumptions C33_characters.
Theorem C33_characters_by_index : forall before inside after index, text (before ++ inside ++ after) ->
  build_index (utf8s (before ++ inside ++ after)) = Val index -> (inside ++ after)%list <> [] -> slen (utf8s (before ++ inside ++ after)) < 2 ^ 64 ->
  index_to_characters (R (slen (utf8s before)) (slen (utf8s inside))) index =
  Val (R (N.of_nat (List.length before)) (N.of_nat (List.length inside))).
Proof.
  intros b i a index T B NE A. pose proof (build_index_ok _ T) as B'. rewrite B in B'. injection B' as ->.
  pose proof A as A'. rewrite !utf8s_app, !slen_app in A'.
  apply index_to_characters_ok; [exact T| |now left|lia|exact A].
  rewrite utf8s_app, slen_app. destruct (N.eq_dec (slen (utf8s (i ++ a))) 0) as [Z|Z]; [|lia].
  apply slen_zero in Z; [contradiction|]. unfold text in T. rewrite Forall_app in T. tauto.
Qed.
Print Assumptions C33_characters_by_index.
(** ranges that reach beyond the end are cut there *)
Theorem C33_clamped : forall before inside index beyond, text (before ++ inside) -> inside <> [] ->
  build_index (utf8s (before ++ inside)) = Val index -> slen (utf8s (before ++ inside)) + beyond < 2 ^ 64 ->
  to_characters (R (slen (utf8s before)) (slen (utf8s inside) + beyond)) (utf8s (before ++ inside)) =
    Val (R (N.of_nat (List.length before)) (N.of_nat (List.length inside))) /\
  index_to_characters (R (slen (utf8s before)) (slen (utf8s inside) + beyond)) index =
    Val (R (N.of_nat (List.length before)) (N.of_nat (List.length inside))).
Proof.
  intros b i index k T NE B A. pose proof (build_index_ok _ T) as B'. rewrite B in B'. injection B' as ->.
  pose proof A as A'. rewrite !utf8s_app, !slen_app in A'.
  pose proof T as T'. unfold text in T'. rewrite Forall_app in T'. destruct T' as [Tb Ti].
  pose proof (to_characters_ok b i [] Tb Ti (Forall_nil _) (slen (utf8s i) + k) ltac:(right; split; [reflexivity|lia])) as H1.
  pose proof (index_to_characters_ok b i []) as H2. rewrite app_nil_r in *. split; [exact H1|]. apply H2; [exact T| |right; split; [reflexivity|lia]|lia|lia].
  rewrite utf8s_app, slen_app. destruct (N.eq_dec (slen (utf8s i)) 0) as [Z|Z]; [|lia]. apply slen_zero in Z; [contradiction|exact Ti].
Qed.
Print Assumptions C33_clamped.
Theorem C33_terminates : forall r s, to_characters r s <> Endless.
Proof.
  assert (K : forall s off len, strnlen_utf8 s off len <> Endless).
  { intros s off len. unfold strnlen_utf8. destruct (len =? 0); [discriminate|]. apply strnlen_terminates. lia. }
  intros r s. unfold to_characters. destruct (slen s =? 0); [discriminate|].
  assert (H1 : forall (b : bool) x y, (if b then strnlen_utf8 s x y else Val 0) <> Endless) by (intros [] x y; [apply K|discriminate]).
  pose proof (H1 (0 <? location r) 0 (location r)) as H2. pose proof (H1 (0 <? length r) (location r) (length r)) as H3.
  destruct (if 0 <? location r then _ else _); cbn [andthen]; try discriminate; try congruence.
  destruct (if 0 <? length r then _ else _); cbn [andthen]; try discriminate; congruence.
Qed.
Print Assumptions C33_terminates.
(** an empty range behind the last character: the direct conversion gives the position behind the last character,
    the index is read out of bounds, for every text *)
Theorem C33_end_refuted : forall cs index, text cs -> cs <> [] -> build_index (utf8s cs) = Val index -> slen (utf8s cs) < 2 ^ 64 ->
  to_characters (R (slen (utf8s cs)) 0) (utf8s cs) = Val (R (N.of_nat (List.length cs)) 0) /\
  index_to_characters (R (slen (utf8s cs)) 0) index = Wild.
Proof.
  intros cs index T NE B A. pose proof (build_index_ok _ T) as B'. rewrite B in B'. injection B' as ->.
  pose proof (C33_characters cs [] []) as H. rewrite !app_nil_r in H. split; [exact (H T)|].
  assert (NZ : slen (utf8s cs) <> 0) by (intros Z; apply slen_zero in Z; [contradiction|exact T]).
  unfold index_to_characters. rewrite expected_length. fold (slen (utf8s cs)). rewrite (proj2 (N.eqb_neq _ _) NZ). cbn [location length].
  rewrite wadd_small, N.add_0_r by lia. rewrite N.ltb_irrefl. rewrite (proj2 (N.ltb_lt _ _)) by lia.
  unfold vec_get. assert (Q : nth_error (expected 0 cs) (N.to_nat (slen (utf8s cs))) = None).
  { apply nth_error_None. rewrite expected_length. unfold slen. lia. }
  rewrite Q. reflexivity.
Qed.
Print Assumptions C33_end_refuted.
(** the conversion to one consecutive range converts nothing and puts the end of the bytes where the length belongs *)
Theorem C33_consecutive_refuted : exists before inside after index, text (before ++ inside ++ after) /\
  build_index (utf8s (before ++ inside ++ after)) = Val index /\
  to_characters (R (slen (utf8s before)) (slen (utf8s inside))) (utf8s (before ++ inside ++ after)) = Val (R 2 1) /\
  set_to_consecutive [R (slen (utf8s before)) (slen (utf8s inside))] index = [R 4 5].
Proof. exists [0xE9; 0xE8], [97], [98], [0; 0; 1; 1; 2; 3]. split; [repeat constructor; discriminate|]. repeat split. Qed.

Example C33_instance : exists before inside after, text (before ++ inside ++ after) /\ (inside ++ after)%list <> [] /\
  slen (utf8s before) = 3 /\ slen (utf8s inside) = 7 /\ List.length before = 2%nat /\ List.length inside = 2%nat.
Proof. exists [97; 0xE9], [0x20AC; 0x1F600], [33]. split; [repeat constructor; discriminate|]. split; [discriminate|]. repeat split. Qed.

(** ** C34: histories of appended sets *)
Definition history (sets : list (list range)) : list range := fold_left append_set sets [].
Lemma history_keeps : forall sets acc, addressable acc -> Forall addressable sets ->
  covered (fold_left append_set sets acc) = (covered acc ++ concat (map covered sets))%list /\
  (coalesced acc -> Forall coalesced sets -> coalesced (fold_left append_set sets acc)) /\
  (ascending (acc ++ concat sets) -> ascending (fold_left append_set sets acc)).
Proof.
  induction sets as [|s sets IH]; intros acc A F; cbn [fold_left map concat].
  - rewrite !app_nil_r. tauto.
  - inversion F; subst. destruct (IH (append_set acc s) (append_addressable acc s A H1) H2) as (I1 & I2 & I3). split; [|split].
    + rewrite I1, append_covers by assumption. rewrite app_assoc. reflexivity.
    + intros C CF. inversion CF; subst. apply I2; [apply append_coalesced; assumption|assumption].
    + intros S. apply I3. apply append_ascending; assumption.
Qed.
Theorem C34_covered : forall sets, Forall addressable sets -> covered (history sets) = concat (map covered sets).
Proof. intros sets F. exact (proj1 (history_keeps sets [] (Forall_nil _) F)). Qed.
Print Assumptions C34_covered.
Theorem C34_coalesced : forall sets, Forall addressable sets -> Forall coalesced sets -> coalesced (history sets).
Proof. intros sets F. exact (proj1 (proj2 (history_keeps sets [] (Forall_nil _) F)) I). Qed.
Print Assumptions C34_coalesced.
Theorem C34_ascending : forall sets, Forall addressable sets -> ascending (concat sets) -> ascending (history sets).
Proof. intros sets F. exact (proj2 (proj2 (history_keeps sets [] (Forall_nil _) F))). Qed.
Print Assumptions C34_ascending.
(** single blocks are coalesced sets, so a set built from ordered blocks is ordered and coalesced *)
Theorem C34_blocks : forall blocks, addressable blocks -> ascending blocks ->
  let set := history (map (fun b => [b]) blocks) in covered set = covered blocks /\ coalesced set /\ ascending set.
Proof.
  intros blocks A S. assert (F : Forall addressable (map (fun b => [b]) blocks)).
  { induction A; constructor; [constructor; [assumption|constructor]|]. apply IHA. destruct l; [exact I|]. exact (proj2 S). }
  assert (E : forall l : list range, concat (map (fun b => [b]) l) = l) by (induction l as [|x l IH]; cbn; [reflexivity|rewrite IH; reflexivity]).
  cbn zeta. split; [|split].
  - rewrite C34_covered by assumption. unfold covered. rewrite map_map. cbn [map concat]. f_equal. apply map_ext. intros b. apply app_nil_r.
  - apply C34_coalesced; [assumption|]. clear. induction blocks; constructor; [exact I|assumption].
  - apply C34_ascending; [assumption|]. rewrite E. exact S.
Qed.
Print Assumptions C34_blocks.
Example C34_instance : let sets := [[R 0 3; R 5 2]; [R 7 1; R 9 1]; []; [R 10 4]] in
  Forall addressable sets /\ Forall coalesced sets /\ ascending (concat sets) /\ history sets = [R 0 3; R 5 3; R 9 5].
Proof. cbn zeta. split; [repeat constructor; cbn; lia|]. split; [repeat constructor; cbn; lia|]. split; [cbn; lia|reflexivity]. Qed.

(** ** C49: the text of a set of ranges *)
Theorem C49_text : forall s rs, slen s < 2 ^ 64 -> Forall (fun r => location r + length r <= slen s) rs -> map_ranges rs s = Val (text_at s (covered rs)).
Proof.
  intros [|x s] rs L F.
  - cbn [map_ranges]. f_equal. induction (covered rs) as [|p l IH]; [reflexivity|]. cbn [text_at fold_right]. fold (text_at "" l). rewrite <- IH. reflexivity.
  - cbn [map_ranges]. rewrite (map_loop_ok rs _ "" L F). reflexivity.
Qed.
Print Assumptions C49_text.
(** hence ranges appended range by range give texts appended text by text *)
Theorem C49_append : forall s a b ta tb, slen s < 2 ^ 64 -> Forall (fun r => location r + length r <= slen s) (a ++ b) ->
  map_ranges a s = Val ta -> map_ranges b s = Val tb -> map_ranges (append_set a b) s = Val (ta +++ tb)%string.
Proof.
  intros s a b ta tb L F. pose proof F as F'. rewrite Forall_app in F'. destruct F' as [Fa Fb].
  rewrite (C49_text s a L Fa), (C49_text s b L Fb). intros E1 E2. injection E1 as <-. injection E2 as <-.
  assert (Aa : addressable a) by (eapply Forall_impl; [|exact Fa]; cbn; intros; lia).
  assert (Ab : addressable b) by (eapply Forall_impl; [|exact Fb]; cbn; intros; lia).
  rewrite C49_text; [|exact L|].
  - rewrite append_covers by assumption. rewrite text_at_app. reflexivity.
  - destruct (append_split a b Aa Ab) as [->|(a' & b' & v & w & -> & -> & H & ->)]; [exact F|].
    rewrite Forall_app in *. destruct Fa as [Fa Fl]. inversion Fb; subst. split; [exact Fa|]. constructor; [|assumption]. cbn [location length] in *. lia.
Qed.
Print Assumptions C49_append.
(** a range that ends one byte behind the source ends the work at once, the ranges behind it are lost;
    one that ends further behind discards everything *)
Theorem C49_beyond_refuted : map_ranges [R 0 2; R 2 2; R 0 1] "abc" = Val "abc"%string /\ map_ranges [R 0 2; R 2 3; R 0 1] "abc" = Val ""%string /\
  map_ranges [R 4 0] "abc" = Thrown.
Proof. repeat split. Qed.
Example C49_instance : map_ranges [R 0 2; R 3 3] "abcdef" = Val "abdef"%string.
Proof. reflexivity. Qed.
