From Verif Require Import Base Utf8Spec ByteBuffer ByteSpec.
Local Open Scope N_scope.

(** ** the length of a character from its first byte *)
Lemma char_len_ascii : forall a, (byte a < 0xC0 -> char_len a = 1) /\ (0xC0 <= byte a < 0xE0 -> char_len a = 2) /\
  (0xE0 <= byte a < 0xF0 -> char_len a = 3) /\ (0xF0 <= byte a -> char_len a = 4).
Proof.
  intros a. destruct a as [b0 b1 b2 b3 b4 b5 b6 b7]. destruct b0, b1, b2, b3, b4, b5, b6, b7; vm_compute; repeat split; intros H; try reflexivity; exfalso.
  all: try discriminate H; try (destruct H as [H1 H2]; try discriminate H2; try exact (H1 eq_refl)); exact (H eq_refl).
Qed.
Lemma utf8_cons : forall c, scalar c -> exists a r, utf8 c = String a r /\ char_len a = slen (utf8 c) /\ (c <> 0 -> a <> "000"%char) .
Proof.
  intros c H. unfold utf8, utf8_bytes.
  assert (c <= 0x10FFFF).
  { unfold scalar, scalarb in H. apply orb_true_iff in H as [H|H]; [apply N.ltb_lt in H; lia|]. apply andb_true_iff in H as [_ H]. apply N.leb_le in H. exact H. }
  destruct (N.leb_spec c 0x7F); [|destruct (N.leb_spec c 0x7FF); [|destruct (N.leb_spec c 0xFFFF)]]; cbn [of_bytes]; eexists _, _; (split; [reflexivity|]).
  - assert (B : byte (chr c) = c) by (apply byte_chr; lia). split.
    + rewrite (proj1 (char_len_ascii _)); [reflexivity|lia].
    + intros N E. apply N. rewrite <- B, E. reflexivity.
  - assert (Q : c / 64 < 32) by (apply N.div_lt_upper_bound; lia). assert (Q2 : 2 <= c / 64) by (apply N.div_le_lower_bound; lia).
    assert (B : byte (chr (192 + c / 64)) = 192 + c / 64) by (apply byte_chr; lia). split.
    + rewrite (proj1 (proj2 (char_len_ascii _))); [reflexivity|lia].
    + intros N E. rewrite E in B. change (byte "000") with 0 in B. lia.
  - assert (Q : c / 4096 < 16) by (apply N.div_lt_upper_bound; lia).
    revert Q. generalize (c / 4096). intros q Q.
    assert (B : byte (chr (224 + q)) = 224 + q) by (apply byte_chr; lia). split.
    + rewrite (proj1 (proj2 (proj2 (char_len_ascii _)))); [reflexivity|lia].
    + intros N E. rewrite E in B. change (byte "000") with 0 in B. lia.
  - assert (Q : c / 262144 < 5) by (apply N.div_lt_upper_bound; lia).
    revert Q. generalize (c / 262144). intros q Q.
    assert (B : byte (chr (240 + q)) = 240 + q) by (apply byte_chr; lia). split.
    + rewrite (proj2 (proj2 (proj2 (char_len_ascii _)))); [reflexivity|lia].
    + intros N E. rewrite E in B. change (byte "000") with 0 in B. lia.
Qed.

(** ** strings *)
Lemma slen_app : forall a b, slen (a +++ b) = slen a + slen b.
Proof. intros a b. unfold slen. induction a as [|x a IH]; cbn [append String.length]; [lia|]. rewrite !Nat2N.inj_succ. lia. Qed.
Lemma app_assoc_s : forall a b c, ((a +++ b) +++ c)%string = (a +++ (b +++ c))%string.
Proof. induction a as [|x a IH]; intros b c; cbn; [reflexivity|]. rewrite IH. reflexivity. Qed.
Lemma utf8s_app : forall a b, utf8s (a ++ b) = (utf8s a +++ utf8s b)%string.
Proof. unfold utf8s. induction a as [|x a IH]; intros b; cbn; [reflexivity|]. rewrite IH, app_assoc_s. reflexivity. Qed.
Lemma utf8s_cons : forall c a, utf8s (c :: a) = (utf8 c +++ utf8s a)%string.
Proof. reflexivity. Qed.
Lemma app_nil_s : forall a, (a +++ "")%string = a.
Proof. induction a as [|x a IH]; cbn; [reflexivity|]. rewrite IH. reflexivity. Qed.
Lemma get_app : forall a b, String.get (String.length a) (a +++ b)%string = String.get 0 b.
Proof. induction a as [|x a IH]; intros b; cbn; [reflexivity|]. apply IH. Qed.
Lemma c_at_app : forall a x b, c_at (a +++ String x b)%string (slen a) = Val x.
Proof. intros. unfold c_at, slen. rewrite Nat2N.id, get_app. reflexivity. Qed.
Lemma c_at_end : forall a, c_at a (slen a) = Val "000"%char.
Proof. intros. unfold c_at. unfold slen at 1. rewrite Nat2N.id. rewrite <- (app_nil_s a) at 2. rewrite get_app. cbn. rewrite N.eqb_refl. reflexivity. Qed.
Lemma get_none : forall s n, (String.length s <= n)%nat -> String.get n s = None.
Proof. induction s as [|x s IH]; intros [|n] H; cbn in *; try reflexivity; try lia. apply IH. lia. Qed.
Lemma char_len_pos : forall a, 1 <= char_len a <= 4.
Proof.
  intros a. destruct (char_len_ascii a) as (A & B & C & D).
  destruct (N.lt_ge_cases (byte a) 0xC0); [rewrite A by assumption; lia|].
  destruct (N.lt_ge_cases (byte a) 0xE0); [rewrite B by lia; lia|].
  destruct (N.lt_ge_cases (byte a) 0xF0); [rewrite C by lia; lia|]. rewrite D by lia. lia.
Qed.

Definition proper (c : N) : Prop := scalar c /\ c <> 0.

(** ** counting characters *)
Lemma strnlen_exact : forall todo after off done i j pre fuel len,
  Forall proper todo -> off = slen pre -> i = slen (utf8s done) -> (List.length todo < fuel)%nat ->
  (len = slen (utf8s (done ++ todo)) \/ (after = [] /\ slen (utf8s (done ++ todo)) <= len)) ->
  strnlen_loop fuel (pre +++ utf8s (done ++ todo ++ after))%string off len i j = Val (j + N.of_nat (List.length todo)).
Proof.
  induction todo as [|c todo IH]; intros after off done i j pre fuel len P -> -> F L; (destruct fuel as [|fuel]; [cbn in F; lia|]); cbn [strnlen_loop].
  - cbn [app]. rewrite app_nil_r in L. rewrite utf8s_app. rewrite <- app_assoc_s. rewrite <- slen_app. cbn [List.length].
    destruct L as [->|[-> L]].
    + assert (exists x, c_at ((pre +++ utf8s done) +++ utf8s after)%string (slen (pre +++ utf8s done)%string) = Val x) as [x ->].
      { destruct (utf8s after); [rewrite app_nil_s, c_at_end; eauto|rewrite c_at_app; eauto]. }
      cbn [andthen]. rewrite N.ltb_irrefl. cbn [negb]. rewrite orb_true_r. f_equal. lia.
    + cbn [utf8s map sconcat]. replace (utf8s []) with ""%string by reflexivity. rewrite app_nil_s, c_at_end. cbn [andthen Ascii.eqb orb]. cbn. f_equal. lia.
  - inversion P as [|? ? [Sc Nz] P']; subst. destruct (utf8_cons c Sc) as (a & r & E & CL & NZ).
    assert (Q : (pre +++ utf8s (done ++ (c :: todo) ++ after))%string = ((pre +++ utf8s done) +++ String a (r +++ utf8s (todo ++ after)))%string).
    { rewrite utf8s_app. cbn [app]. rewrite utf8s_cons, E, app_assoc_s. reflexivity. }
    rewrite Q at 1. rewrite <- slen_app, c_at_app. cbn [andthen].
    rewrite (proj2 (Ascii.eqb_neq a "000") (NZ Nz)). cbn [orb].
    assert (LT : slen (utf8s done) < len).
    { assert (slen (utf8s (done ++ c :: todo)) <= len) by (destruct L as [->|[_ L]]; [lia|exact L]).
      rewrite utf8s_app, slen_app, utf8s_cons, slen_app in H. pose proof (char_len_pos a). lia. }
    rewrite (proj2 (N.ltb_lt _ _) LT). cbn [negb].
    replace (done ++ (c :: todo) ++ after) with ((done ++ [c]) ++ todo ++ after) by (rewrite <- app_assoc; reflexivity).
    rewrite IH; [f_equal; cbn [List.length]; lia|assumption|reflexivity| |cbn in F; lia|].
    + rewrite utf8s_app, slen_app, utf8s_cons, slen_app. cbn. lia.
    + replace ((done ++ [c]) ++ todo) with (done ++ c :: todo) by (rewrite <- app_assoc; reflexivity). exact L.
Qed.
Lemma proper_length : forall cs, Forall proper cs -> (List.length cs <= String.length (utf8s cs))%nat.
Proof.
  induction 1 as [|c cs [Sc _] F IH]; [cbn; lia|]. rewrite utf8s_cons. destruct (utf8_cons c Sc) as (a & r & E & CL & _). pose proof (char_len_pos a).
  pose proof (slen_app (utf8 c) (utf8s cs)). unfold slen in *. cbn [List.length]. lia.
Qed.
Lemma strnlen_ok : forall before inside after, Forall proper before -> Forall proper inside -> Forall proper after ->
  forall len, (len = slen (utf8s inside) \/ (after = [] /\ slen (utf8s inside) <= len)) ->
  strnlen_utf8 (utf8s (before ++ inside ++ after)) (slen (utf8s before)) len = Val (N.of_nat (List.length inside)).
Proof.
  intros before inside after B I A len L. unfold strnlen_utf8. destruct (N.eqb_spec len 0) as [->|NE].
  - assert (Z : slen (utf8s inside) = 0) by (destruct L as [<-|[_ L]]; lia). destruct inside as [|c inside]; [reflexivity|].
    inversion I as [|? ? [Sc _] _]; subst. destruct (utf8_cons c Sc) as (a & r & E & CL & _). pose proof (char_len_pos a). rewrite utf8s_cons, slen_app in Z. lia.
  - rewrite utf8s_app. change (inside ++ after) with ([] ++ inside ++ after).
    rewrite strnlen_exact; try reflexivity; try assumption.
    pose proof (proper_length inside I). cbn [app]. rewrite utf8s_app. 
    enough (String.length (utf8s inside) <= String.length (utf8s before +++ utf8s inside +++ utf8s after)%string)%nat by lia.
    pose proof (slen_app (utf8s before) (utf8s inside +++ utf8s after)%string) as H1. pose proof (slen_app (utf8s inside) (utf8s after)) as H2. unfold slen in *. lia.
Qed.

Lemma slen_zero : forall cs, Forall proper cs -> slen (utf8s cs) = 0 -> cs = [].
Proof.
  intros [|c cs] P Z; [reflexivity|]. inversion P as [|? ? [Sc _] _]; subst. destruct (utf8_cons c Sc) as (a & r & E & CL & _). pose proof (char_len_pos a). rewrite utf8s_cons, slen_app in Z. lia.
Qed.
Lemma to_characters_ok : forall before inside after, Forall proper before -> Forall proper inside -> Forall proper after ->
  forall len, (len = slen (utf8s inside) \/ (after = [] /\ slen (utf8s inside) <= len)) ->
  to_characters (R (slen (utf8s before)) len) (utf8s (before ++ inside ++ after)) =
  Val (R (N.of_nat (List.length before)) (N.of_nat (List.length inside))).
Proof.
  intros before inside after B I A len L. unfold to_characters. cbn [location length].
  destruct (N.eqb_spec (slen (utf8s (before ++ inside ++ after))) 0) as [Z|NZ].
  { apply slen_zero in Z; [|rewrite !Forall_app; tauto]. apply app_eq_nil in Z as [-> Z]. apply app_eq_nil in Z as [-> ->]. reflexivity. }
  assert (E1 : (if 0 <? slen (utf8s before) then strnlen_utf8 (utf8s (before ++ inside ++ after)) 0 (slen (utf8s before)) else Val 0) = Val (N.of_nat (List.length before))).
  { destruct (N.ltb_spec 0 (slen (utf8s before))).
    - exact (strnlen_ok [] before (inside ++ after) (Forall_nil _) B ltac:(rewrite Forall_app; tauto) _ (or_introl eq_refl)).
    - rewrite (slen_zero before B); [reflexivity|lia]. }
  rewrite E1. cbn [andthen].
  assert (E2 : (if 0 <? len then strnlen_utf8 (utf8s (before ++ inside ++ after)) (slen (utf8s before)) len else Val 0) = Val (N.of_nat (List.length inside))).
  { destruct (N.ltb_spec 0 len).
    - apply strnlen_ok; assumption.
    - assert (Z : slen (utf8s inside) = 0) by (destruct L as [<-|[_ L]]; lia). rewrite (slen_zero inside I Z). reflexivity. }
  rewrite E2. reflexivity.
Qed.

(** ** the index *)
Fixpoint expected (k : N) (cs : list N) : list N :=
  match cs with [] => [] | c :: r => repeat k (String.length (utf8 c)) ++ expected (k + 1) r end.
Lemma expected_length : forall cs k, List.length (expected k cs) = String.length (utf8s cs).
Proof.
  induction cs as [|c cs IH]; intros k; [reflexivity|]. cbn [expected]. rewrite app_length, repeat_length, IH, utf8s_cons.
  pose proof (slen_app (utf8 c) (utf8s cs)). unfold slen in *. lia.
Qed.
Lemma set_nth_app : forall l y t x, set_nth (l ++ y :: t) (List.length l) x = Some (l ++ x :: t).
Proof. induction l as [|z l IH]; intros y t x; cbn; [reflexivity|]. rewrite IH. reflexivity. Qed.
Lemma fill_ok : forall x l t c pos, pos = N.of_nat (List.length l + List.length x) ->
  fill (l ++ x ++ t) pos (List.length x) c = Val (l ++ repeat c (List.length x) ++ t).
Proof.
  induction x as [|y x IH]; intros l t c pos ->; cbn [List.length fill repeat app]; [reflexivity|].
  unfold vec_set. replace (N.to_nat (N.of_nat (List.length l + S (List.length x)) - N.of_nat (S (List.length x)))) with (List.length l) by lia.
  rewrite set_nth_app. cbn [andthen].
  replace (l ++ c :: x ++ t) with ((l ++ [c]) ++ x ++ t) by (rewrite <- app_assoc; reflexivity).
  rewrite IH; [|rewrite app_length; cbn; lia]. rewrite <- app_assoc. reflexivity.
Qed.
Lemma index_loop_ok : forall todo done fuel l k, Forall proper todo -> (List.length todo < fuel)%nat -> List.length l = String.length (utf8s done) ->
  index_loop fuel (utf8s (done ++ todo)) (slen (utf8s done)) k (l ++ repeat 0 (String.length (utf8s todo))) = Val (l ++ expected k todo).
Proof.
  induction todo as [|c todo IH]; intros done fuel l k P F L; (destruct fuel as [|fuel]; [cbn in F; lia|]); cbn [index_loop].
  - rewrite app_nil_r, c_at_end. reflexivity.
  - inversion P as [|? ? [Sc Nz] P']; subst. destruct (utf8_cons c Sc) as (a & r & E & CL & NZ).
    assert (Q : (utf8s (done ++ c :: todo))%string = (utf8s done +++ String a (r +++ utf8s todo))%string).
    { rewrite utf8s_app, utf8s_cons, E. reflexivity. }
    rewrite Q at 1. rewrite c_at_app. cbn [andthen]. rewrite (proj2 (Ascii.eqb_neq a "000") (NZ Nz)). cbn [orb].
    assert (LT : slen (utf8s done) < slen (utf8s (done ++ c :: todo))).
    { rewrite utf8s_app, slen_app, utf8s_cons, slen_app. pose proof (char_len_pos a). lia. }
    rewrite (proj2 (N.ltb_lt _ _) LT). cbn [negb].
    assert (RL : repeat 0 (String.length (utf8s (c :: todo))) = repeat 0 (String.length (utf8 c)) ++ repeat 0 (String.length (utf8s todo))).
    { rewrite <- repeat_app. f_equal. rewrite utf8s_cons. pose proof (slen_app (utf8 c) (utf8s todo)). unfold slen in *. lia. }
    rewrite RL.
    assert (CN : N.to_nat (char_len a) = List.length (repeat 0 (String.length (utf8 c)))) by (rewrite repeat_length, CL; unfold slen; lia).
    rewrite CN at 1. rewrite fill_ok; [|rewrite repeat_length, CL; unfold slen in *; lia].
    cbn [andthen]. rewrite repeat_length.
    replace (done ++ c :: todo) with ((done ++ [c]) ++ todo) by (rewrite <- app_assoc; reflexivity).
    replace (slen (utf8s done) + char_len a) with (slen (utf8s (done ++ [c]))).
    2: { rewrite utf8s_app, slen_app, CL, utf8s_cons. cbn. rewrite app_nil_s. reflexivity. }
    rewrite app_assoc. rewrite IH; [|assumption|cbn in F; lia|].
    + rewrite <- app_assoc. reflexivity.
    + rewrite app_length, repeat_length, L, utf8s_app, utf8s_cons. pose proof (slen_app (utf8s done) (utf8 c +++ utf8s [])%string) as H. cbn in H. cbn. rewrite app_nil_s in *. unfold slen in H. lia.
Qed.
Lemma build_index_ok : forall cs, Forall proper cs -> build_index (utf8s cs) = Val (expected 0 cs).
Proof.
  intros cs P. unfold build_index. pose proof (proper_length cs P).
  exact (index_loop_ok cs [] (S (String.length (utf8s cs))) [] 0 P ltac:(lia) eq_refl).
Qed.
Lemma expected_get : forall cs k p i, char_at cs p i -> nth_error (expected k cs) (N.to_nat p) = Some (k + i).
Proof.
  induction cs as [|c cs IH]; intros k p i (L & A & B); [cbn in L; lia|]. cbn [expected].
  destruct (N.eq_dec i 0) as [->|NI].
  - unfold starts in B. change (N.to_nat (0 + 1)) with 1%nat in B. cbn [firstn] in B. rewrite utf8s_cons in B. change (utf8s []) with ""%string in B. rewrite app_nil_s in B. unfold slen in B.
    rewrite nth_error_app1 by (rewrite repeat_length; lia). rewrite N.add_0_r. rewrite nth_error_repeat by lia. reflexivity.
  - assert (SI : forall j, 0 < j -> starts (c :: cs) j = slen (utf8 c) + starts cs (j - 1)).
    { intros j J. unfold starts. replace (N.to_nat j) with (S (N.to_nat (j - 1))) by lia. cbn [firstn]. rewrite utf8s_cons, slen_app. reflexivity. }
    rewrite SI in A by lia. rewrite SI in B by lia. unfold slen in A at 1, B at 1.
    rewrite nth_error_app2 by (rewrite repeat_length; lia). rewrite repeat_length.
    specialize (IH (k + 1) (p - N.of_nat (String.length (utf8 c))) (i - 1)).
    replace (N.to_nat p - String.length (utf8 c))%nat with (N.to_nat (p - N.of_nat (String.length (utf8 c)))) by lia.
    rewrite IH; [f_equal; lia|]. repeat split.
    + cbn [List.length] in L. lia.
    + lia.
    + replace (i - 1 + 1) with (i + 1 - 1) by lia. lia.
Qed.

Lemma starts_app : forall a b i, i <= N.of_nat (List.length b) -> starts (a ++ b) (N.of_nat (List.length a) + i) = slen (utf8s a) + starts b i.
Proof.
  intros a b i H. unfold starts. replace (N.to_nat (N.of_nat (List.length a) + i)) with (List.length a + N.to_nat i)%nat by lia.
  rewrite firstn_app_2, utf8s_app, slen_app. reflexivity.
Qed.
Lemma starts_mono : forall cs i, Forall proper cs -> i < N.of_nat (List.length cs) -> starts cs i < starts cs (i + 1).
Proof.
  intros cs i P H. unfold starts. replace (N.to_nat (i + 1)) with (S (N.to_nat i)) by lia.
  assert (K : (N.to_nat i < List.length cs)%nat) by lia. revert K P. generalize (N.to_nat i). clear. intros n; revert cs.
  induction n as [|n IH]; intros [|c cs] K P; cbn in K; try lia; inversion P as [|? ? [Sc _] P']; subst; cbn [firstn]; rewrite utf8s_cons, slen_app; destruct (utf8_cons c Sc) as (a & r & E & CL & _); pose proof (char_len_pos a).
  - change (slen (utf8s [])) with 0. lia.
  - rewrite utf8s_cons, slen_app. specialize (IH cs ltac:(lia) P'). cbn [firstn] in IH. lia.
Qed.
Lemma char_at_start : forall a c b, Forall proper (a ++ c :: b) -> char_at (a ++ c :: b) (slen (utf8s a)) (N.of_nat (List.length a)).
Proof.
  intros a c b P. assert (starts (a ++ c :: b) (N.of_nat (List.length a)) = slen (utf8s a)).
  { pose proof (starts_app a (c :: b) 0 ltac:(lia)) as H. rewrite N.add_0_r in H. rewrite H. change (starts (c :: b) 0) with 0. lia. }
  split; [rewrite app_length; cbn; lia|]. split; [lia|]. rewrite <- H. apply starts_mono; [exact P|rewrite app_length; cbn; lia].
Qed.
Lemma char_at_last : forall a c, Forall proper (a ++ [c]) -> char_at (a ++ [c]) (slen (utf8s (a ++ [c])) - 1) (N.of_nat (List.length a)).
Proof.
  intros a c P. assert (E1 : starts (a ++ [c]) (N.of_nat (List.length a)) = slen (utf8s a)).
  { pose proof (starts_app a [c] 0 ltac:(lia)) as H. rewrite N.add_0_r in H. rewrite H. change (starts [c] 0) with 0. lia. }
  assert (E2 : starts (a ++ [c]) (N.of_nat (List.length a) + 1) = slen (utf8s (a ++ [c]))).
  { unfold starts. rewrite firstn_all2; [reflexivity|rewrite app_length; cbn; lia]. }
  pose proof (starts_mono (a ++ [c]) (N.of_nat (List.length a)) P ltac:(rewrite app_length; cbn; lia)).
  split; [rewrite app_length; cbn; lia|]. rewrite E1, E2 in *.
  assert (slen (utf8s a) < slen (utf8s (a ++ [c]))) by lia. lia.
Qed.

(** ** 64-bit arithmetic *)
Lemma w64_small : forall n, n < 2 ^ 64 -> w64 n = n.
Proof. intros. apply N.mod_small. assumption. Qed.
Lemma wadd_small : forall a b, a + b < 2 ^ 64 -> wadd a b = a + b.
Proof. intros. apply w64_small. assumption. Qed.
Lemma wsub_small : forall a b, a < 2 ^ 64 -> b <= a -> wsub a b = a - b.
Proof.
  intros a b H L. unfold wsub. rewrite (w64_small b) by lia. unfold w64.
  replace (a + 2 ^ 64 - b) with (a - b + 1 * 2 ^ 64) by lia. rewrite N.mod_add by discriminate. apply N.mod_small. lia.
Qed.
Lemma wsub_pred : forall x l, l <= x -> x + 1 < 2 ^ 64 -> wsub x (wsub l 1) = x - l + 1.
Proof.
  intros x l L H. destruct (N.eq_dec l 0) as [->|N0].
  - unfold wsub at 2. change (w64 (0 + 2 ^ 64 - w64 1)) with (2 ^ 64 - 1). unfold wsub. rewrite (w64_small (2 ^ 64 - 1)) by reflexivity.
    replace (x + 2 ^ 64 - (2 ^ 64 - 1)) with (x + 1) by lia. rewrite w64_small by lia. lia.
  - rewrite (wsub_small l 1) by lia. rewrite wsub_small by lia. lia.
Qed.

Lemma index_to_characters_ok : forall before inside after, Forall proper (before ++ inside ++ after) ->
  slen (utf8s before) < slen (utf8s (before ++ inside ++ after)) ->
  forall len, (len = slen (utf8s inside) \/ (after = [] /\ slen (utf8s inside) <= len)) ->
  slen (utf8s before) + len < 2 ^ 64 -> slen (utf8s (before ++ inside ++ after)) < 2 ^ 64 ->
  index_to_characters (R (slen (utf8s before)) len) (expected 0 (before ++ inside ++ after)) =
  Val (R (N.of_nat (List.length before)) (N.of_nat (List.length inside))).
Proof.
  intros before inside after P LT len L A1 A2. unfold index_to_characters. cbn [location length]. rewrite expected_length. fold (slen (utf8s (before ++ inside ++ after))).
  set (size := slen (utf8s (before ++ inside ++ after))) in *.
  assert (SZ : size = slen (utf8s before) + (slen (utf8s inside) + slen (utf8s after))) by (unfold size; rewrite !utf8s_app, !slen_app; reflexivity).
  rewrite (proj2 (N.eqb_neq size 0)) by lia. rewrite (wadd_small _ _ A1).
  (* the length used *)
  assert (EL : (if size <? slen (utf8s before) + len then wsub len (wsub (slen (utf8s before) + len) size) else len) = slen (utf8s inside)).
  { destruct (N.ltb_spec size (slen (utf8s before) + len)).
    - destruct L as [->|[-> L]]; [lia|]. change (slen (utf8s [])) with 0 in SZ. rewrite (wsub_small (slen (utf8s before) + len) size) by lia. rewrite wsub_small by lia. lia.
    - destruct L as [->|[-> L]]; [reflexivity|]. change (slen (utf8s [])) with 0 in SZ. lia. }
  rewrite EL. clear EL.
  assert (EB : (if 0 <? slen (utf8s before) then vec_get (expected 0 (before ++ inside ++ after)) (slen (utf8s before)) else Val 0) = Val (N.of_nat (List.length before))).
  { destruct (N.ltb_spec 0 (slen (utf8s before))) as [H|H].
    - unfold vec_get. destruct (inside ++ after) as [|c r] eqn:E.
      + exfalso. apply app_eq_nil in E as [-> ->]. change (slen (utf8s [])) with 0 in SZ. lia.
      + rewrite (expected_get _ 0 _ _ (char_at_start before c r P)). reflexivity.
    - rewrite (slen_zero before); [reflexivity| |lia]. rewrite Forall_app in P. tauto. }
  rewrite EB. cbn [andthen]. clear EB.
  assert (PI : Forall proper inside) by (rewrite !Forall_app in P; tauto). assert (PA : Forall proper after) by (rewrite !Forall_app in P; tauto).
  assert (PB : Forall proper before) by (rewrite !Forall_app in P; tauto).
  assert (LB : N.of_nat (List.length (before ++ inside ++ after)) <= size).
  { pose proof (proper_length _ P) as H. unfold size, slen. lia. }
  rewrite !app_length in LB.
  destruct (N.ltb_spec 0 (slen (utf8s inside))) as [HI|HI].
  2: { rewrite (slen_zero inside PI) by lia. reflexivity. }
  rewrite (wadd_small (slen (utf8s before)) (slen (utf8s inside))) by lia.
  destruct (N.leb_spec size (slen (utf8s before) + slen (utf8s inside))) as [H|H].
  - assert (after = []) by (apply slen_zero; [exact PA|lia]). subst after. rewrite app_nil_r in *.
    destruct (exists_last (l := inside)) as (i' & c & ->). { intros ->. change (slen (utf8s [])) with 0 in HI. lia. }
    unfold vec_get. unfold size in *. rewrite !app_assoc, !app_nil_r in *. rewrite (expected_get _ 0 _ _ (char_at_last (before ++ i') c P)). cbn [andthen].
    rewrite !app_length in *. cbn [List.length] in *. rewrite wsub_pred; [f_equal; f_equal; lia|lia|lia].
  - destruct after as [|c r]. { change (slen (utf8s [])) with 0 in SZ. lia. }
    unfold vec_get. unfold size in *. rewrite !app_assoc in *. rewrite <- slen_app, <- utf8s_app. rewrite (expected_get _ 0 _ _ (char_at_start (before ++ inside) c r P)). cbn [andthen].
    rewrite app_length in *. cbn [List.length] in *. rewrite wsub_small; [f_equal; f_equal; lia|lia|lia].
Qed.

(** ** termination *)
Lemma strnlen_terminates : forall fuel s off len i j, (String.length s - N.to_nat (off + i) < fuel)%nat -> strnlen_loop fuel s off len i j <> Endless.
Proof.
  induction fuel as [|fuel IH]; intros s off len i j F; [lia|]. cbn [strnlen_loop]. unfold c_at.
  destruct (String.get (N.to_nat (off + i)) s) as [a|] eqn:G.
  - cbn [andthen]. destruct (Ascii.eqb a "000" || negb (i <? len))%bool; [discriminate|]. apply IH.
    assert (N.to_nat (off + i) < String.length s)%nat.
    { destruct (Nat.lt_ge_cases (N.to_nat (off + i)) (String.length s)) as [H|H]; [exact H|]. rewrite (get_none s _ H) in G. discriminate. }
    pose proof (char_len_pos a). lia.
  - destruct (off + i =? slen s); cbn; discriminate.
Qed.
Lemma fill_terminates : forall k v p c, fill v p k c <> Endless.
Proof.
  induction k as [|k IH]; intros v p c; cbn [fill]; [discriminate|]. unfold vec_set. destruct (set_nth v _ c); cbn [andthen]; [apply IH|discriminate].
Qed.
Lemma index_terminates : forall fuel s pos cp v, (String.length s - N.to_nat pos < fuel)%nat -> index_loop fuel s pos cp v <> Endless.
Proof.
  induction fuel as [|fuel IH]; intros s pos cp v F; [lia|]. cbn [index_loop]. unfold c_at.
  destruct (String.get (N.to_nat pos) s) as [a|] eqn:G.
  - cbn [andthen]. destruct (Ascii.eqb a "000" || negb (pos <? slen s))%bool; [discriminate|].
    assert (N.to_nat pos < String.length s)%nat.
    { destruct (Nat.lt_ge_cases (N.to_nat pos) (String.length s)) as [H|H]; [exact H|]. rewrite (get_none s _ H) in G. discriminate. }
    pose proof (char_len_pos a). pose proof (fill_terminates (N.to_nat (char_len a)) v (pos + char_len a) cp).
    destruct (fill _ _ _ _); cbn [andthen]; try discriminate; try congruence. apply IH. lia.
  - destruct (pos =? slen s); cbn; discriminate.
Qed.

(** ** sets of ranges *)
Lemma upfrom_app : forall n m a, upfrom a (n + m) = upfrom a n ++ upfrom (a + N.of_nat n) m.
Proof. induction n as [|n IH]; intros m a; cbn [upfrom Nat.add app]; [f_equal; lia|]. rewrite IH. do 2 f_equal. f_equal. lia. Qed.
Lemma covered_app : forall a b, covered (a ++ b) = covered a ++ covered b.
Proof. intros. unfold covered. rewrite map_app, concat_app. reflexivity. Qed.
Lemma append_split : forall this val, addressable this -> addressable val ->
  append_set this val = this ++ val \/
  exists a b v w, this = a ++ [b] /\ val = v :: w /\ location v = location b + length b /\
    append_set this val = a ++ R (location b) (length b + length v) :: w.
Proof.
  intros this val A1 A2. unfold append_set. destruct val as [|v w]; [left; rewrite app_nil_r; reflexivity|].
  destruct (rev this) as [|b br] eqn:E; [left; reflexivity|].
  assert (T : this = rev br ++ [b]) by (rewrite <- (rev_involutive this), E; reflexivity).
  assert (AB : location b + length b < 2 ^ 64).
  { unfold addressable in A1. rewrite T, Forall_app in A1. destruct A1 as [_ A1]. inversion A1; assumption. }
  rewrite (wadd_small _ _ AB). destruct (N.eqb_spec (location v) (location b + length b)) as [H|H]; [|left; reflexivity].
  right. exists (rev br), b, v, w. repeat split; try assumption. rewrite wadd_small; [reflexivity|].
  inversion A2; subst. lia.
Qed.
Lemma append_covers : forall this val, addressable this -> addressable val -> covered (append_set this val) = covered this ++ covered val.
Proof.
  intros this val A1 A2. destruct (append_split this val A1 A2) as [->|(a & b & v & w & -> & -> & H & ->)]; [apply covered_app|].
  rewrite !covered_app. rewrite <- app_assoc. f_equal. unfold covered. cbn [map concat]. rewrite app_nil_r, app_assoc. f_equal.
  unfold bytes_of. cbn [location length]. rewrite H. replace (N.to_nat (length b + length v)) with (N.to_nat (length b) + N.to_nat (length v))%nat by lia.
  rewrite upfrom_app. do 2 f_equal. lia.
Qed.
Lemma append_addressable : forall this val, addressable this -> addressable val -> addressable (append_set this val).
Proof.
  intros this val A1 A2. destruct (append_split this val A1 A2) as [->|(a & b & v & w & -> & -> & H & ->)]; unfold addressable in *; rewrite ?Forall_app in *; [tauto|].
  destruct A1 as [A1 B]. inversion B; subst. inversion A2; subst. split; [assumption|]. constructor; [cbn; lia|assumption].
Qed.
Lemma coalesced_app : forall a b v w, coalesced (a ++ [b]) -> coalesced (v :: w) -> location v <> location b + length b -> coalesced ((a ++ [b]) ++ v :: w).
Proof.
  induction a as [|x a IH]; intros b v w A B N; [cbn; auto|]. cbn [app] in *. destruct a as [|y a]; cbn [app coalesced] in *; [tauto|]. split; [tauto|]. apply (IH b v w); tauto.
Qed.
Lemma append_coalesced : forall this val, addressable this -> addressable val -> coalesced this -> coalesced val -> coalesced (append_set this val).
Proof.
  intros this val A1 A2 C1 C2. unfold append_set. destruct val as [|v w]; [exact C1|]. destruct (rev this) as [|b br] eqn:E.
  - assert (T : this = []) by (rewrite <- (rev_involutive this), E; reflexivity). subst. exact C2.
  - assert (T : this = rev br ++ [b]) by (rewrite <- (rev_involutive this), E; reflexivity). subst this.
    assert (AB : location b + length b < 2 ^ 64).
    { unfold addressable in A1. rewrite Forall_app in A1. destruct A1 as [_ A1]. inversion A1; assumption. }
    rewrite (wadd_small _ _ AB). destruct (N.eqb_spec (location v) (location b + length b)) as [H|H].
    + assert (wadd (length b) (length v) = length b + length v) as -> by (apply wadd_small; inversion A2; subst; lia).
      generalize (rev br) C1. clear - C2 H. induction l as [|x l IH]; intros C1.
      * cbn [app]. destruct w as [|u w]; [exact I|]. destruct C2 as [D1 D2]. split; [cbn; lia|exact D2].
      * cbn [app] in *. destruct l as [|y l]; cbn [app coalesced] in *; [|split; [tauto|apply IH; tauto]].
        split; [cbn; tauto|]. exact (IH I).
    + apply coalesced_app; assumption.
Qed.
Lemma ascending_merge : forall a b v w, ascending (a ++ b :: v :: w) -> location v = location b + length b ->
  ascending (a ++ R (location b) (length b + length v) :: w).
Proof.
  induction a as [|x a IH]; intros b v w A H.
  - cbn [app] in *. destruct A as [_ A]. destruct w as [|u w]; [exact I|]. destruct A as [A1 A2]. split; [cbn; lia|exact A2].
  - cbn [app] in *. destruct a as [|y a]; cbn [app] in *.
    + destruct A as [A1 A2]. split; [exact A1|]. apply (IH b v w A2 H).
    + destruct A as [A1 A2]. split; [exact A1|]. apply (IH b v w A2 H).
Qed.
Lemma append_ascending : forall this val rest, addressable this -> addressable val -> ascending (this ++ val ++ rest) -> ascending (append_set this val ++ rest).
Proof.
  intros this val rest A1 A2 A. destruct (append_split _ _ A1 A2) as [->|(a & b & v & w & -> & -> & H & ->)]; [rewrite <- app_assoc; exact A|].
  rewrite <- app_assoc in A. rewrite <- app_assoc. apply (ascending_merge a b v (w ++ rest)); [exact A|exact H].
Qed.

(** ** text of ranges *)
Lemma text_at_app : forall s a b, text_at s (a ++ b) = (text_at s a +++ text_at s b)%string.
Proof. intros s a b. induction a as [|p a IH]; [reflexivity|]. cbn [app text_at fold_right]. fold (text_at s (a ++ b)). fold (text_at s a). rewrite IH. destruct (String.get (N.to_nat p) s); reflexivity. Qed.
Lemma text_at_substring : forall n s p, text_at s (upfrom p n) = String.substring (N.to_nat p) n s.
Proof.
  assert (T0 : forall s, String.substring 0 0 s = ""%string) by (intros [|x s]; reflexivity).
  assert (TS : forall s p, String.substring p 0 s = ""%string) by (induction s as [|x s IH]; intros [|p]; cbn; auto).
  assert (ST : forall s p n, String.substring p (S n) s = match String.get p s with Some a => String a (String.substring (S p) n s) | None => ""%string end).
  { induction s as [|x s IH]; intros [|p] n; try reflexivity; try (destruct n; reflexivity).
    cbn [String.substring String.get]. rewrite IH. destruct (String.get p s); reflexivity. }
  assert (SE : forall s p n, String.get p s = None -> String.substring p n s = ""%string).
  { induction s as [|x s IH]; intros [|p] n G; try reflexivity; try (destruct n; reflexivity); cbn in G; [discriminate|]. cbn [String.substring]. apply IH. exact G. }
  assert (GN : forall s p, String.get p s = None -> String.get (S p) s = None).
  { induction s as [|x s IH]; intros [|p] G; try reflexivity; cbn in G; [discriminate|]. cbn. apply IH. exact G. }
  induction n as [|n IH]; intros s p; cbn [upfrom text_at fold_right]; [rewrite TS; reflexivity|].
  fold (text_at s (upfrom (p + 1) n)). rewrite IH. replace (N.to_nat (p + 1)) with (S (N.to_nat p)) by lia. rewrite ST.
  destruct (String.get (N.to_nat p) s) eqn:G; [reflexivity|]. apply SE. apply GN. exact G.
Qed.
Lemma map_loop_ok : forall rs s acc, slen s < 2 ^ 64 -> Forall (fun r => location r + length r <= slen s) rs -> map_loop rs s acc = Val (acc +++ text_at s (covered rs))%string.
Proof.
  induction rs as [|r rs IH]; intros s acc L F; cbn [map_loop covered map concat].
  - cbn. rewrite app_nil_s. reflexivity.
  - inversion F; subst. rewrite wadd_small by lia. rewrite (proj2 (N.ltb_ge _ _)) by lia.
    unfold substr. rewrite (proj2 (N.ltb_ge _ _)) by lia. cbn [andthen]. rewrite IH by assumption. rewrite text_at_app, app_assoc_s. f_equal. f_equal.
    unfold bytes_of. rewrite text_at_substring. reflexivity.
Qed.
