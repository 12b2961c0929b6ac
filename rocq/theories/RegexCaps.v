From Verif Require Import Base StringUtility StringSpec StringProofs Regex RegexSpec RegexProofs ByteBuffer Markdown MarkdownSpec MarkdownTree Keywords KeywordsSpec KeywordsProofs.
Local Open Scope string_scope.

(** the groups of a match, by the structure of the expression *)
Inductive caps : re -> string -> list (nat * string) -> Prop :=
| caps_eps : caps Eps "" []
| caps_set : forall n l c, in_set n l c = true -> caps (Set_ n l) (String c "") []
| caps_star : forall a s, lang (Star a) s -> caps (Star a) s []
| caps_cat : forall a b p q l m, caps a p l -> caps b q m -> caps (Cat a b) (p +++ q) (l ++ m)
| caps_left : forall a b s l, caps a s l -> caps (Alt a b) s l
| caps_right : forall a b s l, caps b s l -> caps (Alt a b) s l
| caps_grp : forall n a s l, caps a s l -> caps (Grp n a) s ((n, s) :: l).

Lemma substring_all : forall s, substring 0 (String.length s) s = s.
Proof. induction s as [|c s IH]; [reflexivity|]. cbn. now rewrite IH. Qed.
Lemma cut_at : forall p q, substring 0 (String.length p) (p +++ q) = p /\ from (p +++ q) (String.length p) = q.
Proof.
  intros p q. split; [|now rewrite from_app]. induction p as [|c p IH]; cbn; [now destruct q|now rewrite IH].
Qed.
Lemma cut_back : forall k s, k <= String.length s -> substring 0 k s +++ from s k = s.
Proof.
  induction k as [|k IH]; intros [|c s] H; cbn [String.length] in *; try reflexivity; try lia.
  - cbn. unfold from. cbn. now rewrite substring_all.
  - cbn. f_equal. unfold from in *. cbn. apply IH. lia.
Qed.
Lemma longest_some : forall k p q s n, longest k p q s = Some n -> n <= k /\ lang p (substring 0 n s) /\ lang q (from s n).
Proof.
  induction k as [|k IH]; intros p q s n H; cbn [longest] in H.
  - destruct (matchb p (substring 0 0 s) && matchb q (from s 0))%bool eqn:E; [|discriminate]. injection H as <-. apply andb_prop in E as [E F].
    split; [lia|]. now split; apply matchb_spec.
  - destruct (matchb p (substring 0 (S k) s) && matchb q (from s (S k)))%bool eqn:E.
    + injection H as <-. apply andb_prop in E as [E F]. split; [lia|]. now split; apply matchb_spec.
    + apply IH in H as (L & A & C). split; [lia|now split].
Qed.
Lemma longest_none : forall k p q s, longest k p q s = None -> forall n, n <= k -> lang p (substring 0 n s) -> lang q (from s n) -> False.
Proof.
  induction k as [|k IH]; intros p q s H n L A C; cbn [longest] in H; apply matchb_spec in A, C.
  - assert (n = 0) by lia. subst n. now rewrite A, C in H.
  - destruct (Nat.eq_dec n (S k)) as [->|N]; [now rewrite A, C in H|].
    destruct (matchb p (substring 0 (S k) s) && matchb q (from s (S k)))%bool; [discriminate|].
    apply (IH _ _ _ H n); [lia|now apply matchb_spec..].
Qed.
Lemma caps_of : forall r s, lang r s -> caps r s (captures r s).
Proof.
  induction r as [| |n l|a IHa b IHb|a IHa b IHb|a _|n a IHa]; intros s H; cbn [captures].
  - now apply lang_nul in H.
  - apply lang_eps_iff in H. subst. constructor.
  - apply lang_set_iff in H as (c & -> & C). now constructor.
  - apply lang_cat_iff in H as (p & q & -> & A & C). destruct (longest _ a b (p +++ q)) as [k|] eqn:E.
    + apply longest_some in E as (L & X & Y). rewrite <- (cut_back k (p +++ q)) at 1 by exact L. constructor; auto.
    + exfalso. destruct (cut_at p q) as [X Y]. apply (longest_none _ _ _ _ E (String.length p)); [rewrite length_append; lia|now rewrite X|now rewrite Y].
  - destruct (matchb a s) eqn:E; [apply caps_left, IHa; now apply matchb_spec|]. apply caps_right, IHb. apply lang_alt_iff in H as [H|H]; [|exact H].
    apply matchb_spec in H. congruence.
  - now constructor.
  - constructor. apply IHa. now apply lang_grp_iff in H.
Qed.
Lemma caps_lang : forall r s l, caps r s l -> lang r s.
Proof.
  induction 1.
  - constructor.
  - apply lang_set_iff. eauto.
  - assumption.
  - apply lang_cat_iff. eauto.
  - apply lang_alt_iff. now left.
  - apply lang_alt_iff. now right.
  - now apply lang_grp_iff.
Qed.
(** an expression without groups captures nothing *)
Fixpoint ungrouped (r : re) : bool :=
  match r with Nul | Eps | Set_ _ _ | Star _ => true | Cat a b | Alt a b => (ungrouped a && ungrouped b)%bool | Grp _ _ => false end.
Lemma caps_none : forall r s l, caps r s l -> ungrouped r = true -> l = [].
Proof.
  induction 1; cbn; intros U; try reflexivity; try discriminate; try (apply andb_prop in U as [U V]); auto. now rewrite IHcaps1, IHcaps2.
Qed.
Lemma caps_cat_inv : forall a b s l, caps (Cat a b) s l -> exists p q m n, s = p +++ q /\ l = (m ++ n)%list /\ caps a p m /\ caps b q n.
Proof. intros a b s l H. inversion H; subst. eauto 8. Qed.
Lemma caps_alt_inv : forall a b s l, caps (Alt a b) s l -> caps a s l \/ caps b s l.
Proof. intros a b s l H. inversion H; subst; auto. Qed.
Lemma caps_grp_inv : forall n a s l, caps (Grp n a) s l -> exists m, l = (n, s) :: m /\ caps a s m.
Proof. intros n a s l H. inversion H; subst. eauto. Qed.
Lemma caps_plain : forall r s l, ungrouped r = true -> caps r s l -> l = [] /\ lang r s.
Proof. intros r s l U H. split; [exact (caps_none _ _ _ H U)|exact (caps_lang _ _ _ H)]. Qed.
Lemma caps_grp_plain : forall n r s l, ungrouped r = true -> caps (Grp n r) s l -> l = [(n, s)] /\ lang r s.
Proof. intros n r s l U H. apply caps_grp_inv in H as (m & -> & H). apply (caps_plain _ _ _ U) in H as [-> H]. now split. Qed.
Lemma caps_eps_inv : forall s l, caps Eps s l -> s = "" /\ l = [].
Proof. intros s l H. inversion H. now split. Qed.

Definition groups (s : string) (l : list (nat * string)) (n : nat) : list string := map (fun i => match i with O => s | _ => group i l end) (seq 0 n).
Lemma capture_whole : forall p r t n, p <> "" -> compile p = Some (true, r, true) ->
  match regex_capture t p n with
  | None => t = "" \/ ~ lang r (c_text t)
  | Some g => t <> "" /\ exists l, caps r (c_text t) l /\ g = groups (c_text t) l n
  end.
Proof.
  intros p r t n Np E. unfold regex_capture. destruct (String.eqb_spec t "") as [->|Nt]; [now left|]. destruct (String.eqb_spec p "") as [->|_]; [contradiction|]. cbn [orb].
  rewrite E. destruct (matchb r (c_text t)) eqn:M.
  - split; [exact Nt|]. rewrite substring_all. exists (captures r (c_text t)). split; [apply caps_of; now apply matchb_spec|reflexivity].
  - right. intros L. apply matchb_spec in L. congruence.
Qed.

(** ** the expressions of headers *)
Definition METHOD_re : re := match compile ("^" +++ METHOD +++ "$") with Some (_, Cat (Grp _ m) _, _) => m | _ => Nul end.
Definition blank_re : re := Set_ false [(32, 32); (9, 9)]%N.
Definition path_re : re := Cat (Set_ false [(47, 47)]%N) (Cat anything Eps).
Definition name_re : re := Cat (Cat (Set_ true [(93, 93); (91, 91); (40, 40); (41, 41)]%N) (Star (Set_ true [(93, 93); (91, 91); (40, 40); (41, 41)]%N))) Eps.
Definition open_re : re := Set_ false [(91, 91)]%N.
Definition close_re : re := Set_ false [(93, 93)]%N.
Definition gap_re : re := Cat blank_re (Star blank_re).
Lemma method_lang : forall m, lang METHOD_re m <-> In m methods.
Proof.
  intros m. destruct (words METHOD_re) as [l|] eqn:W; [|vm_compute in W; discriminate]. rewrite (words_spec _ _ W).
  assert (same_words l methods = true) as S by (revert W; vm_compute; intros W; injection W as <-; reflexivity). exact (same_words_spec _ _ S m).
Qed.
Lemma method_plain : ungrouped METHOD_re = true.
Proof. vm_compute. reflexivity. Qed.
Lemma blanks_lang : forall s, lang (Star blank_re) s <-> blanks s.
Proof. exact B_spec. Qed.
Lemma gap_lang : forall s, lang gap_re s <-> exists c b, s = String c b /\ blank_char c /\ blanks b.
Proof.
  intros s. unfold gap_re. rewrite lang_cat_iff. split.
  - intros (p & q & -> & H & K). apply lang_set_iff in H as (c & -> & C). exists c, q. split; [reflexivity|]. apply blanks_lang in K. split; [|exact K].
    assert (X : lang (Star blank_re) (String c "")) by (apply star_set; apply all_cons; split; [exact C|apply Forall_nil]).
    apply blanks_lang in X. now apply all_cons in X.
  - intros (c & b & -> & C & K). exists (String c ""), b. split; [reflexivity|]. split; [|now apply blanks_lang]. apply lang_set_iff. exists c. split; [reflexivity|].
    assert (X : blanks (String c "")) by (apply all_cons; split; [exact C|apply Forall_nil]). apply blanks_lang in X. apply star_set in X. now apply all_cons in X.
Qed.
Lemma path_lang : forall s, lang path_re s <-> path s.
Proof. intros s. rewrite <- slash_rest. reflexivity. Qed.

Lemma action_re : compile ActionHeaderRegex = Some (true, Cat (Star blank_re) (Cat (Grp 1 METHOD_re) (Cat (Star blank_re) (Cat (Alt (Grp 2 path_re) Eps) Eps))), true).
Proof. vm_compute. reflexivity. Qed.
Lemma resource_re : compile ResourceHeaderRegex =
  Some (true, Cat (Star blank_re) (Cat (Alt (Grp 1 (Cat (Grp 2 METHOD_re) (Cat gap_re Eps))) Eps) (Cat (Grp 3 path_re) Eps)), true).
Proof. vm_compute. reflexivity. Qed.
