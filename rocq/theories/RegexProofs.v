From Verif Require Import Base StringUtility StringSpec StringProofs Regex RegexSpec.
Local Open Scope string_scope.

Lemma member_spec : forall l c, member l c = true <-> Exists (fun r => (fst r <= byte c <= snd r)%N) l.
Proof.
  intros l c. unfold member. rewrite existsb_exists, Exists_exists.
  split; intros (x & I & H); exists x; split; auto; [apply andb_prop in H as [A B]; apply N.leb_le in A, B; lia|].
  apply andb_true_intro. rewrite !N.leb_le. lia.
Qed.
Lemma in_set_spec : forall n l c, in_set n l c = true <-> (Exists (fun r => (fst r <= byte c <= snd r)%N) l <-> n = false).
Proof.
  intros n l c. unfold in_set. rewrite <- member_spec. destruct n, (member l c); cbn; intuition congruence.
Qed.
Lemma lang_set_iff : forall n l s, lang (Set_ n l) s <-> exists c, s = String c "" /\ in_set n l c = true.
Proof.
  intros n l s. split.
  - intros H. inversion H; subst. eexists. split; [reflexivity|]. now apply in_set_spec.
  - intros (c & -> & H). constructor. now apply in_set_spec.
Qed.
Lemma lang_nul : forall s, ~ lang Nul s.
Proof. intros s H. inversion H. Qed.
Lemma lang_eps_iff : forall s, lang Eps s <-> s = "".
Proof. intros s. split; [intros H; now inversion H|intros ->; constructor]. Qed.
Lemma lang_cat_iff : forall a b s, lang (Cat a b) s <-> exists p q, s = p +++ q /\ lang a p /\ lang b q.
Proof. intros a b s. split; [intros H; inversion H; subst; eauto|intros (p & q & -> & A & B); now constructor]. Qed.
Lemma lang_alt_iff : forall a b s, lang (Alt a b) s <-> lang a s \/ lang b s.
Proof. intros a b s. split; [intros H; inversion H; subst; auto|intros [H|H]; [now apply lang_left|now apply lang_right]]. Qed.
Lemma lang_grp_iff : forall n a s, lang (Grp n a) s <-> lang a s.
Proof. intros n a s. split; [intros H; now inversion H|now constructor]. Qed.
Lemma star_cons : forall a c s, lang (Star a) (String c s) -> exists p q, s = p +++ q /\ lang a (String c p) /\ lang (Star a) q.
Proof.
  intros a c s H. remember (Star a) as r eqn:R. remember (String c s) as t eqn:T. revert a c s R T.
  induction H as [| | | | | |a s t A _ B IH|]; intros a' c' s' R T; try discriminate; injection R as ->.
  destruct s as [|x s].
  - cbn in T. subst t. exact (IH _ _ _ eq_refl eq_refl).
  - cbn in T. injection T as -> <-. now exists s, t.
Qed.
Lemma nullable_spec : forall r, nullable r = true <-> lang r "".
Proof.
  induction r as [| |n l|a IHa b IHb|a IHa b IHb|a IHa|n a IHa]; cbn.
  - split; [discriminate|intros H; now inversion H].
  - split; constructor.
  - split; [discriminate|]. intros H. apply lang_set_iff in H as (c & H & _). discriminate.
  - rewrite andb_true_iff, IHa, IHb, lang_cat_iff. split.
    + intros [A B]. now exists "", "".
    + intros (p & q & E & A & B). destruct p, q; try discriminate. now split.
  - now rewrite orb_true_iff, IHa, IHb, lang_alt_iff.
  - split; constructor.
  - now rewrite IHa, lang_grp_iff.
Qed.
Lemma deriv_spec : forall c r s, lang (deriv c r) s <-> lang r (String c s).
Proof.
  intros c. induction r as [| |n l|a IHa b IHb|a IHa b IHb|a IHa|n a IHa]; intros s; cbn [deriv].
  - split; intros H; inversion H.
  - split; intros H; inversion H.
  - rewrite lang_set_iff. destruct (in_set n l c) eqn:E.
    + rewrite lang_eps_iff. split; [intros ->; now exists c|intros (d & X & _); now injection X].
    + split; [intros H; now apply lang_nul in H|]. intros (d & X & Y). injection X as <- _. congruence.
  - assert (D : lang (Cat (deriv c a) b) s <-> exists p q, s = p +++ q /\ lang a (String c p) /\ lang b q).
    { rewrite lang_cat_iff. split; intros (p & q & E & A & B); exists p, q; (split; [exact E|]); (split; [|exact B]); now apply IHa. }
    assert (E : lang (Cat a b) (String c s) <-> (lang a "" /\ lang b (String c s)) \/ (exists p q, s = p +++ q /\ lang a (String c p) /\ lang b q)).
    { rewrite lang_cat_iff. split.
      - intros ([|x p] & q & E & A & B); cbn in E; [subst q; now left|]. injection E as <- ->. right. eauto.
      - intros [[A B]|(p & q & -> & A & B)]; [now exists "", (String c s)|now exists (String c p), q]. }
    rewrite E. destruct (nullable a) eqn:N.
    + rewrite lang_alt_iff, D, IHb. apply nullable_spec in N. tauto.
    + rewrite D. split; [tauto|]. intros [[A _]|?]; [apply nullable_spec in A; congruence|assumption].
  - now rewrite !lang_alt_iff, IHa, IHb.
  - rewrite lang_cat_iff. split.
    + intros (p & q & -> & A & B). apply IHa in A. change (String c (p +++ q)) with (String c p +++ q). now constructor.
    + intros H. apply star_cons in H as (p & q & -> & A & B). exists p, q. split; [reflexivity|]. split; [now apply IHa|exact B].
  - now rewrite lang_grp_iff, IHa.
Qed.
Lemma matchb_spec : forall s r, matchb r s = true <-> lang r s.
Proof. induction s as [|c s IH]; intros r; cbn [matchb]; [apply nullable_spec|]. rewrite IH. apply deriv_spec. Qed.
Lemma anything_spec : forall s, lang anything s.
Proof.
  induction s as [|c s IH]; [constructor|]. change (String c s) with (String c "" +++ s). apply lang_more; [|exact IH].
  apply lang_set_iff. now exists c.
Qed.
Lemma regex_match_spec : forall target pattern b r e, pattern <> "" -> compile pattern = Some (b, r, e) -> target <> "" ->
  (regex_match target pattern = true <-> found b r e (c_text target)).
Proof.
  intros target pattern b r e Np C Nt. unfold regex_match. destruct (String.eqb_spec target "") as [?|_]; [congruence|].
  destruct (String.eqb_spec pattern "") as [?|_]; [congruence|]. cbn [orb]. rewrite C, matchb_spec. unfold found.
  set (s := c_text target). clearbody s. destruct b, e; rewrite ?lang_cat_iff.
  - split; [intros H; exists "", s, ""; repeat split; auto; cbn; now rewrite append_nil_r|].
    intros (x & m & y & -> & L & X & Y). rewrite (X eq_refl), (Y eq_refl). change ("" +++ m +++ "") with (m +++ ""). now rewrite append_nil_r.
  - split; [intros (p & q & -> & A & _); exists "", p, q; repeat split; auto; discriminate|].
    intros (x & m & y & -> & L & X & _). rewrite (X eq_refl). exists m, y. repeat split; auto. apply anything_spec.
  - split; [intros (p & q & -> & _ & B); exists p, q, ""; repeat split; auto; [now rewrite append_nil_r|discriminate]|].
    intros (x & m & y & -> & L & _ & Y). rewrite (Y eq_refl), append_nil_r. exists x, m. repeat split; auto. apply anything_spec.
  - split.
    + intros (p & q & -> & A & _). apply lang_cat_iff in A as (x & m & -> & _ & B). exists x, m, q. rewrite append_assoc. repeat split; auto; discriminate.
    + intros (x & m & y & -> & L & _). exists (x +++ m), y. rewrite append_assoc. repeat split; auto using anything_spec.
      apply lang_cat_iff. exists x, m. repeat split; auto using anything_spec.
Qed.

(** ** expressions as sequences *)
Fixpoint seq_of (r : re) : list re :=
  match r with Cat a b => (seq_of a ++ seq_of b)%list | Eps => [] | Grp _ a => seq_of a | _ => [r] end.
Fixpoint langs (l : list re) (s : string) : Prop :=
  match l with [] => s = "" | r :: l => exists p q, s = p +++ q /\ lang r p /\ langs l q end.
Lemma langs_app : forall l l' s, langs (l ++ l') s <-> exists p q, s = p +++ q /\ langs l p /\ langs l' q.
Proof.
  induction l as [|r l IH]; intros l' s; cbn [app langs].
  - split; [intros H; now exists "", s|intros (p & q & -> & -> & H); exact H].
  - split.
    + intros (p & q & -> & A & B). apply IH in B as (u & v & -> & B & C). exists (p +++ u), v. rewrite append_assoc. repeat split; auto. eauto.
    + intros (p & q & -> & (u & v & -> & A & B) & C). exists u, (v +++ q). rewrite append_assoc. repeat split; auto. apply IH. eauto.
Qed.
Lemma langs_one : forall r s, langs [r] s <-> lang r s.
Proof.
  intros r s. cbn. split; [intros (p & q & -> & A & ->); now rewrite append_nil_r|intros H; exists s, ""; now rewrite append_nil_r].
Qed.
Lemma seq_of_spec : forall r s, lang r s <-> langs (seq_of r) s.
Proof.
  induction r as [| |n l|a IHa b IHb|a IHa b IHb|a IHa|n a IHa]; intros s; cbn [seq_of]; try (symmetry; apply langs_one).
  - apply lang_eps_iff.
  - rewrite lang_cat_iff, langs_app. split; intros (p & q & E & A & B); exists p, q; (split; [exact E|]); (split; [now apply IHa|now apply IHb]).
  - now rewrite lang_grp_iff.
Qed.
(** the texts of an expression without repetition *)
Definition set_chars (l : list (N * N)) : list ascii := map chr (flat_map (fun r => map (fun i => (fst r + N.of_nat i)%N) (seq 0 (N.to_nat (snd r + 1 - fst r)))) l).
Definition small (l : list (N * N)) : bool := forallb (fun r => (snd r <? 256)%N) l.
Fixpoint words (r : re) : option (list string) :=
  match r with
  | Nul => Some []
  | Eps => Some [""]
  | Set_ false l => if small l then Some (map (fun c => String c "") (set_chars l)) else None
  | Set_ true _ | Star _ => None
  | Cat a b => match words a, words b with Some x, Some y => Some (flat_map (fun p => map (fun q => p +++ q) y) x) | _, _ => None end
  | Alt a b => match words a, words b with Some x, Some y => Some (x ++ y)%list | _, _ => None end
  | Grp _ a => words a
  end.
Lemma chr_byte' : forall n, (n < 256)%N -> byte (chr n) = n.
Proof. intros n H. apply byte_chr. exact H. Qed.
Lemma set_chars_spec : forall l c, small l = true -> (In c (set_chars l) <-> member l c = true).
Proof.
  intros l c S'. unfold set_chars. rewrite in_map_iff, member_spec, Exists_exists. unfold small in S'. rewrite forallb_forall in S'. split.
  - intros (n & <- & I). apply in_flat_map in I as (r & Ir & I). apply in_map_iff in I as (i & <- & I). apply in_seq in I.
    exists r. split; [exact Ir|]. specialize (S' _ Ir). apply N.ltb_lt in S'. rewrite chr_byte' by lia. lia.
  - intros (r & Ir & H). exists (byte c). split; [apply chr_byte|]. apply in_flat_map. exists r. split; [exact Ir|].
    apply in_map_iff. exists (N.to_nat (byte c - fst r)). split; [lia|]. apply in_seq. lia.
Qed.
Lemma words_spec : forall r l, words r = Some l -> forall s, lang r s <-> In s l.
Proof.
  induction r as [| |n rs|a IHa b IHb|a IHa b IHb|a IHa|n a IHa]; intros l H s; cbn [words] in H.
  - injection H as <-. split; [intros X; now inversion X|intros []].
  - injection H as <-. rewrite lang_eps_iff. cbn. intuition congruence.
  - destruct n; [discriminate|]. destruct (small rs) eqn:S'; [|discriminate]. injection H as <-. rewrite lang_set_iff, in_map_iff. split.
    + intros (c & -> & I). exists c. split; [reflexivity|]. apply set_chars_spec; [exact S'|]. unfold in_set in I. now rewrite xorb_false_l in I.
    + intros (c & <- & I). exists c. split; [reflexivity|]. unfold in_set. rewrite xorb_false_l. now apply set_chars_spec in I.
  - destruct (words a) as [x|] eqn:X; [|discriminate]. destruct (words b) as [y|] eqn:Y; [|discriminate]. injection H as <-.
    rewrite lang_cat_iff, in_flat_map. split.
    + intros (p & q & -> & A & B). exists p. split; [now apply (IHa _ eq_refl)|]. apply in_map_iff. exists q. split; [reflexivity|]. now apply (IHb _ eq_refl).
    + intros (p & A & I). apply in_map_iff in I as (q & <- & B). exists p, q. split; [reflexivity|]. split; [now apply (IHa _ eq_refl)|now apply (IHb _ eq_refl)].
  - destruct (words a) as [x|] eqn:X; [|discriminate]. destruct (words b) as [y|] eqn:Y; [|discriminate]. injection H as <-.
    now rewrite lang_alt_iff, in_app_iff, (IHa _ eq_refl), (IHb _ eq_refl).
  - discriminate.
  - rewrite lang_grp_iff. now apply IHa.
Qed.
Definition cats (l : list re) : re := fold_right Cat Eps l.
Lemma cats_spec : forall l s, langs l s <-> lang (cats l) s.
Proof.
  induction l as [|r l IH]; intros s; cbn; [symmetry; apply lang_eps_iff|]. rewrite lang_cat_iff.
  split; intros (p & q & E & A & B); exists p, q; (split; [exact E|]); (split; [exact A|now apply IH]).
Qed.
Lemma langs_words : forall l w, words (cats l) = Some w -> forall s, langs l s <-> In s w.
Proof. intros l w H s. rewrite cats_spec. now apply words_spec. Qed.
(** repeated sets *)
Lemma star_set : forall n l s, lang (Star (Set_ n l)) s <-> all (fun c => in_set n l c = true) s.
Proof.
  intros n l s. split.
  - induction s as [|c s IH]; intros H; [constructor|]. apply star_cons in H as (p & q & -> & A & B).
    apply lang_set_iff in A as (d & E & I). injection E as <- ->. cbn in *. apply all_cons. split; [exact I|now apply IH].
  - induction s as [|c s IH]; intros H; [constructor|]. apply all_cons in H as [Hc Hs].
    change (String c s) with (String c "" +++ s). apply lang_more; [apply lang_set_iff; eauto|now apply IH].
Qed.

(** ** deciding that two expressions share no text: partial derivatives *)
Definition cat (a b : re) : re := match a with Eps => b | _ => Cat a b end.
Lemma cat_spec : forall a b s, lang (cat a b) s <-> lang (Cat a b) s.
Proof.
  intros a b s. destruct a; try reflexivity. cbn. rewrite lang_cat_iff. split.
  - intros H. exists "", s. repeat split; [constructor|exact H].
  - intros (p & q & -> & A & B). apply lang_eps_iff in A. now subst p.
Qed.
Fixpoint pd (c : ascii) (r : re) : list re :=
  match r with
  | Nul | Eps => []
  | Set_ n l => if in_set n l c then [Eps] else []
  | Cat a b => (map (fun x => cat x b) (pd c a) ++ if nullable a then pd c b else [])%list
  | Alt a b => (pd c a ++ pd c b)%list
  | Star a => map (fun x => cat x (Star a)) (pd c a)
  | Grp _ a => pd c a
  end.
Lemma pd_spec : forall c r s, lang r (String c s) <-> exists p, In p (pd c r) /\ lang p s.
Proof.
  intros c. induction r as [| |n l|a IHa b IHb|a IHa b IHb|a IHa|n a IHa]; intros s; cbn [pd].
  - split; [intros H; inversion H|intros (p & [] & _)].
  - split; [intros H; inversion H|intros (p & [] & _)].
  - rewrite lang_set_iff. split.
    + intros (d & E & I). injection E as <- ->. rewrite I. exists Eps. split; [now left|constructor].
    + intros (p & I & L). exists c. destruct (in_set n l c) eqn:E; [|destruct I]. destruct I as [<-|[]]. apply lang_eps_iff in L. subst s. now split.
  - rewrite lang_cat_iff. split.
    + intros ([|x p] & q & E & A & B); cbn in E.
      * subst q. apply IHb in B as (p & I & L). exists p. split; [|exact L]. apply in_app_iff. right. apply nullable_spec in A. now rewrite A.
      * injection E as <- ->. apply IHa in A as (r & I & L). exists (cat r b). split; [apply in_app_iff; left; now apply in_map with (f := fun x => cat x b)|].
        apply cat_spec. now constructor.
    + intros (r & I & L). apply in_app_iff in I as [I|I].
      * apply in_map_iff in I as (x & <- & I). apply (proj1 (cat_spec _ _ _)) in L. apply lang_cat_iff in L as (p & q & -> & A & B).
        exists (String c p), q. repeat split; [|exact B]. apply IHa. eauto.
      * destruct (nullable a) eqn:N; [|destruct I]. apply nullable_spec in N. exists "", (String c s). repeat split; [exact N|]. apply IHb. eauto.
  - rewrite lang_alt_iff, IHa, IHb. split.
    + intros [(p & I & L)|(p & I & L)]; exists p; (split; [apply in_app_iff; auto|exact L]).
    + intros (p & I & L). apply in_app_iff in I as [I|I]; eauto.
  - split.
    + intros H. apply star_cons in H as (p & q & -> & A & B). apply IHa in A as (r & I & L). exists (cat r (Star a)). split; [now apply in_map with (f := fun x => cat x (Star a))|].
      apply cat_spec. now constructor.
    + intros (r & I & L). apply in_map_iff in I as (x & <- & I). apply (proj1 (cat_spec _ _ _)) in L. apply lang_cat_iff in L as (p & q & -> & A & B).
      change (String c (p +++ q)) with (String c p +++ q). constructor; [|exact B]. apply IHa. eauto.
  - now rewrite lang_grp_iff.
Qed.
Definition pair_dec : forall x y : N * N, {x = y} + {x <> y}.
Proof. decide equality; apply N.eq_dec. Defined.
Fixpoint re_eqb (a b : re) : bool :=
  match a, b with
  | Nul, Nul | Eps, Eps => true
  | Set_ n l, Set_ n' l' => Bool.eqb n n' && (if list_eq_dec (pair_dec) l l' then true else false)
  | Cat a b, Cat a' b' | Alt a b, Alt a' b' => re_eqb a a' && re_eqb b b'
  | Star a, Star a' => re_eqb a a'
  | Grp n a, Grp n' a' => Nat.eqb n n' && re_eqb a a'
  | _, _ => false
  end.
Lemma re_eqb_spec : forall a b, re_eqb a b = true -> a = b.
Proof.
  induction a as [| |n l|a IHa a' IHa'|a IHa a' IHa'|a IHa|n a IHa]; intros [| |n2 l2|b b'|b b'|b|n2 b] H; cbn in H; try discriminate; try reflexivity;
    try (apply andb_prop in H as [A B]).
  - destruct (list_eq_dec pair_dec l l2) as [->|]; [|discriminate]. apply eqb_prop in A. now subst.
  - apply IHa in A. apply IHa' in B. now subst.
  - apply IHa in A. apply IHa' in B. now subst.
  - apply IHa in H. now subst.
  - apply Nat.eqb_eq in A. apply IHa in B. now subst.
Qed.
Definition chars : list ascii := map (fun n => chr (N.of_nat n)) (seq 0 256).
Lemma chars_all : forall c, In c chars.
Proof.
  intros c. apply in_map_iff. exists (N.to_nat (byte c)). split; [rewrite N2Nat.id; apply chr_byte|]. apply in_seq. pose proof (byte_lt c). lia.
Qed.
(** *** chars that no set of the expressions tells apart *)
Fixpoint sets (r : re) : list (bool * list (N * N)) :=
  match r with
  | Nul | Eps => []
  | Set_ n l => [(n, l)]
  | Cat a b | Alt a b => (sets a ++ sets b)%list
  | Star a | Grp _ a => sets a
  end.
Definition sig (l : list (bool * list (N * N))) (c : ascii) : list bool := map (fun s => in_set (fst s) (snd s) c) l.
Fixpoint bools_eqb (a b : list bool) : bool :=
  match a, b with [], [] => true | x :: a, y :: b => if Bool.eqb x y then bools_eqb a b else false | _, _ => false end.
Fixpoint pick (l : list (bool * list (N * N))) (cs : list ascii) (acc : list (ascii * list bool)) : list ascii :=
  match cs with
  | [] => map fst acc
  | c :: cs => let s := sig l c in pick l cs (if existsb (fun x => bools_eqb s (snd x)) acc then acc else (c, s) :: acc)
  end.
Definition set_dec : forall x y : bool * list (N * N), {x = y} + {x <> y}.
Proof. decide equality; [apply (list_eq_dec pair_dec)|apply bool_dec]. Defined.
Definition distinct (l : list (bool * list (N * N))) : list (bool * list (N * N)) := nodup set_dec l.
Definition covers (l : list (bool * list (N * N))) (reps : list ascii) : bool :=
  let ss := map (sig l) reps in forallb (fun c => let s := sig l c in existsb (bools_eqb s) ss) chars.
Lemma bools_eqb_spec : forall a b, bools_eqb a b = true -> a = b.
Proof.
  induction a as [|x a IH]; intros [|y b] H; cbn in H; try discriminate; [reflexivity|]. destruct (Bool.eqb x y) eqn:E; [|discriminate].
  apply eqb_prop in E. apply IH in H. now subst.
Qed.
Lemma sig_spec : forall l c d, sig l c = sig l d -> forall n s, In (n, s) l -> in_set n s c = in_set n s d.
Proof.
  induction l as [|x l IH]; intros c d H n s I; [destruct I|]. cbn in H. injection H as E H. destruct I as [->|I]; [exact E|]. now apply (IH _ _ H).
Qed.
Lemma pd_alike : forall c d r, (forall n s, In (n, s) (sets r) -> in_set n s c = in_set n s d) -> pd c r = pd d r.
Proof.
  intros c d. induction r as [| |n l|a IHa b IHb|a IHa b IHb|a IHa|n a IHa]; intros H; cbn [pd]; try reflexivity.
  - rewrite (H n l); [reflexivity|now left].
  - cbn in H. rewrite IHa, IHb; [reflexivity|..]; intros n s I; apply H, in_app_iff; auto.
  - cbn in H. rewrite IHa, IHb; [reflexivity|..]; intros n s I; apply H, in_app_iff; auto.
  - now rewrite IHa.
  - now apply IHa.
Qed.
Lemma cat_sets : forall a b, incl (sets (cat a b)) (sets a ++ sets b).
Proof. intros a b x I. destruct a; cbn in *; try exact I. Qed.
Lemma pd_sets : forall c r p, In p (pd c r) -> incl (sets p) (sets r).
Proof.
  intros c. induction r as [| |n l|a IHa b IHb|a IHa b IHb|a IHa|n a IHa]; intros p H x I; cbn [pd] in H.
  - destruct H.
  - destruct H.
  - destruct (in_set n l c); [|destruct H]. destruct H as [<-|[]]. destruct I.
  - cbn. apply in_app_iff. apply in_app_iff in H as [H|H].
    + apply in_map_iff in H as (y & <- & H). apply cat_sets, in_app_iff in I as [I|I]; [left; exact (IHa _ H _ I)|now right].
    + destruct (nullable a); [|destruct H]. right. exact (IHb _ H _ I).
  - cbn. apply in_app_iff. apply in_app_iff in H as [H|H]; [left; exact (IHa _ H _ I)|right; exact (IHb _ H _ I)].
  - cbn. apply in_map_iff in H as (y & <- & H). apply cat_sets, in_app_iff in I as [I|I]; [exact (IHa _ H _ I)|exact I].
  - cbn. exact (IHa _ H _ I).
Qed.
Definition pairs : Type := list (re * re).
Definition has (l : pairs) (x : re * re) : bool := existsb (fun y => re_eqb (fst x) (fst y) && re_eqb (snd x) (snd y))%bool l.
Definition steps (cs : list ascii) (x : re * re) : pairs :=
  flat_map (fun c => let p := pd c (fst x) in match p with [] => [] | _ => let q := pd c (snd x) in flat_map (fun a => map (fun b => (a, b)) q) p end) cs.
Fixpoint add_new (n l : pairs) : pairs * pairs :=
  match n with
  | [] => ([], l)
  | x :: n => if has l x then add_new n l else let '(f, l) := add_new n (x :: l) in (x :: f, l)
  end.
Fixpoint explore (fuel : nat) (cs : list ascii) (todo l : pairs) : pairs :=
  match fuel, todo with
  | S fuel, x :: todo => let '(f, l) := add_new (steps cs x) l in explore fuel cs (f ++ todo)%list l
  | _, _ => l
  end.
Definition closed_pairs (cs : list ascii) (l : pairs) : bool := forallb (fun x => negb (nullable (fst x) && nullable (snd x)) && forallb (has l) (steps cs x)) l.
Definition apart_by (cs : list ascii) (l : pairs) (a b : re) : bool := covers (distinct (sets a ++ sets b)) cs && has l (a, b) && closed_pairs cs l.
Definition apart (fuel : nat) (a b : re) : bool :=
  let cs := pick (distinct (sets a ++ sets b)) chars [] in apart_by cs (explore fuel cs [(a, b)] [(a, b)]) a b.
Lemma has_spec : forall l x, has l x = true -> In x l.
Proof.
  intros l x H. apply existsb_exists in H as (y & I & H). apply andb_prop in H as [A B]. apply re_eqb_spec in A, B.
  destruct x, y. cbn in *. now subst.
Qed.
Lemma covers_spec : forall ss cs c, covers (distinct ss) cs = true -> exists d, In d cs /\ forall r, incl (sets r) ss -> pd c r = pd d r.
Proof.
  intros ss cs c H. unfold covers in H. rewrite forallb_forall in H. specialize (H c (chars_all c)). cbv zeta in H. apply existsb_exists in H as (x & I & H).
  apply in_map_iff in I as (d & <- & I). apply bools_eqb_spec in H.
  exists d. split; [exact I|]. intros r Ir. apply pd_alike. intros n s Is. apply (sig_spec _ _ _ H), nodup_In, Ir, Is.
Qed.
Lemma apart_by_sound : forall cs l a b, apart_by cs l a b = true -> forall s, lang a s -> lang b s -> False.
Proof.
  intros cs l a b H. unfold apart_by in H. set (ss := (sets a ++ sets b)%list) in H.
  apply andb_prop in H as [H B]. apply andb_prop in H as [Cv A]. apply has_spec in A.
  assert (Sa : incl (sets a) ss) by (apply incl_appl, incl_refl). assert (Sb : incl (sets b) ss) by (apply incl_appr, incl_refl). clearbody ss.
  unfold closed_pairs in B. rewrite forallb_forall in B. intros s. revert a b A Sa Sb. induction s as [|c s IH]; intros a b A Sa Sb La Lb.
  - specialize (B _ A). apply andb_prop in B as [B _]. apply nullable_spec in La, Lb. cbn in B. now rewrite La, Lb in B.
  - pose proof (B _ A) as Bx. apply andb_prop in Bx as [_ C]. rewrite forallb_forall in C.
    apply pd_spec in La as (p & Ip & Lp). apply pd_spec in Lb as (q & Iq & Lq).
    apply (IH p q); auto; [|apply pd_sets in Ip; eapply incl_tran; eassumption|apply pd_sets in Iq; eapply incl_tran; eassumption].
    destruct (covers_spec ss cs c Cv) as (d & Id & D). rewrite (D _ Sa) in Ip. rewrite (D _ Sb) in Iq. apply has_spec, C.
    apply in_flat_map. exists d. split; [exact Id|]. cbn [fst snd]. destruct (pd d a) as [|p0 ps] eqn:E; [destruct Ip|]. cbv zeta.
    apply in_flat_map. exists p. split; [exact Ip|]. now apply in_map.
Qed.
Lemma apart_sound : forall fuel a b, apart fuel a b = true -> forall s, lang a s -> lang b s -> False.
Proof. intros fuel a b. exact (apart_by_sound _ _ a b). Qed.

(** ** deciding that every text of one expression is one of another *)
Definition has_re (l : list re) (x : re) : bool := existsb (re_eqb x) l.
Fixpoint nodups (l acc : list re) : list re :=
  match l with [] => rev acc | x :: l => if has_re acc x then nodups l acc else nodups l (x :: acc) end.
Lemma has_re_spec : forall l x, has_re l x = true -> In x l.
Proof. intros l x H. apply existsb_exists in H as (y & I & H). apply re_eqb_spec in H. now subst. Qed.
Lemma nodups_spec : forall l acc x, In x (nodups l acc) <-> In x l \/ In x acc.
Proof.
  induction l as [|y l IH]; intros acc x; cbn [nodups]; [rewrite <- in_rev; cbn; tauto|].
  destruct (has_re acc y) eqn:E; rewrite IH; cbn; [|tauto]. apply has_re_spec in E. split; [tauto|]. intros [[<-|?]|?]; auto.
Qed.
Definition sides : Type := list (re * list re).
Fixpoint res_eqb (a b : list re) : bool :=
  match a, b with [], [] => true | x :: a, y :: b => re_eqb x y && res_eqb a b | _, _ => false end.
Lemma res_eqb_spec : forall a b, res_eqb a b = true -> a = b.
Proof.
  induction a as [|x a IH]; intros [|y b] H; cbn in H; try discriminate; [reflexivity|]. apply andb_prop in H as [A B].
  apply re_eqb_spec in A. apply IH in B. now subst.
Qed.
Definition has_side (l : sides) (x : re * list re) : bool := existsb (fun y => re_eqb (fst x) (fst y) && res_eqb (snd x) (snd y))%bool l.
Lemma has_side_spec : forall l x, has_side l x = true -> In x l.
Proof.
  intros l x H. apply existsb_exists in H as (y & I & H). apply andb_prop in H as [A B]. apply re_eqb_spec in A. apply res_eqb_spec in B.
  destruct x, y. cbn in *. now subst.
Qed.
Definition side_steps (cs : list ascii) (x : re * list re) : sides :=
  flat_map (fun c => match pd c (fst x) with [] => [] | p => let q := nodups (flat_map (pd c) (snd x)) [] in map (fun a => (a, q)) p end) cs.
Fixpoint add_sides (n l : sides) : sides * sides :=
  match n with
  | [] => ([], l)
  | x :: n => if has_side l x then add_sides n l else let '(f, l) := add_sides n (x :: l) in (x :: f, l)
  end.
Fixpoint explore_sides (fuel : nat) (cs : list ascii) (todo l : sides) : sides :=
  match fuel, todo with
  | S fuel, x :: todo => let '(f, l) := add_sides (side_steps cs x) l in explore_sides fuel cs (f ++ todo)%list l
  | _, _ => l
  end.
Definition closed_sides (cs : list ascii) (l : sides) : bool := forallb (fun x => (implb (nullable (fst x)) (existsb nullable (snd x))) && forallb (has_side l) (side_steps cs x)) l.
Definition within_by (cs : list ascii) (l : sides) (a b : re) : bool := covers (distinct (sets a ++ sets b)) cs && has_side l (a, [b]) && closed_sides cs l.
Definition within (fuel : nat) (a b : re) : bool :=
  let cs := pick (distinct (sets a ++ sets b)) chars [] in within_by cs (explore_sides fuel cs [(a, [b])] [(a, [b])]) a b.
Lemma within_by_sound : forall cs l a b, within_by cs l a b = true -> forall s, lang a s -> lang b s.
Proof.
  intros cs l a b H. unfold within_by in H. set (ss := (sets a ++ sets b)%list) in H.
  apply andb_prop in H as [H B]. apply andb_prop in H as [Cv A]. apply has_side_spec in A.
  assert (Sa : incl (sets a) ss) by (apply incl_appl, incl_refl).
  assert (Sb : Forall (fun q => incl (sets q) ss) [b]) by (apply Forall_cons; [apply incl_appr, incl_refl|constructor]). clearbody ss.
  unfold closed_sides in B. rewrite forallb_forall in B. intros s La.
  enough (X : exists q, In q [b] /\ lang q s) by (destruct X as (q & [<-|[]] & L); exact L).
  revert A La Sa Sb. generalize [b] as bs. revert a. induction s as [|c s IH]; intros a bs A La Sa Sb.
  - specialize (B _ A). apply andb_prop in B as [B _]. apply nullable_spec in La. cbn in B. rewrite La in B. cbn in B.
    apply existsb_exists in B as (q & I & N). exists q. split; [exact I|]. now apply nullable_spec.
  - pose proof (B _ A) as Bx. apply andb_prop in Bx as [_ C]. rewrite forallb_forall in C. rewrite Forall_forall in Sb.
    apply pd_spec in La as (p & Ip & Lp).
    destruct (covers_spec ss cs c Cv) as (d & Id & D). pose proof Ip as Ip'. rewrite (D _ Sa) in Ip'.
    destruct (IH p (nodups (flat_map (pd d) bs) [])) as (q & I & L); [|exact Lp|apply pd_sets in Ip; eapply incl_tran; eassumption|..].
    + apply has_side_spec, C. apply in_flat_map. exists d. split; [exact Id|]. cbn [fst snd]. destruct (pd d a) as [|p0 ps] eqn:E; [destruct Ip'|].
      cbv zeta. now apply in_map with (f := fun a => (a, nodups (flat_map (pd d) bs) [])).
    + apply Forall_forall. intros q I. apply nodups_spec in I as [I|[]]. apply in_flat_map in I as (r & Ir & I). apply pd_sets in I. eapply incl_tran; [exact I|]. now apply Sb.
    + apply nodups_spec in I as [I|[]]. apply in_flat_map in I as (r & Ir & I). exists r. split; [exact Ir|]. apply pd_spec. exists q.
      split; [|exact L]. rewrite (D r); auto.
Qed.
Lemma within_sound : forall fuel a b, within fuel a b = true -> forall s, lang a s -> lang b s.
Proof. intros fuel a b. exact (within_by_sound _ _ a b). Qed.
Lemma same_sound : forall fuel a b, (within fuel a b && within fuel b a)%bool = true -> forall s, lang a s <-> lang b s.
Proof. intros fuel a b H s. apply andb_prop in H as [A B]. split; eapply within_sound; eassumption. Qed.

(** ** a pattern as one expression for the whole text *)
Definition whole (p : string) : re :=
  match compile p with
  | Some (b, r, e) => let r := if b then r else Cat anything r in if e then r else Cat r anything
  | None => Nul
  end.
Lemma regex_match_whole : forall t p, regex_match t p = true <-> t <> "" /\ p <> "" /\ lang (whole p) (c_text t).
Proof.
  intros t p. unfold regex_match, whole. destruct (String.eqb_spec t "") as [->|Nt]; [cbn; split; [discriminate|tauto]|].
  destruct (String.eqb_spec p "") as [->|Np]; [cbn; split; [discriminate|tauto]|]. cbn [orb].
  destruct (compile p) as [[[b r] e]|]; [rewrite matchb_spec; tauto|]. split; [discriminate|]. intros (_ & _ & H). now apply lang_nul in H.
Qed.
