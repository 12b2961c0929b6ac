(** Lemmas for C73 *)
From Coq Require Import Permutation.
From Verif Require Import Base ByteBuffer ByteSpec ByteProofs Markdown MarkdownSpec.
Local Open Scope N_scope.

Scheme holds_mut := Induction for holds Sort Prop with hold_mut := Induction for hold Sort Prop.

(** ** Memory *)
Lemma read_write : forall h a n, (a < List.length h)%nat -> read (write h a n) a = Some n.
Proof. unfold read. induction h as [|x h IH]; intros [|a] n L; cbn in *; try lia; [reflexivity|]. apply IH. lia. Qed.
Lemma read_other : forall h a b n, a <> b -> read (write h a n) b = read h b.
Proof. unfold read. induction h as [|x h IH]; intros [|a] [|b] n L; cbn in *; try congruence; try reflexivity. apply IH. congruence. Qed.
Lemma length_write : forall h a n, List.length (write h a n) = List.length h.
Proof. induction h as [|x h IH]; intros [|a] n; cbn; try reflexivity. now rewrite IH. Qed.
Lemma read_app : forall h l a, (a < List.length h)%nat -> read (h ++ l) a = read h a.
Proof. intros. unfold read. now apply nth_error_app1. Qed.
Lemma read_new : forall h n, read (h ++ [n]) (List.length h) = Some n.
Proof. intros. unfold read. rewrite nth_error_app2, Nat.sub_diag by lia. reflexivity. Qed.
Lemma read_lt : forall h a n, read h a = Some n -> (a < List.length h)%nat.
Proof. intros h a n H. apply nth_error_Some. unfold read in H. congruence. Qed.

Definition same (h h' : heap) (l : list address) : Prop := forall a, In a l -> read h' a = read h a.
Lemma hold_same : forall h h' p cs ts l, hold h p cs ts l -> same h h' l -> hold h' p cs ts l.
Proof.
  intros h h' p cs ts l H. revert p cs ts l H.
  apply (hold_mut h (fun p a t l _ => same h h' l -> holds h' p a t l) (fun p cs ts l _ => same h h' l -> hold h' p cs ts l)).
  - intros p a t tx d m cs ts l R H IH S. econstructor; [rewrite S; [exact R|now left]|]. apply IH. intros x X. apply S. now right.
  - constructor.
  - intros p c cs t ts u us H1 IH1 H2 IH2 S. constructor; [apply IH1|apply IH2]; intros x X; apply S, in_or_app; auto.
Qed.
Lemma holds_same : forall h h' p a t l, holds h p a t l -> same h h' l -> holds h' p a t l.
Proof.
  intros h h' p a t l H S. assert (K : hold h' p [a] [t] (l ++ [])).
  { apply (hold_same h); [constructor; [exact H|constructor]|]. now rewrite app_nil_r. }
  inversion K as [|? ? ? ? ? u us H1 H2 E1 E2 E3 E4]; subst. inversion H2; subst. rewrite !app_nil_r in E4. now subst.
Qed.
Lemma same_write : forall h a n l, ~ In a l -> same h (write h a n) l.
Proof. intros h a n l N x X. apply read_other. congruence. Qed.
Lemma same_app : forall h x l, Forall (fun a => a < List.length h)%nat l -> same h (h ++ x) l.
Proof. intros h x l F a A. rewrite Forall_forall in F. apply read_app. auto. Qed.
Lemma same_trans : forall h h' h'' l, same h h' l -> same h' h'' l -> same h h'' l.
Proof. intros h h' h'' l A B a I. now rewrite B, A. Qed.
Lemma same_incl : forall h h' l k, same h h' l -> incl k l -> same h h' k.
Proof. intros h h' l k S I a A. auto. Qed.
Lemma hold_app : forall h p cs ts l cs' ts' l', hold h p cs ts l -> hold h p cs' ts' l' -> hold h p (cs ++ cs') (ts ++ ts') (l ++ l').
Proof.
  intros h p cs ts. revert cs. induction ts as [|t ts IH]; intros cs l cs' ts' l' H H'; inversion H; subst; [exact H'|].
  cbn [app]. rewrite <- app_assoc. constructor; auto.
Qed.
Lemma hold_split : forall h p ts cs ts' l, hold h p cs (ts ++ ts') l ->
  exists cs1 cs2 l1 l2, cs = cs1 ++ cs2 /\ l = l1 ++ l2 /\ hold h p cs1 ts l1 /\ hold h p cs2 ts' l2.
Proof.
  induction ts as [|t ts IH]; intros cs ts' l H; cbn [app] in H.
  - exists [], cs, [], l. repeat split; [constructor|exact H].
  - inversion H as [|? c cs' ? ? u us H1 H2]; subst. destruct (IH _ _ _ H2) as (cs1 & cs2 & l1 & l2 & -> & -> & A & B).
    exists (c :: cs1), cs2, (u ++ l1), l2. rewrite <- app_assoc. repeat split; [now constructor|exact B].
Qed.

(** ** The open nodes *)
Inductive frame : Type := Fr (t : node_type) (text : string) (data : Z) (m : list range) (ts : list tree).
Definition opt {A} (o : option A) : list A := match o with Some x => [x] | None => [] end.
Fixpoint stack (h : heap) (a : address) (oc : option address) (z : list frame) (l : list address) : Prop :=
  match z with
  | [] => False
  | Fr t tx d m ts :: rest =>
    exists p cs l1 l2, read h a = Some (Node t tx d m p (cs ++ opt oc)) /\ hold h (Some a) cs ts l1 /\ l = a :: l1 ++ l2 /\
      match rest with [] => p = None /\ l2 = [] /\ a = 0%nat | _ => exists q, p = Some q /\ stack h q (Some a) rest l2 end
  end.
Lemma stack_same : forall z h h' a oc l, stack h a oc z l -> same h h' l -> stack h' a oc z l.
Proof.
  induction z as [|[t tx d m ts] rest IH]; intros h h' a oc l H S; [exact H|]. cbn [stack] in *.
  destruct H as (p & cs & l1 & l2 & R & C & -> & K). exists p, cs, l1, l2. split; [rewrite S; [exact R|now left]|].
  split; [apply (hold_same h); [exact C|]; apply (same_incl _ _ _ _ S); intros x X; right; apply in_or_app; now left|]. split; [reflexivity|].
  destruct rest as [|f rest]; [exact K|]. destruct K as (q & -> & K). exists q. split; [reflexivity|]. apply (IH h); [exact K|].
  apply (same_incl _ _ _ _ S). intros x X. right. apply in_or_app. now right.
Qed.
Lemma stack_in : forall z h a oc l, stack h a oc z l -> In a l.
Proof. intros [|[t tx d m ts] rest] h a oc l H; [destruct H|]. destruct H as (p & cs & l1 & l2 & R & C & -> & K). now left. Qed.

Definition zstate : Type := (list frame * bool)%type.
Definition zadd (t : tree) (z : list frame) : list frame :=
  match z with [] => [] | Fr ty tx d m ts :: r => Fr ty tx d m (ts ++ [t]) :: r end.
Definition zlocate (source : string) (m w : list range) (t : tree) : result tree :=
  match t with
  | Tree ty text data m0 cs =>
    match ty, cs with
    | ItemNode, Tree ty' text' data' [] cs' :: r =>
      next (text_map source m text') (fun k => Good (Tree ty text data (append_set m0 w) (Tree ty' text' data' k cs' :: r)))
    | _, _ => Good (Tree ty text data (append_set m0 w) cs)
    end
  end.
Definition zstep (source : string) (e : event) (s : zstate) : result zstate :=
  let '(z, fl) := s in
  match e with
  | EHeader t l => Good (zadd (Tree HeaderNode t l [] []) z, fl)
  | ECode t => Good (zadd (Tree CodeNode t 0 [] []) z, fl)
  | EParagraph t => Good (zadd (Tree ParagraphNode t 0 [] []) z, fl)
  | ERule => Good (zadd (Tree RuleNode "" 0 [] []) z, fl)
  | EHtml t => Good (zadd (Tree HtmlNode t 0 [] []) z, fl)
  | EBeginList => Good s
  | EEndList => Good (z, true)
  | EBeginItem f => Good (Fr ItemNode "" f [] [] :: z, fl)
  | EEndItem t f =>
    match z with
    | Fr ItemNode tx _ m ts :: (_ :: _) as r => Good (zadd (Tree ItemNode tx f m (titled t ts)) r, fl)
    | Fr ItemNode _ _ _ _ :: [] => NoParent
    | _ => Mismatch
    end
  | EBeginQuote => Good (Fr QuoteNode "" 0 [] [] :: z, fl)
  | EEndQuote t =>
    match z with
    | Fr QuoteNode _ d m ts :: (_ :: _) as r => Good (zadd (Tree QuoteNode t d m ts) r, fl)
    | Fr QuoteNode _ _ _ _ :: [] => NoParent
    | _ => Mismatch
    end
  | EDidParse None => Good s
  | EDidParse (Some m) =>
    if fl then Good (z, false) else
    match z with
    | Fr ty tx d m0 ts :: r =>
      match rev ts with
      | [] => Good s
      | t :: ts' =>
        next (clip (slen source) m) (fun o =>
          match o with
          | None => Good s
          | Some w => next (zlocate source m w t) (fun t' => Good (Fr ty tx d m0 (rev ts' ++ [t']) :: r, fl))
          end)
      end
    | [] => Wild
    end
  end.
Fixpoint zsteps (source : string) (es : list event) (s : zstate) : result zstate :=
  match es with [] => Good s | e :: r => next (zstep source e s) (zsteps source r) end.

Definition sim (s : state) (zf : zstate) : Prop :=
  exists a l, s_working s = Some a /\ s_list s = snd zf /\ stack (s_heap s) a None (fst zf) l /\ NoDup l /\
    Forall (fun x => x < List.length (s_heap s))%nat l.
Definition agree (x : result state) (y : result zstate) : Prop :=
  match x, y with
  | Good s, Good z => sim s z
  | NoWorkingNode, NoWorkingNode | Mismatch, Mismatch | NoParent, NoParent | OutOfRange, OutOfRange | Wild, Wild => True
  | _, _ => False
  end.

(** ** The callbacks do the same *)
Lemma agree_next : forall (x : result state) (y : result zstate) f g,
  agree x y -> (forall s z, sim s z -> agree (f s) (g z)) -> agree (next x f) (next y g).
Proof. intros [s| | | | | ] [z| | | | | ] f g A H; cbn in *; try contradiction; auto. Qed.
Lemma stack_working : forall s zf, sim s zf -> exists a n, s_working s = Some a /\ read (s_heap s) a = Some n /\ working s = Good (a, n).
Proof.
  intros s [z fl] (a & l & W & _ & K & _ & _). cbn [fst] in K. destruct z as [|[t tx d m ts] r]; [destruct K|].
  destruct K as (p & cs & l1 & l2 & R & _). exists a. eexists. split; [exact W|]. split; [exact R|]. unfold working, deref. rewrite W, R. reflexivity.
Qed.
Lemma nodup_app : forall (A : Type) (a b : list A), NoDup (a ++ b) <-> NoDup a /\ NoDup b /\ forall x, In x a -> ~ In x b.
Proof.
  induction a as [|x a IH]; intros b; cbn [app].
  - split; [intros H; repeat split; [constructor|exact H|intros x []]|tauto].
  - rewrite !NoDup_cons_iff, IH, in_app_iff. split.
    + intros (N & A1 & A2 & A3). repeat split; [tauto|exact A1|exact A2|]. intros y [->|Y]; [tauto|auto].
    + intros ((N & A1) & A2 & A3). repeat split; [|exact A1|exact A2|intros y Y; apply A3; now right]. intros [K|K]; [tauto|]. apply (A3 x); [now left|exact K].
Qed.
Ltac nd := repeat (rewrite ?NoDup_cons_iff, ?nodup_app, ?in_app_iff in *; cbn [In app] in * ).

(** a child is added to the innermost open node *)
Lemma add_sim : forall s z fl t tx d, sim s (z, fl) ->
  exists s' c, add_child t tx d s = Good (s', c) /\ sim s' (zadd (Tree t tx d [] []) z, fl) /\
    exists l, stack (s_heap s') c None (Fr t tx d [] [] :: z) l /\ NoDup l /\ Forall (fun x => x < List.length (s_heap s'))%nat l /\ s_list s' = fl.
Proof.
  intros s z fl t tx d S. destruct (stack_working _ _ S) as (a & n & W & R & E). unfold add_child. rewrite E. cbn [next].
  set (c := List.length (s_heap s)). eexists _, c. split; [reflexivity|].
  destruct S as (a' & l & W' & L & K & ND & F). rewrite W in W'. injection W' as <-. cbn [fst snd] in *.
  destruct z as [|[ty tx0 d0 m0 ts] r]; [destruct K|]. destruct K as (p & cs & l1 & l2 & R' & C & -> & K).
  rewrite R in R'. injection R' as ->. unfold set_children. cbn [n_children n_type n_text n_data n_map n_parent opt] in *. rewrite app_nil_r in *.
  set (h := write (s_heap s) a (Node ty tx0 d0 m0 p (cs ++ [c]))). set (h' := h ++ [Node t tx d [] (Some a) []]).
  assert (La : (a < c)%nat) by (exact (read_lt _ _ _ R)). assert (Lh : List.length h = c) by (apply length_write).
  assert (Lh' : List.length h' = S c) by (unfold h'; rewrite app_length, Lh; cbn; lia).
  assert (Ra : read h' a = Some (Node ty tx0 d0 m0 p (cs ++ [c]))) by (unfold h'; rewrite read_app by lia; unfold h; now apply read_write).
  assert (Rc : read h' c = Some (Node t tx d [] (Some a) [])) by (unfold h'; rewrite <- Lh; apply read_new).
  assert (Na : ~ In a (l1 ++ l2)) by (inversion ND; assumption).
  assert (Sm : same (s_heap s) h' (l1 ++ l2)).
  { apply (same_trans _ h); [now apply same_write|]. apply same_app. rewrite Lh. now inversion F. }
  assert (Nc : ~ In c (a :: l1 ++ l2)). { intros I. rewrite Forall_forall in F. specialize (F _ I). unfold c in F. lia. }
  assert (F' : Forall (fun x => (x < S c)%nat) (a :: l1 ++ l2)). { eapply Forall_impl; [|exact F]. cbn. fold c. intros; lia. }
  assert (C' : hold h' (Some a) cs ts l1). { apply (hold_same (s_heap s)); [exact C|]. apply (same_incl _ _ _ _ Sm). intros x X. apply in_or_app. now left. }
  assert (K' : match r with [] => p = None /\ l2 = [] /\ a = 0%nat | _ => exists q, p = Some q /\ stack h' q (Some a) r l2 end).
  { destruct r as [|f r]; [exact K|]. destruct K as (q & -> & K). exists q. split; [reflexivity|]. apply (stack_same _ (s_heap s)); [exact K|].
    apply (same_incl _ _ _ _ Sm). intros x X. apply in_or_app. now right. }
  split.
  - exists a, (a :: (l1 ++ [c]) ++ l2). cbn [s_working s_list s_heap fst snd zadd]. split; [exact W|]. split; [exact L|]. split; [|split].
    + cbn [stack]. exists p, (cs ++ [c])%list, (l1 ++ [c])%list, l2. split; [rewrite app_nil_r; exact Ra|]. split; [|split; [reflexivity|exact K']].
      apply hold_app; [exact C'|]. apply (hold_cons h' (Some a) c [] (Tree t tx d [] []) [] [c] []); [|constructor]. econstructor; [exact Rc|constructor].
    + rewrite <- app_assoc. apply (Permutation_NoDup (Permutation_middle (a :: l1) l2 c)). now constructor.
    + rewrite Lh'. rewrite Forall_forall in *. intros x X. apply (fun H => H) in X. destruct X as [<-|X]; [lia|]. rewrite !in_app_iff in X.
      destruct X as [[X|[<-|[]]]|X]; [apply F'; right; apply in_or_app; now left|lia|apply F'; right; apply in_or_app; now right].
  - exists (c :: a :: l1 ++ l2). cbn [s_heap s_list]. split; [|split; [now constructor|split; [rewrite Lh'; constructor; [lia|exact F']|exact L]]].
    cbn [stack]. exists (Some a), [], [], (a :: l1 ++ l2). split; [exact Rc|]. split; [constructor|]. split; [reflexivity|]. exists a. split; [reflexivity|].
    exists p, cs, l1, l2. split; [exact Ra|]. split; [exact C'|]. split; [reflexivity|exact K'].
Qed.
Lemma close_stack : forall h a t tx d m q cs ts l1 up r l2,
  read h a = Some (Node t tx d m (Some q) cs) -> hold h (Some a) cs ts l1 -> stack h q (Some a) (up :: r) l2 ->
  exists l, stack h q None (zadd (Tree t tx d m ts) (up :: r)) l /\ Permutation (a :: l1 ++ l2) l.
Proof.
  intros h a t tx d m q cs ts l1 [ty tx0 d0 m0 ts0] r l2 R C K. cbn [stack] in K. destruct K as (p & cs0 & k1 & k2 & R0 & C0 & -> & K).
  exists (q :: (k1 ++ a :: l1) ++ k2). split.
  - cbn [zadd stack]. exists p, (cs0 ++ [a])%list, (k1 ++ a :: l1)%list, k2. cbn [opt] in *. split; [now rewrite app_nil_r|]. split; [|split; [reflexivity|exact K]].
    apply hold_app; [exact C0|]. rewrite <- (app_nil_r (a :: l1)). constructor; [|constructor]. econstructor; [exact R|exact C].
  - change (a :: l1 ++ q :: k1 ++ k2) with ((a :: l1) ++ q :: (k1 ++ k2))%list. rewrite <- Permutation_middle. constructor.
    rewrite !app_assoc. apply Permutation_app_tail. apply Permutation_app_comm.
Qed.
Lemma end_quote_sim : forall s z fl t, sim s (z, fl) -> agree (end_quote t s)
  (match z with
    | Fr QuoteNode _ d m ts :: (_ :: _) as r => Good (zadd (Tree QuoteNode t d m ts) r, fl)
    | Fr QuoteNode _ _ _ _ :: [] => NoParent
    | _ => Mismatch
    end).
Proof.
  intros s z fl t S. destruct (stack_working _ _ S) as (a & n & W & R & E). unfold end_quote. rewrite E. cbn [next].
  destruct S as (a' & l & W' & L & K & ND & F). rewrite W in W'. injection W' as <-. cbn [fst snd] in *.
  destruct z as [|[ty tx0 d0 m0 ts] r]; [destruct K|]. destruct K as (p & cs & l1 & l2 & R' & C & -> & K). cbn [opt] in R'. rewrite app_nil_r in R'.
  rewrite R in R'. injection R' as ->. cbn [n_children n_type n_text n_data n_map n_parent parent_of].
  destruct ty; try exact I. destruct r as [|up r].
  { destruct K as [-> _]. exact I. }
  destruct K as (q & -> & K). cbn [parent_of n_parent next agree].
  set (h := write (s_heap s) a (Node QuoteNode t d0 m0 (Some q) cs)). apply NoDup_cons_iff in ND as [Na ND]. rewrite in_app_iff in Na.
  destruct (close_stack h a QuoteNode t d0 m0 q cs ts l1 up r l2) as (l & K' & P).
  - apply read_write. exact (read_lt _ _ _ R).
  - apply (hold_same (s_heap s)); [exact C|]. apply same_write. tauto.
  - apply (stack_same _ (s_heap s)); [exact K|]. apply same_write. tauto.
  - exists q, l. cbn [s_working s_list s_heap fst snd]. repeat split; try assumption.
    + apply (Permutation_NoDup P). constructor; [|exact ND]. now rewrite in_app_iff.
    + unfold h. rewrite length_write. apply (Permutation_Forall P). exact F.
Qed.
Lemma end_item_sim : forall s z fl t f, sim s (z, fl) -> agree (end_item t f s)
  (match z with
    | Fr ItemNode tx _ m ts :: (_ :: _) as r => Good (zadd (Tree ItemNode tx f m (titled t ts)) r, fl)
    | Fr ItemNode _ _ _ _ :: [] => NoParent
    | _ => Mismatch
    end).
Proof.
  intros s z fl t f S. destruct (stack_working _ _ S) as (a & n & W & R & E). unfold end_item. rewrite E. cbn [next].
  destruct S as (a' & l & W' & L & K & ND & F). rewrite W in W'. injection W' as <-. cbn [fst snd] in *.
  destruct z as [|[ty tx0 d0 m0 ts] r]; [destruct K|]. destruct K as (p & cs & l1 & l2 & R' & C & -> & K). cbn [opt] in R'. rewrite app_nil_r in R'.
  rewrite R in R'. injection R' as ->. cbn [n_children n_type n_text n_data n_map n_parent].
  destruct ty; try exact I.
  set (c := List.length (s_heap s)).
  assert (A : exists b, match cs with [] => Good true | c :: _ => next (deref (s_heap s) c) (fun x => Good (match n_type x with ParagraphNode => false | _ => true end)) end = Good b /\
    titled t ts = if b then Tree ParagraphNode t 0 [] [] :: ts else ts).
  { inversion C as [|? c0 cs0 t0 ts0 u us C1 C2]; subst; [now exists true|]. inversion C1 as [? ? ty tx d m cs1 ts1 u1 Rc]; subst.
    unfold deref. rewrite Rc. cbn [next n_type]. exists (match ty with ParagraphNode => false | _ => true end). split; [reflexivity|]. now destruct ty. }
  destruct A as (b & -> & ->). cbn [next n_parent parent_of].
  destruct r as [|up r].
  { destruct K as [-> _]. exact I. }
  destruct K as (q & -> & K). unfold parent_of. cbn [n_parent next agree].
  apply NoDup_cons_iff in ND as [Na ND]. rewrite in_app_iff in Na. assert (La : (a < c)%nat) by (exact (read_lt _ _ _ R)).
  destruct b.
  - set (h := write (s_heap s) a (Node ItemNode tx0 f m0 (Some q) (c :: cs))). set (h' := h ++ [Node ParagraphNode t 0 [] (Some a) []]).
    assert (Lh : List.length h = c) by (apply length_write). assert (Lh' : List.length h' = S c) by (unfold h'; rewrite app_length, Lh; cbn; lia).
    assert (Sm : same (s_heap s) h' (l1 ++ l2)).
    { apply (same_trans _ h); [apply same_write; rewrite in_app_iff; tauto|]. apply same_app. rewrite Lh. now inversion F. }
    assert (Rc : read h' c = Some (Node ParagraphNode t 0 [] (Some a) [])) by (unfold h'; rewrite <- Lh; apply read_new).
    assert (Nc : ~ In c (a :: l1 ++ l2)). { intros I. rewrite Forall_forall in F. specialize (F _ I). unfold c in F. lia. }
    destruct (close_stack h' a ItemNode tx0 f m0 q (c :: cs) (Tree ParagraphNode t 0 [] [] :: ts) ([c] ++ l1) up r l2) as (l & K' & P).
    + unfold h'. rewrite read_app by lia. unfold h. now apply read_write.
    + apply (hold_cons h' (Some a) c cs _ ts [c] l1); [econstructor; [exact Rc|constructor]|]. apply (hold_same (s_heap s)); [exact C|].
      apply (same_incl _ _ _ _ Sm). intros x X. apply in_or_app. now left.
    + apply (stack_same _ (s_heap s)); [exact K|]. apply (same_incl _ _ _ _ Sm). intros x X. apply in_or_app. now right.
    + exists q, l. cbn [s_working s_list s_heap fst snd]. repeat split; try assumption.
      * apply (Permutation_NoDup P). cbn [app]. apply (Permutation_NoDup (l := c :: a :: l1 ++ l2)); [constructor|]. constructor; [exact Nc|].
        constructor; [now rewrite in_app_iff|exact ND].
      * rewrite Lh'. apply (Permutation_Forall P). cbn [app]. inversion F as [|? ? F1 F2]; subst. constructor; [lia|]. constructor; [lia|].
        eapply Forall_impl; [|exact F2]. cbn. fold c. intros; lia.
  - set (h := write (s_heap s) a (Node ItemNode tx0 f m0 (Some q) cs)).
    destruct (close_stack h a ItemNode tx0 f m0 q cs ts l1 up r l2) as (l & K' & P).
    + now apply read_write.
    + apply (hold_same (s_heap s)); [exact C|]. apply same_write. tauto.
    + apply (stack_same _ (s_heap s)); [exact K|]. apply same_write. tauto.
    + exists q, l. cbn [s_working s_list s_heap fst snd]. repeat split; try assumption.
      * apply (Permutation_NoDup P). constructor; [|exact ND]. now rewrite in_app_iff.
      * unfold h. rewrite length_write. apply (Permutation_Forall P). exact F.
Qed.
Lemma hold_last : forall h p cs ts t l, hold h p cs (ts ++ [t]) l ->
  exists cs' c l1 l2, cs = cs' ++ [c] /\ l = l1 ++ l2 /\ hold h p cs' ts l1 /\ holds h p c t l2.
Proof.
  intros h p cs ts t l H. destruct (hold_split _ _ _ _ _ _ H) as (cs1 & cs2 & l1 & l2 & -> & -> & A & B).
  inversion B as [|? c cs' ? ? u us B1 B2]; subst. inversion B2; subst. exists cs1, c, l1, u. rewrite app_nil_r. repeat split; assumption.
Qed.
Lemma hold_rev_nil : forall h p cs ts l, hold h p cs ts l -> ts = [] -> cs = [].
Proof. intros h p cs ts l H ->. now inversion H. Qed.
(** a node replaced, its children being the same trees or changed ones *)
Lemma stack_last : forall h h' a ty tx d m ts t t' r cs c l1 lc l2 p,
  read h' a = Some (Node ty tx d m p (cs ++ [c])) -> hold h (Some a) cs ts l1 -> holds h' (Some a) c t' lc ->
  match r with [] => p = None /\ l2 = [] /\ a = 0%nat | _ => exists q, p = Some q /\ stack h q (Some a) r l2 end ->
  same h h' (l1 ++ l2) -> holds h (Some a) c t lc ->
  stack h' a None (Fr ty tx d m (ts ++ [t']) :: r) (a :: (l1 ++ lc) ++ l2).
Proof.
  intros h h' a ty tx d m ts t t' r cs c l1 lc l2 p R C H K S _. cbn [stack]. exists p, (cs ++ [c])%list, (l1 ++ lc)%list, l2. cbn [opt].
  split; [now rewrite app_nil_r|]. split; [|split; [reflexivity|]].
  - apply hold_app; [apply (hold_same h); [exact C|]; apply (same_incl _ _ _ _ S); intros x X; apply in_or_app; now left|].
    rewrite <- (app_nil_r lc). constructor; [exact H|constructor].
  - destruct r as [|up r]; [exact K|]. destruct K as (q & -> & K). exists q. split; [reflexivity|]. apply (stack_same _ h); [exact K|].
    apply (same_incl _ _ _ _ S). intros x X. apply in_or_app. now right.
Qed.
Lemma append_nil_set : forall k, append_set [] k = k.
Proof. intros [|v k]; reflexivity. Qed.
Lemma did_parse_sim : forall source m s z fl, sim s (z, fl) -> agree (did_parse source m s) (zstep source (EDidParse (Some m)) (z, fl)).
Proof.
  intros source m s z fl S. unfold did_parse, zstep. pose proof S as (a0 & l0 & W0 & L0 & K0 & ND0 & F0). cbn [fst snd] in *. rewrite L0. destruct fl.
  { exists a0, l0. cbn [s_working s_list s_heap fst snd]. repeat split; assumption. }
  destruct (stack_working _ _ S) as (a & n & W & R & E). rewrite E. cbn [next snd]. rewrite W in W0. injection W0 as <-.
  destruct z as [|[ty tx0 d0 m0 ts] r]; [destruct K0|]. pose proof K0 as (p & cs & l1 & l2 & R' & C & -> & K). cbn [opt] in R'. rewrite app_nil_r in R'.
  rewrite R in R'. injection R' as ->. cbn [n_children].
  destruct (rev ts) as [|t ts'] eqn:Rt.
  { assert (T : ts = []) by (rewrite <- (rev_involutive ts), Rt; reflexivity). rewrite (hold_rev_nil _ _ _ _ _ C T). cbn [rev]. exact S. }
  assert (T : ts = rev ts' ++ [t]) by (rewrite <- (rev_involutive ts), Rt; reflexivity). rewrite T in C.
  destruct (hold_last _ _ _ _ _ _ C) as (cs' & c & k1 & lc & -> & -> & C1 & C2). rewrite rev_app_distr. cbn [rev app].
  destruct (clip (slen source) m) as [[w|]| | | | | ]; cbn [next]; try exact I; [|exact S].
  inversion C2 as [? ? tyc txc dc mc csc tsc u Rc Hc]; subst. unfold deref at 1. rewrite Rc. cbn [next n_map n_type n_children set_map n_text n_data n_parent].
  unfold set_map. cbn [n_map n_type n_children n_text n_data n_parent].
  set (h1 := write (s_heap s) c (Node tyc txc dc (append_set mc w) (Some a) csc)).
  rewrite <- app_assoc in ND0. cbn [app] in ND0. 
  assert (N1 : ~ In c (k1 ++ l2) /\ a <> c /\ ~ In c u /\ ~ In a u).
  { pose proof ND0 as Q. apply NoDup_cons_iff in Q as [Qa Q]. apply NoDup_remove in Q as [Q1 Q2].
    rewrite !in_app_iff in *. cbn [In] in *. rewrite ?in_app_iff in Qa. repeat split; [tauto|intros ->; tauto|tauto|tauto]. }
  destruct N1 as (N1 & N2 & N3 & N4).
  assert (Ra1 : read h1 a = Some (Node ty tx0 d0 m0 p (cs' ++ [c]))) by (unfold h1; rewrite read_other by congruence; exact R).
  assert (Rc1 : read h1 c = Some (Node tyc txc dc (append_set mc w) (Some a) csc)) by (apply read_write; exact (read_lt _ _ _ Rc)).
  assert (S1 : same (s_heap s) h1 (k1 ++ l2)) by (now apply same_write).
  assert (Done : forall h' t', read h' a = Some (Node ty tx0 d0 m0 p (cs' ++ [c])) -> holds h' (Some a) c t' (c :: u) -> same (s_heap s) h' (k1 ++ l2) ->
    List.length h' = List.length (s_heap s) ->
    sim (St h' (s_working s) false) (Fr ty tx0 d0 m0 (rev ts' ++ [t']) :: r, false)).
  { intros h' t' A B D Len. exists a, (a :: (k1 ++ c :: u) ++ l2). cbn [s_working s_list s_heap fst snd]. split; [exact W|]. split; [reflexivity|].
    split; [exact (stack_last (s_heap s) h' a ty tx0 d0 m0 (rev ts') _ t' r cs' c k1 (c :: u) l2 p A C1 B K D C2)|].
    split; [rewrite <- app_assoc; exact ND0|]. rewrite Len. exact F0. }
  assert (Plain : agree (Good (St h1 (s_working s) false)) (Good (Fr ty tx0 d0 m0 (rev ts' ++ [Tree tyc txc dc (append_set mc w) tsc]) :: r, false))).
  { apply Done; [exact Ra1| |exact S1|apply length_write]. econstructor; [exact Rc1|]. apply (hold_same (s_heap s)); [exact Hc|now apply same_write]. }
  assert (Hc1 : hold h1 (Some c) csc tsc u) by (apply (hold_same (s_heap s)); [exact Hc|now apply same_write]).
  unfold zlocate. destruct tyc; cbn [next]; try exact Plain.
  inversion Hc1 as [|? f fs tf tsf uf ufs Hf Hfs]; subst; [exact Plain|].
  inversion Hf as [? ? tyf txf df mf csf tsf' u' Rf Hf']; subst. unfold deref. rewrite Rf. cbn [next n_map].
  destruct mf as [|x mf]; [|exact Plain]. cbn [n_text]. destruct (text_map source m txf) as [k| | | | | ]; cbn [next]; try exact I.
  rewrite append_nil_set. cbn [n_type n_text n_data n_parent n_children].
  set (h2 := write h1 f (Node tyf txf df k (Some c) csf)).
  assert (NDu : NoDup ((f :: u') ++ ufs)).
  { pose proof ND0 as Q. apply NoDup_cons_iff in Q as [_ Q]. apply nodup_app in Q as (_ & Q & _). apply NoDup_cons_iff in Q as [_ Q]. apply nodup_app in Q as (Q & _). exact Q. }
  cbn [app] in *. apply NoDup_cons_iff in NDu as [Nf NDu]. rewrite in_app_iff in Nf.
  assert (Nf2 : ~ In f (k1 ++ l2)).
  { pose proof ND0 as Q. apply NoDup_cons_iff in Q as [_ Q]. apply nodup_app in Q as (Q1 & Q2 & Q3). intros I0. apply in_app_or in I0 as [I0|I0].
    - apply (Q3 _ I0). right. now left.
    - apply NoDup_cons_iff in Q2 as [_ Q2]. apply NoDup_cons_iff in Q2 as [Q2 _]. apply Q2. rewrite !in_app_iff. tauto. }
  apply Done.
  - unfold h2. rewrite read_other; [exact Ra1|]. intros ->. apply N4. now left.
  - econstructor; [unfold h2; rewrite read_other; [exact Rc1|]; intros ->; apply N3; now left|].
    change (f :: u' ++ ufs) with ((f :: u') ++ ufs)%list. constructor.
    + econstructor; [unfold h2; apply read_write; exact (read_lt _ _ _ Rf)|]. apply (hold_same h1); [exact Hf'|]. apply same_write. tauto.
    + apply (hold_same h1); [exact Hfs|]. apply same_write. tauto.
  - apply (same_trans _ h1); [exact S1|]. now apply same_write.
  - unfold h2, h1. now rewrite !length_write.
Qed.
Lemma leaf_sim : forall t tx d s z fl, sim s (z, fl) -> agree (leaf_callback t tx d s) (Good (zadd (Tree t tx d [] []) z, fl)).
Proof. intros t tx d s z fl S. destruct (add_sim s z fl t tx d S) as (s' & c & E & S' & _). unfold leaf_callback. rewrite E. exact S'. Qed.
Lemma begin_sim : forall t d s z fl, sim s (z, fl) -> agree (begin_container t d s) (Good (Fr t "" d [] [] :: z, fl)).
Proof.
  intros t d s z fl S. destruct (add_sim s z fl t "" d S) as (s' & c & E & _ & l & K & ND & F & L). unfold begin_container. rewrite E. cbn [next fst snd agree].
  exists c, l. cbn [s_working s_list s_heap fst snd]. repeat split; assumption.
Qed.
Lemma step_sim : forall source e s zf, sim s zf -> agree (callback source e s) (zstep source e zf).
Proof.
  intros source e s [z fl] S. destruct e; cbn [callback]; try (now apply leaf_sim); try (now apply begin_sim).
  - destruct (stack_working _ _ S) as (a & n & W & _). unfold begin_list. rewrite W. exact S.
  - destruct S as (a & l & W & L & K). exists a, l. cbn [s_working s_list s_heap fst snd]. tauto.
  - now apply end_item_sim.
  - now apply end_quote_sim.
  - destruct m; [now apply did_parse_sim|exact S].
Qed.
Lemma steps_sim : forall source es s zf, sim s zf -> agree (callbacks source es s) (zsteps source es zf).
Proof.
  induction es as [|e es IH]; intros s zf S; [exact S|]. cbn [callbacks zsteps]. apply agree_next; [now apply step_sim|exact IH].
Qed.
Definition zstart (source : string) : zstate := ([Fr RootNode "" 0 [R 0 (slen source)] []], false).
Lemma start_sim : forall source, sim (start source) (zstart source).
Proof.
  intros source. exists 0%nat, [0%nat]. split; [reflexivity|]. split; [reflexivity|]. split; [|split; [repeat constructor; intros []|repeat constructor]].
  exists None, [], [], []. repeat split; constructor.
Qed.
Lemma parse_sim : forall source es, agree (parse source es) (zsteps source es (zstart source)).
Proof. intros. apply steps_sim, start_sim. Qed.
