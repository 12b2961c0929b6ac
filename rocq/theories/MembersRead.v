(** Lemmas for C80: reading with a report *)
From Verif Require Import Base StringUtility StringSpec StringProofs ByteBuffer ByteSpec Markdown MarkdownSpec Regex RegexSpec RegexProofs RegexCaps Keywords KeywordsSpec KeywordsProofs Prop_Keywords
  Signature SignatureSpec SignatureProofs SignatureWhole TypeTables SourceMap Mson Prop_Bytes Prop_Strings TypeDefs TypeDefsSpec TypeDefsProofs MembersTree MembersSpec.
From Verif Require SectionsSpec SectionsItems Payloads PayloadsSpec PayloadsText PayloadsNodes.
Import SectionsSpec(a_header, an_item, include_item, one_of_item, object_base, value_base, primitive_base).
Import PayloadsSpec(the_text, place, opens, row, padded).
Local Open Scope string_scope.
Notation values := Signature.values (only parsing).
Notation remaining := Signature.remaining (only parsing).

(** ** what the effects come to *)
Definition perform1 (s : st) (x : places * effect) : st :=
  match snd x with
  | Says c m => note (fst x) [Warns c m] s
  | Depends on_ by_ strict =>
    let '(d, e) := add_dependency (deps (s_tables s)) on_ by_ strict in note (fst x) (failed_by e) (St (set_deps (s_tables s) d) (s_notes s))
  end.
Definition perform (l : located) (s : st) : st := fold_left perform1 l s.
Lemma perform_app : forall a b s, perform (a ++ b)%list s = perform b (perform a s).
Proof. intros a b s. apply fold_left_app. Qed.
Lemma note_nil : forall m s, note m [] s = s.
Proof. intros m [t n]. unfold note. cbn. now rewrite app_nil_r. Qed.
Lemma note_app : forall m a b s, note m (a ++ b)%list s = note m b (note m a s).
Proof. intros m a b [t n]. unfold note. cbn. now rewrite map_app, app_assoc. Qed.
Lemma note_tables : forall m l s, s_tables (note m l s) = s_tables s.
Proof. reflexivity. Qed.
Lemma set_deps_same : forall t, set_deps t (deps t) = t.
Proof. now intros []. Qed.
Lemma set_deps_twice : forall t d d', set_deps (set_deps t d) d' = set_deps t d'.
Proof. now intros []. Qed.
Lemma deps_set : forall t d, deps (set_deps t d) = d.
Proof. now intros []. Qed.
Lemma bases_set : forall t d, bases (set_deps t d) = bases t.
Proof. now intros []. Qed.
Lemma perform_bases : forall l s, bases (s_tables (perform l s)) = bases (s_tables s).
Proof.
  induction l as [|[m [c x|a b c]] l IH]; intros s; [reflexivity|..]; cbn [perform fold_left]; unfold perform in IH; rewrite IH; unfold perform1; cbn [fst snd].
  - reflexivity.
  - destruct (add_dependency _ _ _ _) as [d e]. rewrite note_tables. cbn [s_tables]. apply bases_set.
Qed.
Lemma perform_on : forall t l s, perform (on t l) s = let '(d, w) := performed (deps (s_tables s)) l in note (lies t) w (St (set_deps (s_tables s) d) (s_notes s)).
Proof.
  intros t. induction l as [|[c x|a b k] l IH]; intros s.
  - cbn. rewrite set_deps_same, note_nil. now destruct s.
  - change (perform (on t l) (note (lies t) [Warns c x] s) = let '(d, w) := performed (deps (s_tables s)) (Says c x :: l) in note (lies t) w (St (set_deps (s_tables s) d) (s_notes s))).
    rewrite IH. cbn [performed]. rewrite note_tables. destruct (performed (deps (s_tables s)) l) as [d w]. unfold note. cbn. now rewrite <- app_assoc.
  - change (perform (on t l) (perform1 s (lies t, Depends a b k)) = let '(d, w) := performed (deps (s_tables s)) (Depends a b k :: l) in note (lies t) w (St (set_deps (s_tables s) d) (s_notes s))).
    rewrite IH. cbn [performed perform1 fst snd]. unfold perform1. cbn [fst snd]. destruct (add_dependency (deps (s_tables s)) a b k) as [d e]. rewrite note_tables. cbn [s_tables]. rewrite deps_set.
    destruct (performed d l) as [d' w]. rewrite set_deps_twice. rewrite note_app. reflexivity.
Qed.
Lemma perform_warns : forall t c l s, note (lies t) (map (Warns c) l) s = perform (on t (map (Says c) l)) s.
Proof.
  intros t c l s. rewrite perform_on, performed_says.
  - rewrite set_deps_same, map_map. now destruct s.
  - intros e I. apply in_map_iff in I as (m & <- & _). eauto.
Qed.

(** ** readers *)
Section Read.
Context (known : list (string * base_type)).
Definition reads {A} (f : st -> outcome (A * st)) (R : A -> located -> Prop) : Prop :=
  forall s x s', bases (s_tables s) = known -> (f s = Val (x, s') <-> exists e, R x e /\ s' = perform e s).
Lemma reads_ext : forall {A} (f : st -> outcome (A * st)) (R R' : A -> located -> Prop), reads f R -> (forall x e, R x e <-> R' x e) -> reads f R'.
Proof.
  intros A f R R' H E s x s' K. rewrite (H s x s' K). split; intros (e & Q & ->); exists e; (split; [now apply E|reflexivity]).
Qed.
Lemma reads_fun : forall {A} (f g : st -> outcome (A * st)) (R : A -> located -> Prop), reads f R -> (forall s, g s = f s) -> reads g R.
Proof. intros A f g R H E s x s' K. rewrite E. now apply H. Qed.
Lemma reads_ret : forall {A} (x : A) e, reads (fun s => Val (x, perform e s)) (fun y e' => y = x /\ e' = e).
Proof.
  intros A x e s y s' K. split.
  - intros H. injection H as <- <-. now exists e.
  - intros (e' & (-> & ->) & ->). reflexivity.
Qed.
Lemma reads_val : forall {A} (x : A), reads (fun s => Val (x, s)) (fun y e' => y = x /\ e' = []).
Proof. intros A x. exact (reads_ret x []). Qed.
Lemma reads_bind : forall {A B} (f : st -> outcome (A * st)) (g : A -> st -> outcome (B * st)) R Q, reads f R -> (forall x e, R x e -> reads (g x) (Q x)) ->
  reads (fun s => andthen (f s) (fun '(x, s) => g x s)) (fun y e => exists x e1 e2, R x e1 /\ Q x y e2 /\ e = (e1 ++ e2)%list).
Proof.
  intros A B f g R Q F G s y s' K. split.
  - intros H. destruct (f s) as [[x s1]| | |] eqn:E; try discriminate. cbn [andthen] in H. apply (F s x s1 K) in E as (e1 & R1 & ->).
    apply (G x e1 R1) in H as (e2 & Q2 & ->); [|now rewrite perform_bases]. exists (e1 ++ e2)%list. split; [|symmetry; apply perform_app]. now exists x, e1, e2.
  - intros (e & (x & e1 & e2 & R1 & Q2 & ->) & ->). assert (E : f s = Val (x, perform e1 s)) by (apply F; [exact K|]; now exists e1). rewrite E. cbn [andthen].
    apply (G x e1 R1); [now rewrite perform_bases|]. exists e2. split; [exact Q2|apply perform_app].
Qed.
Lemma reads_pure : forall {A B} (o : outcome A) (P : A -> Prop) (g : A -> st -> outcome (B * st)) Q, (forall x, o = Val x <-> P x) -> (forall x, P x -> reads (g x) (Q x)) ->
  reads (fun s => andthen o (fun x => g x s)) (fun y e => exists x, P x /\ Q x y e).
Proof.
  intros A B o P g Q O G s y s' K. split.
  - intros H. destruct o as [x| | |]; try discriminate. assert (Px : P x) by now apply O. apply (G x Px) in H as (e & H & ->); [|exact K]. exists e. split; [now exists x|reflexivity].
  - intros (e & (x & Px & H) & ->). apply O in Px as Ox. rewrite Ox. cbn [andthen]. apply (G x Px); [exact K|]. now exists e.
Qed.
Lemma reads_fail : forall {A} (o : outcome (A * st)) (R : A -> located -> Prop), (forall x, o <> Val x) -> (forall x e, ~ R x e) -> reads (fun _ => o) R.
Proof. intros A o R N M s x s' K. split; [intros H; now elim (N _ H)|intros (e & H & _); now elim (M _ _ H)]. Qed.

(** walks *)
Lemma reads_walk : forall {A} (Inv : A -> Prop) (step : tree -> A -> st -> outcome (A * bool * st)) (R : tree -> A -> A -> located -> bool -> Prop) l,
  (forall t a, In t l -> Inv a -> reads (step t a) (fun x e => R t a (fst x) e (snd x))) -> (forall t a a' e b, In t l -> Inv a -> R t a a' e b -> Inv a') ->
  forall a, Inv a -> reads (walk step l a) (nodes_say R l a).
Proof.
  intros A Inv step R l. induction l as [|t r IH]; intros H P a I.
  - cbn [walk]. refine (reads_ext _ _ _ (reads_val a) _). intros x e. split; [intros [-> ->]; constructor|intros Q; now inversion Q; subst].
  - cbn [walk]. pose proof (H t a (or_introl eq_refl) I) as F.
    assert (G : reads (fun s : st => andthen (step t a s) (fun '(x, s) => (fun (x : A * bool) s => if snd x then walk step r (fst x) s else Val (fst x, s)) x s))
       (fun (y : A) (e : located) => exists (x : A * bool) e1 e2, R t a (fst x) e1 (snd x) /\ (if snd x then nodes_say R r (fst x) y e2 else y = fst x /\ e2 = []) /\ e = (e1 ++ e2)%list)).
    { apply (reads_bind _ _ _ (fun (x : A * bool) y e2 => if snd x then nodes_say R r (fst x) y e2 else y = fst x /\ e2 = [])); [exact F|]. intros [x []] e Rx; cbn [fst snd].
      - apply IH; [intros u b Iu; apply H; now right|intros u b b' e' d Iu; apply P; now right|]. exact (P t a x e true (or_introl eq_refl) I Rx).
      - apply reads_val. }
    refine (reads_fun _ _ _ (reads_ext _ _ _ G _) _).
    + intros x e. split.
      * intros ([y []] & e1 & e2 & R1 & R2 & ->); cbn [fst snd] in *; [now apply (nodes_next R t r a y)|]. destruct R2 as [-> ->]. rewrite app_nil_r. now constructor.
      * intros Q. inversion Q as [|t0 r0 a0 a1 a2 e1 e2 S1 N1|t0 r0 a0 a1 e1 S1]; subst.
        { exists (a1, true), e1, e2. cbn [fst snd]. auto. }
        { exists (x, false), e, []. cbn [fst snd]. rewrite app_nil_r. auto. }
    + intros s. destruct (step t a s) as [[[y []] s1]| | |]; reflexivity.
Qed.
End Read.
Arguments reads_ext {known A} _ {R} R' _ _.
Arguments reads_fun {known A} f g {R} _ _.
Arguments reads_bind {known A B} {f} {g} {R} Q _ _.
Arguments reads_pure {known A B} {o} P {g} Q _ _.
