(** The conversion of a document: more steps never change its result, and it ends *)
From Coq Require Import Permutation.
From Verif Require Import Base SoValue JsonIo SourceMap Capi Element ElementSpec Extend Registry Expand ExpandSpec ExpandProofs JsonValue JsonSchema GenSpec FuelMono Peg MediaType TypeTables NamedTypes Mson
  MsonSpec MsonTotal MsonKinds MsonMono Blueprint Register RegisterSpec RegisterProofs Prop_Media Prop_Expand Prop_Gen Prop_Register Api.
Local Open Scope nat_scope.

Definition xbelow {A} (m m' : X A) : Prop := snd m = Runs \/ m = m'.
Lemma xbelow_refl : forall A (m : X A), xbelow m m.
Proof. intros. now right. Qed.
Lemma xbelow_bind : forall A B (m m' : X A) (f f' : A -> X B), xbelow m m' -> (forall a, xbelow (f a) (f' a)) -> xbelow (xbind m f) (xbind m' f').
Proof.
  intros A B m m' f f' [H|<-] K; [left; unfold xbind; now rewrite H|]. destruct m as [w [a| | | | |]]; unfold xbind; cbn; try (now right).
  destruct (K a) as [H|H]; [left; destruct (f a); exact H|right; now rewrite H].
Qed.
Lemma xbelow_map : forall A B (f f' : A -> X B) l, (forall x, In x l -> xbelow (f x) (f' x)) -> xbelow (xmap f l) (xmap f' l).
Proof.
  intros A B f f' l. induction l as [|x l IH]; intros H; [apply xbelow_refl|]. cbn [xmap]. apply xbelow_bind; [apply H; now left|]. intros y.
  apply xbelow_bind; [|intros; apply xbelow_refl]. apply IH. intros z Hz. apply H. now right.
Qed.
Lemma xbelow_fold : forall A B (f f' : A -> B -> X A) l, (forall a x, xbelow (f a x) (f' a x)) -> forall a, xbelow (xfold f a l) (xfold f' a l).
Proof. intros A B f f' l H. induction l as [|x l IH]; intros a; [apply xbelow_refl|]. cbn [xfold]. apply xbelow_bind; [apply H|exact IH]. Qed.
Lemma xbelow_mson : forall A (m m' : M A), below m m' -> xbelow (of_mson m) (of_mson m').
Proof. intros A [x|] m' H; [right; now rewrite (H x eq_refl)|now left]. Qed.
Lemma xbelow_run : forall A (m m' : run A), below m m' -> xbelow (of_run m) (of_run m').
Proof. intros A [x|] m' H; [right; now rewrite (H x eq_refl)|now left]. Qed.

Ltac xmono IH :=
  first
    [ match goal with |- xbelow ?a ?b => constr_eq a b; apply xbelow_refl end
    | IH
    | match goal with
      | |- xbelow (xbind _ _) (xbind _ _) => apply xbelow_bind; [xmono IH|let a := fresh "a" in intros a; xmono IH]
      | |- xbelow (xmap _ _) (xmap _ _) => apply xbelow_map; let a := fresh "a" in intros a _; xmono IH
      | |- xbelow (xfold _ _ _) (xfold _ _ _) => apply xbelow_fold; let a := fresh "a" in let b := fresh "b" in intros a b; xmono IH
      | |- xbelow (match ?x with _ => _ end) _ => destruct x; xmono IH
      end ].

Section More.
  Context (n m : nat) (L : n <= m) (r : registry) (o : option parse_options).
  Lemma mson_more : forall s, xbelow (mson n r s) (mson m r s).
  Proof. intros s. apply xbelow_mson. now apply structure_below. Qed.
  Lemma mson_if_more : forall s, xbelow (mson_if n r s) (mson_if m r s).
  Proof. intros s. unfold mson_if. xmono ltac:(apply mson_more). Qed.
  Lemma expand_more : forall e, xbelow (expand_refract n r e) (expand_refract m r e).
  Proof. intros e. apply xbelow_run. apply below_bind; [now apply expand_below|intros; apply below_refl]. Qed.
  Lemma structure_more : forall s, xbelow (data_structure n r s) (data_structure m r s).
  Proof. intros s. unfold data_structure. xmono ltac:(apply mson_more). Qed.
  Lemma body_more : forall p t e, xbelow (body_asset n o p t e) (body_asset m o p t e).
  Proof. intros p t e. unfold body_asset. xmono ltac:(apply xbelow_run; now apply generate_value_below). Qed.
  Lemma schema_more : forall p t e, xbelow (schema_asset n o p t e) (schema_asset m o p t e).
  Proof. intros p t e. unfold schema_asset. xmono ltac:(apply xbelow_run; now apply generate_schema_below). Qed.
  Lemma payload_more : forall p a, xbelow (payload_to_refract n r o p a) (payload_to_refract m r o p a).
  Proof. intros p a. unfold payload_to_refract. xmono ltac:(first [apply mson_if_more|apply expand_more|apply body_more|apply schema_more]). Qed.
  Lemma transaction_more : forall t a q s, xbelow (transaction_to_refract n r o t a q s) (transaction_to_refract m r o t a q s).
  Proof. intros t a q s. unfold transaction_to_refract. xmono ltac:(apply payload_more). Qed.
  Lemma example_more : forall a x, xbelow (example_to_refract n r o a x) (example_to_refract m r o a x).
  Proof. intros a x. unfold example_to_refract. xmono ltac:(apply transaction_more). Qed.
  Lemma action_more : forall a, xbelow (action_to_refract n r o a) (action_to_refract m r o a).
  Proof. intros a. unfold action_to_refract. cbv zeta. xmono ltac:(first [apply structure_more|apply example_more]). Qed.
  Lemma resource_more : forall s, xbelow (resource_to_refract n r o s) (resource_to_refract m r o s).
  Proof. intros s. unfold resource_to_refract. cbv zeta. xmono ltac:(first [apply structure_more|apply action_more]). Qed.
  Lemma element_more : forall b, xbelow (element_to_refract n r o b) (element_to_refract m r o b).
  Proof.
    apply (belement_ind' (fun b => xbelow (element_to_refract n r o b) (element_to_refract m r o b))). intros [c nm y s d l t] IH. cbn [b_elements] in IH.
    cbn [element_to_refract b_class]. destruct c; [apply xbelow_refl| |apply xbelow_refl|apply xbelow_refl| |].
    - apply xbelow_bind; [apply xbelow_map; exact IH|intros; apply xbelow_refl].
    - apply xbelow_bind; [apply resource_more|intros; apply xbelow_refl].
    - apply structure_more.
  Qed.
  Lemma blueprint_more : forall b, xbelow (blueprint_to_refract n r o b) (blueprint_to_refract m r o b).
  Proof. intros b. unfold blueprint_to_refract. cbv zeta. xmono ltac:(apply element_more). Qed.
  Lemma preregister_more : forall found q s, xbelow (preregister n found q s) (preregister m found q s).
  Proof. intros found q s. unfold preregister. destruct (first_type n (map seen_type found) (seen_type s)) as [b|] eqn:E; [|now left]. rewrite (first_type_mono n m _ _ b L E). now right. Qed.
  Lemma define_more : forall q s, xbelow (define n q s) (define m q s).
  Proof. intros q s. unfold define. xmono ltac:(apply xbelow_mson; now apply structure_below). Qed.
  Lemma register_more : forall found order, xbelow (register n found order) (register m found order).
  Proof. intros found order. unfold register. xmono ltac:(first [apply preregister_more|apply define_more]). Qed.
End More.
Lemma convert_more : forall n m o order b, n <= m -> xbelow (convert n o order b) (convert m o order b).
Proof. intros n m o order b L. unfold convert. apply xbelow_bind; [now apply register_more|]. intros r. now apply blueprint_more. Qed.

(** ** Results that are reached *)
Definition steady {A} (F : nat -> X A) : Prop := forall n m, n <= m -> xbelow (F n) (F m).
Definition ends {A} (F : nat -> X A) : Prop := exists n, snd (F n) <> Runs.
Definition leads {A} (F : nat -> X A) (a : A) : Prop := exists n w, F n = (w, Done a).
Lemma ends_later : forall A (F : nat -> X A) n m, steady F -> snd (F n) <> Runs -> n <= m -> F m = F n.
Proof. intros A F n m S H L. destruct (S n m L) as [E|E]; [contradiction|now symmetry]. Qed.
Lemma ends_ret : forall A (m : X A), snd m <> Runs -> ends (fun _ => m).
Proof. intros A m H. now exists 0. Qed.
Lemma ends_bind : forall A B (F : nat -> X A) (G : nat -> A -> X B), steady F -> (forall a, steady (fun n => G n a)) -> ends F -> (forall a, leads F a -> ends (fun n => G n a)) ->
  ends (fun n => xbind (F n) (G n)).
Proof.
  intros A B F G SF SG (n & H) K. destruct (F n) as [w [a| | | | |]] eqn:E; cbn in H; try contradiction; try (exists n; unfold xbind; rewrite E; discriminate).
  destruct (K a (ex_intro _ n (ex_intro _ w E))) as (m & Hm). exists (max n m). rewrite (ends_later A F n (max n m)); [|exact SF|rewrite E; discriminate|lia]. rewrite E.
  unfold xbind. cbn. rewrite (ends_later B (fun k => G k a) m (max n m) (SG a) Hm ltac:(lia)). destruct (G m a). exact Hm.
Qed.
Lemma ends_map : forall A B (f : nat -> A -> X B) l, (forall x, steady (fun n => f n x)) -> (forall x, In x l -> ends (fun n => f n x)) -> ends (fun n => xmap (f n) l).
Proof.
  intros A B f l S. induction l as [|x l IH]; intros H; [apply (ends_ret _ (xret [])); discriminate|]. cbn [xmap].
  apply (ends_bind _ _ (fun n => f n x) (fun n y => xbind (xmap (f n) l) (fun ys => xret (y :: ys)))).
  - apply S.
  - intros y n m L. apply xbelow_bind; [|intros; apply xbelow_refl]. apply xbelow_map. intros z _. now apply S.
  - apply H. now left.
  - intros y _. apply (ends_bind _ _ (fun n => xmap (f n) l) (fun _ ys => xret (y :: ys))).
    + intros n m L. apply xbelow_map. intros z _. now apply S.
    + intros a n m _. apply xbelow_refl.
    + apply IH. intros z Hz. apply H. now right.
    + intros ys _. apply (ends_ret _ (xret (y :: ys))). discriminate.
Qed.

Section Ends.
  Context (r : registry) (o : option parse_options) (R : forall n, rooted r n).
  Lemma mson_ends : forall s, ends (fun n => mson n r s).
  Proof.
    intros s. destruct (ancestors_of r R) as (f & F). exists f. assert (E := structure_ends f r (F f (le_n f)) s). unfold mson.
    destruct (structure_to_refract f r s) as [[[a w]| |]|]; try discriminate. contradiction.
  Qed.
  Lemma mson_if_ends : forall s, ends (fun n => mson_if n r s).
  Proof. intros s. unfold mson_if. destruct (structure_empty s); [apply (ends_ret _ (xret None)); discriminate|apply mson_ends]. Qed.
  Lemma expand_ends : forall e, ends (fun n => expand_refract n r e).
  Proof.
    intros e. destruct (C23_acyclic_terminates r R e) as (x & f & F). exists f. unfold expand_refract. rewrite (F f (le_n f)). destruct x; discriminate.
  Qed.
  Lemma value_ends : forall e, ends (fun n => of_run (generate_value n e)).
  Proof. intros e. destruct (C47_body_terminates e) as (x & f & F). exists f. rewrite (F f (le_n f)). destruct x; discriminate. Qed.
  Lemma schema_ends : forall e, ends (fun n => of_run (generate_schema n e)).
  Proof. intros e. destruct (C47_schema_terminates e) as (x & f & F). exists f. rewrite (F f (le_n f)). destruct x; discriminate. Qed.
  Ltac done := match goal with |- ends (fun _ => ?m) => apply (ends_ret _ m); discriminate end.
  Lemma structure_ends' : forall s, ends (fun n => data_structure n r s).
  Proof.
    intros s. apply (ends_bind _ _ (fun n => mson n r s) (fun _ d => xret (option_map held_structure d))); [intros n m L; now apply mson_more|intros a n m _; apply xbelow_refl|apply mson_ends|].
    intros d _. done.
  Qed.
  Lemma body_ends : forall p t e, ends (fun n => body_asset n o p t e).
  Proof.
    intros p t e. unfold body_asset. destruct (negb (blank (py_body p))); [done|]. destruct e as [e|]; [|done]. destruct (negb (no_bodies o) && is_json t)%bool; [|done].
    apply (ends_bind _ _ (fun n => of_run (generate_value n e)) (fun _ v => xret [asset (serialize_json v) "messageBody" (print_media t) []]));
      [intros n m L; apply xbelow_run; now apply generate_value_below|intros a n m _; apply xbelow_refl|apply value_ends|]. intros v _. done.
  Qed.
  Lemma schema_asset_ends : forall p t e, ends (fun n => schema_asset n o p t e).
  Proof.
    intros p t e. unfold schema_asset. destruct (negb (blank (py_schema p))); [done|]. destruct e as [e|]; [|done]. destruct (negb (no_schemas o) && is_json t)%bool; [|done].
    apply (ends_bind _ _ (fun n => of_run (generate_schema n e)) (fun _ s => xret [asset (serialize_json (VObject s)) "messageBodySchema" (print_media json_schema_type) []]));
      [intros n m L; apply xbelow_run; now apply generate_schema_below|intros a n m _; apply xbelow_refl|apply schema_ends|]. intros v _. done.
  Qed.
  Lemma payload_ends : forall p a, ends (fun n => payload_to_refract n r o p a).
  Proof.
    intros [y|] a; [|unfold payload_to_refract; done]. unfold payload_to_refract. destruct (parse_media (content_type (py_headers y))) as [t|].
    2:{ apply (ends_bind _ _ (fun n => mson_if n r (py_attributes y)) (fun _ _ => ([], Breaks))); [intros n m L; now apply mson_if_more|intros d n m _; apply xbelow_refl|apply mson_if_ends|]. intros d _. done. }
    apply (ends_bind _ _ (fun n => mson_if n r (py_attributes y)) (fun n own =>
      xbind (match own, a with Some _, _ => xret own | None, Some a => mson_if n r (ac_attributes a) | None, None => xret None end) (fun shape =>
        xbind (match shape with Some e => xbind (expand_refract n r e) (fun x => xret (Some x)) | None => xret None end) (fun expanded =>
        xbind (body_asset n o y t expanded) (fun body => xbind (schema_asset n o y t expanded) (fun schema =>
        xret (eset (payload_head (Some y) a) (DArray (copy_to_refract (py_description y) ++ match own with Some e => [held_structure e] | None => [] end ++ body ++ schema)%list)))))))).
    { intros n m L. now apply mson_if_more. }
    { intros own n m L. xmono ltac:(first [now apply mson_if_more|now apply expand_more|now apply body_more|now apply schema_more]). }
    { apply mson_if_ends. }
    intros own _.
    apply (ends_bind _ _ (fun n => match own, a with Some _, _ => xret own | None, Some a => mson_if n r (ac_attributes a) | None, None => xret None end) (fun n shape =>
        xbind (match shape with Some e => xbind (expand_refract n r e) (fun x => xret (Some x)) | None => xret None end) (fun expanded =>
        xbind (body_asset n o y t expanded) (fun body => xbind (schema_asset n o y t expanded) (fun schema =>
        xret (eset (payload_head (Some y) a) (DArray (copy_to_refract (py_description y) ++ match own with Some e => [held_structure e] | None => [] end ++ body ++ schema)%list))))))).
    { intros n m L. xmono ltac:(now apply mson_if_more). }
    { intros shape n m L. xmono ltac:(first [now apply expand_more|now apply body_more|now apply schema_more]). }
    { destruct own; [done|]. destruct a; [apply mson_if_ends|done]. }
    intros shape _.
    apply (ends_bind _ _ (fun n => match shape with Some e => xbind (expand_refract n r e) (fun x => xret (Some x)) | None => xret None end) (fun n expanded =>
        xbind (body_asset n o y t expanded) (fun body => xbind (schema_asset n o y t expanded) (fun schema =>
        xret (eset (payload_head (Some y) a) (DArray (copy_to_refract (py_description y) ++ match own with Some e => [held_structure e] | None => [] end ++ body ++ schema)%list)))))).
    { intros n m L. xmono ltac:(now apply expand_more). }
    { intros x n m L. xmono ltac:(first [now apply body_more|now apply schema_more]). }
    { destruct shape as [e|]; [|done]. apply (ends_bind _ _ (fun n => expand_refract n r e) (fun _ x => xret (Some x))); [intros n m L; now apply expand_more|intros x n m _; apply xbelow_refl|apply expand_ends|].
      intros x _. done. }
    intros x _.
    apply (ends_bind _ _ (fun n => body_asset n o y t x) (fun n body => xbind (schema_asset n o y t x) (fun schema =>
        xret (eset (payload_head (Some y) a) (DArray (copy_to_refract (py_description y) ++ match own with Some e => [held_structure e] | None => [] end ++ body ++ schema)%list))))).
    { intros n m L. now apply body_more. }
    { intros b n m L. xmono ltac:(now apply schema_more). }
    { apply body_ends. }
    intros b _.
    apply (ends_bind _ _ (fun n => schema_asset n o y t x) (fun _ schema =>
        xret (eset (payload_head (Some y) a) (DArray (copy_to_refract (py_description y) ++ match own with Some e => [held_structure e] | None => [] end ++ b ++ schema)%list)))).
    { intros n m L. now apply schema_more. }
    { intros s n m _. apply xbelow_refl. }
    { apply schema_asset_ends. }
    intros s _. done.
  Qed.
  Lemma transaction_ends : forall t a q s, ends (fun n => transaction_to_refract n r o t a q s).
  Proof.
    intros t a q s. unfold transaction_to_refract.
    apply (ends_bind _ _ (fun n => payload_to_refract n r o q (Some a)) (fun n x => xbind (payload_to_refract n r o s None) (fun y => xret (array_named "httpTransaction" (copy_to_refract t ++ [x; y])%list)))).
    { intros n m L. now apply payload_more. }
    { intros x n m L. xmono ltac:(now apply payload_more). }
    { apply payload_ends. }
    intros x _. apply (ends_bind _ _ (fun n => payload_to_refract n r o s None) (fun _ y => xret (array_named "httpTransaction" (copy_to_refract t ++ [x; y])%list))).
    { intros n m L. now apply payload_more. }
    { intros y n m _. apply xbelow_refl. }
    { apply payload_ends. }
    intros y _. done.
  Qed.
  Lemma example_ends : forall a x, ends (fun n => example_to_refract n r o a x).
  Proof. intros a x. apply (ends_map _ _ (fun n qs => transaction_to_refract n r o (ex_description x) a (fst qs) (snd qs))); [intros p n m L; now apply transaction_more|intros p _; apply transaction_ends]. Qed.
  Lemma action_ends : forall a, ends (fun n => action_to_refract n r o a).
  Proof.
    intros a. unfold action_to_refract. cbv zeta.
    match goal with |- ends (fun n => xbind (if ?c then ?x else xbind _ ?g) ?h) =>
      apply (ends_bind _ _ (fun n => if c then x else xbind (data_structure n r (ac_attributes a)) g) (fun n e => xbind (xmap (example_to_refract n r o a) (ac_examples a)) (fun ts =>
        xret (eset e (DArray (copy_to_refract (ac_description a) ++ concat ts)%list))))) end.
    { intros n m L. xmono ltac:(now apply structure_more). }
    { intros e n m L. xmono ltac:(now apply example_more). }
    { destruct (structure_empty (ac_attributes a)); [done|].
      match goal with |- ends (fun n => xbind _ ?g) => apply (ends_bind _ _ (fun n => data_structure n r (ac_attributes a)) (fun _ => g)) end; [intros n m L; now apply structure_more|intros x n m _; apply xbelow_refl|apply structure_ends'|].
      intros [d|] _; done. }
    intros e _. apply (ends_bind _ _ (fun n => xmap (example_to_refract n r o a) (ac_examples a)) (fun _ ts => xret (eset e (DArray (copy_to_refract (ac_description a) ++ concat ts)%list)))).
    { intros n m L. xmono ltac:(now apply example_more). }
    { intros x n m _. apply xbelow_refl. }
    { apply ends_map; [intros x n m L; now apply example_more|intros x _; apply example_ends]. }
    intros ts _. done.
  Qed.
  Lemma resource_ends : forall s, ends (fun n => resource_to_refract n r o s).
  Proof.
    intros s. unfold resource_to_refract. cbv zeta.
    match goal with |- ends (fun n => xbind (if ?c then ?x else _) (fun d => xbind _ (fun l => @?h d l))) =>
      apply (ends_bind _ _ (fun n => if c then x else data_structure n r (re_attributes s)) (fun n d => xbind (xmap (action_to_refract n r o) (re_actions s)) (fun l => h d l))) end.
    { intros n m L. xmono ltac:(now apply structure_more). }
    { intros e n m L. xmono ltac:(now apply action_more). }
    { destruct (structure_empty (re_attributes s)); [done|apply structure_ends']. }
    intros d _. match goal with |- ends (fun n => xbind _ ?h) => apply (ends_bind _ _ (fun n => xmap (action_to_refract n r o) (re_actions s)) (fun _ => h)) end.
    { intros n m L. xmono ltac:(now apply action_more). }
    { intros x n m _. apply xbelow_refl. }
    { apply ends_map; [intros x n m L; now apply action_more|intros x _; apply action_ends]. }
    intros ts _. done.
  Qed.
  Lemma element_ends : forall b, ends (fun n => element_to_refract n r o b).
  Proof.
    apply (belement_ind' (fun b => ends (fun n => element_to_refract n r o b))). intros [c nm y s d l t] IH. cbn [b_elements] in IH.
    cbn [element_to_refract b_class]. destruct c; try done.
    - match goal with |- ends (fun n => xbind _ ?h) => apply (ends_bind _ _ (fun n => xmap (element_to_refract n r o) l) (fun _ => h)) end.
      { intros n m L. xmono ltac:(now apply element_more). }
      { intros x n m _. apply xbelow_refl. }
      { apply ends_map; [intros x n m L; now apply element_more|exact IH]. }
      intros x _. done.
    - match goal with |- ends (fun n => xbind _ ?h) => apply (ends_bind _ _ (fun n => resource_to_refract n r o s) (fun _ => h)) end.
      { intros n m L. now apply resource_more. }
      { intros x n m _. apply xbelow_refl. }
      { apply resource_ends. }
      intros x _. done.
    - apply structure_ends'.
  Qed.
  Lemma blueprint_ends : forall b, ends (fun n => blueprint_to_refract n r o b).
  Proof.
    intros b. unfold blueprint_to_refract. cbv zeta.
    match goal with |- ends (fun n => xbind _ ?h) => apply (ends_bind _ _ (fun n => xmap (element_to_refract n r o) (bp_elements b)) (fun _ => h)) end.
    { intros n m L. xmono ltac:(now apply element_more). }
    { intros x n m _. apply xbelow_refl. }
    { apply ends_map; [intros x n m L; now apply element_more|intros x _; apply element_ends]. }
    intros x _. done.
  Qed.
End Ends.
(** whether a declared name is reserved, and the first such *)
Lemma first_reserved : forall l, (forall s, In s l -> is_reserved (type_name_of s) = false) \/
  exists p s q, l = (p ++ s :: q)%list /\ (forall x, In x p -> is_reserved (type_name_of x) = false) /\ is_reserved (type_name_of s) = true.
Proof.
  induction l as [|x l IH]; [left; intros s []|]. destruct (is_reserved (type_name_of x)) eqn:E; [right; exists [], x, l; repeat split; [intros y []|exact E]|].
  destruct IH as [IH|(p & s & q & -> & P & S)]; [left; intros s [<-|Hs]; auto|]. right. exists (x :: p), s, q. repeat split; [intros y [<-|Hy]; auto|exact S].
Qed.
Lemma register_ends : forall ds order, well_declared ds -> Permutation ds order ->
  ends (fun n => register n ds order) /\ forall r, leads (fun n => register n ds order) r -> (forall n, rooted r n) /\ none_reserved ds.
Proof.
  intros ds order W P. destruct (first_reserved order) as [N|(p & s & q & -> & Hp & Hs)].
  - assert (R : none_reserved ds) by (intros s Hs; apply N; now apply Permutation_in with ds). destruct (C62_registered ds W R) as (f0 & H). assert (H0 := H f0 (le_n f0) order P). split.
    + exists f0. destruct (register f0 ds order) as [w []]; cbn; try discriminate. contradiction.
    + intros r (n & w & E). split; [|exact R]. assert (E0 : register (max n f0) ds order = (w, Done r)).
      { destruct (register_more n (max n f0) ltac:(lia) ds order) as [K|K]; [rewrite E in K; discriminate|now rewrite <- K]. }
      specialize (H (max n f0) ltac:(lia) order P). rewrite E0 in H. destruct H as (_ & K & _). intros x. apply C23_root_ancestor. exists (max n f0). destruct (K x) as (y & -> & _). discriminate.
  - destruct (C62_reserved ds W) as (f0 & H). assert (E := H f0 (le_n f0) p s q P Hp Hs). split; [exists f0; rewrite E; discriminate|]. intros r (n & w & E').
    assert (K : register (max n f0) ds (p ++ s :: q) = (w, Done r)) by (destruct (register_more n (max n f0) ltac:(lia) ds (p ++ s :: q)) as [K|K]; [rewrite E' in K; discriminate|now rewrite <- K]).
    rewrite (H (max n f0) ltac:(lia) p s q P Hp Hs) in K. discriminate K.
Qed.
Theorem convert_ends : forall b o order, well_declared (find_named_types (bp_elements b)) -> Permutation (find_named_types (bp_elements b)) order ->
  exists f0 w x, x <> Runs /\ forall f, f0 <= f -> convert f o order b = (w, x).
Proof.
  intros b o order W P. destruct (register_ends _ order W P) as [E R]. assert (C : ends (fun n => convert n o order b)).
  { unfold convert. apply (ends_bind _ _ (fun n => register n (find_named_types (bp_elements b)) order) (fun n r => blueprint_to_refract n r o b)).
    - intros n m L. now apply register_more.
    - intros r n m L. now apply blueprint_more.
    - exact E.
    - intros r Hr. apply blueprint_ends. now apply (R r). }
  destruct C as (n & H). destruct (convert n o order b) as [w x] eqn:D. exists n, w, x. split; [exact H|]. intros f L. rewrite <- D. apply (ends_later _ (fun n => convert n o order b)); [|rewrite D; exact H|exact L].
  intros i j. apply convert_more.
Qed.
