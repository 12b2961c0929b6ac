(** C71: what the conversion of decent documents comes to *)
From Coq Require Import Permutation.
From Verif Require Import Base SoValue JsonIo SourceMap Capi Element ElementSpec Extend Registry Expand ExpandSpec ExpandProofs ExpandShape ExpandClosed JsonValue JsonSchema GenSpec FuelMono Peg MediaType TypeTables Mson MsonSpec MsonProofs MsonSane MsonTotal MsonMono
  Blueprint Register RegisterSpec RegisterProofs Prop_Expand Prop_Gen Prop_Media Prop_Mson Prop_Register Api ApiSpec ApiProofs ApiTotal ReadySpec ReadyProofs ReadyGen ExpandFit MsonTame FitProofs CrashSpec.
Local Open Scope list_scope.

Definition allowed {A} (m : X A) (P : A -> Prop) : Prop := match snd m with Done a => P a | Raises s => circular s | Runs => True | _ => False end.
Lemma allowed_ret : forall A (a : A) (P : A -> Prop), P a -> allowed (xret a) P. Proof. auto. Qed.
Lemma allowed_bind : forall A B (m : X A) (f : A -> X B) P Q, allowed m P -> (forall a, P a -> allowed (f a) Q) -> allowed (xbind m f) Q.
Proof. intros A B [w [a|e|s|s| |]] f P Q H K; cbn in *; auto. apply K in H. unfold allowed in *. destruct (f a) as [w' o]. exact H. Qed.
Lemma allowed_map : forall A B (f : A -> X B) l, (forall x, In x l -> allowed (f x) (fun _ => True)) -> allowed (xmap f l) (fun _ => True).
Proof.
  intros A B f l. induction l as [|x l IH]; intros H; [exact I|]. cbn [xmap]. eapply allowed_bind; [apply H; now left|]. intros y _. eapply allowed_bind; [apply IH; intros z Hz; apply H; now right|]. now intros ys _.
Qed.
Lemma allowed_true : forall A (m : X A) P, allowed m P -> allowed m (fun _ => True).
Proof. intros A [w [a|e|s|s| |]] P H; cbn in *; auto. Qed.
Lemma allowed_run : forall A (m : run A), safe m (fun _ => True) -> allowed (of_run m) (fun _ => True).
Proof. intros A [[a| |]|] H; cbn in *; auto; contradiction. Qed.

Section Crash.
  Context (f : nat) (o : option parse_options) (ds : list structure) (r : registry) (W : well_declared ds) (R : none_reserved ds) (A : maps_apart ds) (H : holds_types f ds r) (K : knows f ds r)
    (D : forall s, In s ds -> decent_in ds s).
  Definition good (s : structure) : Prop := fine_in ds s /\ decent_in ds s.
  Lemma ends_here : ancestors_end f r.
  Proof. intros n. destruct (K n) as (x & -> & _). discriminate. Qed.
  Lemma mson_allowed : forall s, good s -> allowed (mson f r s) (fun d => (structure_empty s = true -> d = None) /\ (structure_empty s = false -> d <> None) /\ forall e, d = Some e -> fit r e /\ sane e).
  Proof.
    intros s [F De]. destruct (structure_ok f r ends_here s (F f r K)) as (d & w & E). unfold mson. rewrite E. cbn. split; [|split].
    - intros Em. unfold structure_to_refract in E. rewrite Em in E. now injection E as <- _.
    - intros Em ->. unfold structure_to_refract in E. rewrite Em in E. cbv zeta in E. minv E. minv E. minv E. discriminate.
    - intros e ->. split; [now apply (structure_fit f ds r W R A H K s e w)|now apply (structure_sane f r s e w)].
  Qed.
  Lemma mson_if_allowed : forall s, good s -> allowed (mson_if f r s) (fun d => forall e, d = Some e -> fit r e /\ sane e).
  Proof.
    intros s G. unfold mson_if. destruct (structure_empty s) eqn:E; [apply allowed_ret; discriminate|]. assert (M := mson_allowed s G). unfold allowed in *. destruct (snd (mson f r s)); auto. apply M.
  Qed.
  Lemma shaped : well_shaped_registry r.
  Proof.
    intros n p En. destruct (held_entry f ds r H R n p En) as [B|[[_ ->]|(s' & v & _ & _ & C')]]; [now apply (base_shaped n)|apply nameless_shaped|].
    apply sane_shaped. now apply (structure_sane f r s' p v).
  Qed.
  Lemma expand_allowed : forall e, fit r e -> sane e -> allowed (expand_refract f r e) ready.
  Proof.
    intros e F S. unfold expand_refract. assert (Y := expand_fit r (registry_fit f ds r W R A H K D) f [] e F). assert (N := C23_defined r shaped f e (sane_shaped e S)).
    destruct (expand f r [] e) as [[x|m|]|] eqn:E; cbn; auto; [|now apply (C23_only_mixin_errors r f [] e)]. destruct (Y x eq_refl) as [Y1 _]; exact Y1.
  Qed.
  Lemma data_allowed : forall s, good s -> allowed (data_structure f r s) (fun d => structure_empty s = false -> d <> None).
  Proof. intros s G. unfold data_structure. eapply allowed_bind; [now apply mson_allowed|]. intros d (_ & N & _). apply allowed_ret. intros Em. destruct d; [discriminate|now specialize (N Em)]. Qed.
  Lemma body_allowed : forall p m e, (forall x, e = Some x -> ready x) -> allowed (body_asset f o p m e) (fun _ => True).
  Proof.
    intros p m e G. unfold body_asset. destruct (negb (blank (py_body p))); [exact I|]. destruct e as [e|]; [|exact I]. destruct (_ && _)%bool; [|exact I].
    eapply allowed_bind; [|now intros v _]. apply allowed_run. apply (render_safe f). now apply G.
  Qed.
  Lemma schema_allowed : forall p m e, (forall x, e = Some x -> ready x) -> allowed (schema_asset f o p m e) (fun _ => True).
  Proof.
    intros p m e G. unfold schema_asset. destruct (negb (blank (py_schema p))); [exact I|]. destruct e as [e|]; [|exact I]. destruct (_ && _)%bool; [|exact I].
    eapply allowed_bind; [|now intros v _]. apply allowed_run. apply (generate_schema_safe f). now apply G.
  Qed.
  Lemma payload_allowed : forall p a, (forall y, p = Some y -> good (py_attributes y)) -> (forall x, a = Some x -> good (ac_attributes x)) -> allowed (payload_to_refract f r o p a) (fun _ => True).
  Proof.
    intros [y|] a Gp Ga; [|exact I]. unfold payload_to_refract. eapply allowed_bind; [apply mson_if_allowed; now apply Gp|]. intros own Fo.
    destruct (C36_total (content_type (py_headers y))) as (m & -> & _).
    eapply allowed_bind with (P := fun d => forall e, d = Some e -> fit r e /\ sane e).
    { destruct own as [d|]; [apply allowed_ret; exact Fo|]. destruct a as [a|]; [apply mson_if_allowed; now apply Ga|apply allowed_ret; discriminate]. }
    intros sh Fs. eapply allowed_bind with (P := fun d => forall e, d = Some e -> ready e).
    { destruct sh as [e|]; [|apply allowed_ret; discriminate]. destruct (Fs e eq_refl) as [F1 F2]. eapply allowed_bind; [now apply expand_allowed|]. intros x Rx. apply allowed_ret. intros e' E. now injection E as <-. }
    intros x Rx. eapply allowed_bind; [now apply body_allowed|]. intros b _. eapply allowed_bind; [now apply schema_allowed|]. now intros s _.
  Qed.
  Lemma exchanges_in : forall x q s, In (q, s) (exchanges x) -> (forall y, q = Some y -> In y (ex_requests x)) /\ (forall y, s = Some y -> In y (ex_responses x)).
  Proof.
    intros x q s E. unfold exchanges in E. apply in_app_or in E as [E|E].
    - destruct (ex_requests x); [|destruct E]. apply in_map_iff in E as (y & Ey & Hy). injection Ey as <- <-. split; [discriminate|]. intros z Z. now injection Z as <-.
    - apply in_flat_map in E as (y & Hy & E). apply in_app_or in E as [E|E].
      + destruct (ex_responses x); [|destruct E]. destruct E as [E|[]]. injection E as <- <-. split; [|discriminate]. intros z Z. now injection Z as <-.
      + apply in_map_iff in E as (z & Ez & Hz). injection Ez as <- <-. split; intros u U; now injection U as <-.
  Qed.
  Lemma action_allowed : forall a, (forall s, action_structure a s -> good s) -> allowed (action_to_refract f r o a) (fun _ => True).
  Proof.
    intros a G. unfold action_to_refract. cbv zeta. eapply allowed_bind with (P := fun _ => True).
    { destruct (structure_empty (ac_attributes a)) eqn:Em; [exact I|]. eapply allowed_bind; [apply data_allowed; apply G; constructor|]. intros d N. specialize (N Em). destruct d; [exact I|now destruct N]. }
    intros e _. eapply allowed_bind; [|now intros ts _]. apply allowed_map. intros x Hx. apply allowed_map. intros [q s] Hq. apply exchanges_in in Hq as [Q1 Q2]. unfold transaction_to_refract. cbn [fst snd].
    eapply allowed_bind; [apply payload_allowed|].
    - intros y E. apply G. apply (as_request a x y); [exact Hx|now apply Q1].
    - intros y E. injection E as <-. apply G. constructor.
    - intros z _. eapply allowed_bind; [apply payload_allowed; [|discriminate]|now intros u _]. intros y E. apply G. apply (as_response a x y); [exact Hx|now apply Q2].
  Qed.
  Lemma resource_allowed : forall s, good (re_attributes s) -> (forall a t, In a (re_actions s) -> action_structure a t -> good t) -> allowed (resource_to_refract f r o s) (fun _ => True).
  Proof.
    intros s G1 G2. unfold resource_to_refract. cbv zeta. eapply allowed_bind with (P := fun _ => True).
    { destruct (structure_empty (re_attributes s)); [exact I|]. eapply allowed_true. now apply data_allowed. }
    intros d _. eapply allowed_bind; [|now intros l _]. apply allowed_map. intros a Ha. apply action_allowed. intros t Ht. now apply (G2 a).
  Qed.
  Definition inside_good (b : belement) : Prop := forall x, inside b x -> In (b_class x) [CategoryElement; CopyElement; ResourceElement; DataStructureElement] /\
    (b_class x = DataStructureElement -> good (b_structure x)) /\ (b_class x = ResourceElement -> good (re_attributes (b_resource x)) /\ forall a t, In a (re_actions (b_resource x)) -> action_structure a t -> good t).
  Lemma element_allowed : forall b, inside_good b -> allowed (element_to_refract f r o b) (fun _ => True).
  Proof.
    induction b as [b IH] using belement_ind'. intros G. destruct (G b (inside_here b)) as (C & G1 & G2). destruct b as [c n y s d l t]. cbn [b_class b_structure b_resource b_elements] in *. cbn [element_to_refract b_class b_structure b_resource b_copy].
    destruct c; try (cbn in C; intuition discriminate).
    - eapply allowed_bind; [|now intros es _]. apply allowed_map. intros x Hx. apply IH; [exact Hx|]. intros z Hz. apply G. now apply inside_below with x.
    - exact I.
    - destruct (G2 eq_refl) as [G3 G4]. eapply allowed_bind; [apply resource_allowed; [exact G3|exact G4]|now intros e _].
    - eapply allowed_true. apply data_allowed. now apply G1.
  Qed.
  Lemma blueprint_allowed : forall b, (forall top, In top (bp_elements b) -> inside_good top) -> allowed (blueprint_to_refract f r o b) (fun _ => True).
  Proof.
    intros b G. unfold blueprint_to_refract. cbv zeta. eapply allowed_bind; [|now intros e _]. apply allowed_map. intros x Hx. apply element_allowed. now apply G.
  Qed.
End Crash.
