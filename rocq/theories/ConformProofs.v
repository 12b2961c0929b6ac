From Coq Require Import Permutation.
From Verif Require Import Base SoValue SoValueSpec SoValueProofs PatternSpec PatternProofs SchemaSpec ValidProofs Element Extend Registry Expand
  ExpandShape ElementUtils JsonValue JsonSchema GenConv BodyProofs SchemaProofs ConformSpec.

Lemma bind_ok : forall A B (m : run A) (k : A -> run B) b, bind m k = Some (Ok b) -> exists a, m = Some (Ok a) /\ k a = Some (Ok b).
Proof. intros A B [[a|w|]|] k b H; cbn in H; try discriminate. eauto. Qed.
Ltac ob H := let a := fresh "a" in let E := fresh "E" in apply bind_ok in H as (a & E & H).

Lemma declares_iff : forall e name b, has_type_attr e name = Some b -> (b = true <-> declares e name).
Proof.
  intros e name b H. unfold has_type_attr in H. unfold declares.
  destruct (ifind (eattrs e) "typeAttributes") as [[n m a h d]|] eqn:A.
  - destruct d; try (injection H as <-; split; [discriminate|intros (? & ? & ? & ? & E & _); discriminate E]).
    destruct h; [|discriminate]. injection H as <-. rewrite existsb_exists. split.
    + intros (x & Hx & T). exists n, m, a, l. split; [reflexivity|]. destruct x as [n' m' a' h' d']. cbn in T.
      destruct h'; [|discriminate]. destruct d'; try discriminate. apply String.eqb_eq in T. subst s. now exists n', m', a'.
    + intros (? & ? & ? & l' & E & n' & m' & a' & Hin). injection E as <- <- <- <-. eexists. split; [exact Hin|]. cbn. apply String.eqb_refl.
  - injection H as <-. split; [discriminate|]. intros (? & ? & ? & ? & E & _); discriminate E.
Qed.
Lemma adds_eq : forall e name b c c', has_type_attr e name = Some b -> adds e name c c' -> c' = (c || b)%bool.
Proof.
  intros e name b c c' H [A1 A2]. apply declares_iff in H as [H1 H2]. destruct c', c, b; cbn; try reflexivity; exfalso.
  - destruct (A1 eq_refl) as [X|X]; [discriminate|]. apply H2 in X. discriminate.
  - assert (false = true) by auto. discriminate.
  - assert (false = true) by auto. discriminate.
  - assert (false = true) by auto. discriminate.
Qed.
Lemma adds_or : forall e name b c, has_type_attr e name = Some b -> adds e name c (c || b).
Proof. intros e name b c H. apply declares_iff in H. unfold adds. rewrite orb_true_iff. tauto. Qed.

Lemma sample_iff : forall e x, find_first_sample e = Some x <-> sample_of e x.
Proof.
  intros e x. unfold find_first_sample, sample_of. split.
  - intros H. destruct (ifind (eattrs e) "samples") as [[n m a h d]|]; [|discriminate]. destruct h; [|discriminate].
    destruct d; try discriminate. destruct l; [discriminate|]. injection H as ->. now exists n, m, a, l.
  - intros (n & m & a & r & ->). reflexivity.
Qed.
Definition fallback (e : element) : option element :=
  match find_first_sample e with Some x => Some x | None => find_default e end.
Lemma fallback_iff : forall e x, fallback e = Some x <-> stand_in e x.
Proof.
  intros e x. unfold fallback, stand_in. destruct (find_first_sample e) as [y|] eqn:F.
  - split.
    + intros H. injection H as <-. left. now apply sample_iff.
    + intros [H|[H _]]; [apply sample_iff in H; congruence|]. exfalso. apply H. exists y. now apply sample_iff.
  - split.
    + intros H. right. split; [|exact H]. intros (y & Hy). apply sample_iff in Hy. congruence.
    + intros [H|[_ H]]; [apply sample_iff in H; congruence|exact H].
Qed.
Lemma no_fallback : forall e, fallback e = None -> ~ exists x, stand_in e x.
Proof. intros e H (x & Hx). apply fallback_iff in Hx. congruence. Qed.
Lemma sdn_ok : forall r e o a, sample_default_null r e o = Some (Ok a) ->
  (exists x v, fallback e = Some x /\ r x o = Some (Ok v) /\ a = Some v) \/
  (fallback e = None /\ a = if o_nullable o then Some VNull else None).
Proof.
  intros r e o a H. unfold sample_default_null, fallback in *. destruct (find_first_sample e).
  - ob H. injection H as <-. left. eauto.
  - destruct (find_default e); [ob H; injection H as <-; left; eauto|]. injection H as <-. now right.
Qed.
Lemma variable_iff : forall e, is_variable e = true <-> variable e.
Proof.
  intros e. unfold is_variable, variable. destruct (ifind (eattrs e) "variable") as [[n m a h d]|].
  - split.
    + intros H. destruct d; try discriminate. destruct h, b; try discriminate. now exists n, m, a.
    + intros (? & ? & ? & E). now injection E as -> -> -> -> ->.
  - split; [discriminate|intros (? & ? & ? & E); discriminate E].
Qed.

Lemma inherits_mono : forall n e b, inherits_fixed n e = Some (Ok b) -> forall m, n <= m -> inherits_fixed m e = Some (Ok b).
Proof.
  induction n as [|n IH]; intros e b H m L; [discriminate|]. destruct m as [|m]; [lia|]. cbn [inherits_fixed] in *.
  destruct (edata e) as [|d0|ds|ds|db|l|k v|l|d0|ds|l|l|l]; try exact H.
  - destruct (is_variable e); [exact H|]. destruct (negb (ehas e)); [exact H|]. destruct v; [|exact H]. cbn in *. apply IH; [exact H|lia].
  - destruct (negb (ehas e)); [exact H|]. destruct d0; [|exact H]. cbn in *. apply IH; [exact H|lia].
  - ob H. rewrite E. cbn. apply IH; [exact H|lia].
Qed.
Lemma inherits_agree : forall n m e b c, inherits_fixed n e = Some (Ok b) -> inherits_fixed m e = Some (Ok c) -> b = c.
Proof.
  intros n m e b c H K. apply inherits_mono with (m := n + m) in H; [|lia]. apply inherits_mono with (m := n + m) in K; [|lia]. congruence.
Qed.

(** ** what is rendered for literals and primitives *)
Lemma literal_body : forall e v, literal e v -> forall n o w, render_value n e o = Some (Ok w) -> w = v.
Proof.
  induction 1 as [e s H D|e s H D|e H D|e H D|e x v H D L IH]; intros [|n] o w R; try discriminate R; cbn [render_value] in R; rewrite D in R; ob R;
    rewrite H in R; try (cbn in R; now injection R).
  cbn in R. now apply IH in R.
Qed.
Lemma prim_literal : forall e, primitive e -> ehas e = true -> exists v, instantiate (edata e) = Some v /\ literal e v.
Proof.
  intros e P H. unfold primitive in P. destruct (edata e) eqn:D; try destruct P; cbn; eexists; (split; [reflexivity|]).
  - now apply lit_string. - now apply lit_number. - destruct b; [now apply lit_true|now apply lit_false].
Qed.
Lemma prim_render : forall n e o, primitive e -> render_value (S n) e o =
  bind (v_update e o) (fun o =>
      if ehas e then lift (instantiate (edata e)) else
      bind (sample_default_null (render_value n) e o) (fun alt =>
      match alt with Some v => ret v | None => lift (instantiate_empty (edata e)) end)).
Proof. intros n e o P. unfold primitive in P. cbn [render_value]. destruct (edata e); try destruct P; reflexivity. Qed.
Lemma prim_schema : forall n e o, primitive e -> render_schema (S n) e o =
      bind (s_update e o) (fun o =>
      if (s_fixed o && ehas e)%bool then
        bind (lift (instantiate (edata e))) (fun v => ret [f_enum (if s_nullable o then [VNull; v] else [v])])
      else if s_nullable o then ret [("anyOf"%string, VArray [null_schema; VObject [f_type (type_name (edata e))]])]
      else ret [f_type (type_name (edata e))]).
Proof. intros n e o P. unfold primitive in P. cbn [render_schema]. destruct (edata e); try destruct P; reflexivity. Qed.

Lemma v_update_ok : forall e o o', v_update e o = Some (Ok o') -> exists f nl, has_type_attr e "fixed" = Some f /\
  has_type_attr e "nullable" = Some nl /\ o' = VO (o_fixed o || f) (o_nullable o || nl).
Proof.
  intros e o o' H. unfold v_update in H. ob H. ob H. injection H as <-. apply lift_ok in E. apply lift_ok in E0. eauto.
Qed.
Lemma s_update_ok : forall e o o', s_update e o = Some (Ok o') -> exists f ft nl rq, has_type_attr e "fixed" = Some f /\ has_type_attr e "fixedType" = Some ft /\
  has_type_attr e "nullable" = Some nl /\ has_type_attr e "required" = Some rq /\ o' = SO (s_fixed o || f) (s_ftype o || ft) (s_nullable o || nl) (s_required o || rq).
Proof.
  intros e o o' H. unfold s_update in H. ob H. ob H. ob H. ob H. injection H as <-. apply lift_ok in E. apply lift_ok in E0. apply lift_ok in E1. apply lift_ok in E2. eauto 12.
Qed.

(** a primitive whose stand-ins are of its own kind *)
Definition tame_primitive (e : element) : Prop := primitive e /\
  (ehas e = false -> forall x, stand_in e x -> ehas x = true /\ dsd_kind (edata x) = dsd_kind (edata e)).
Lemma kind_prim : forall x e, primitive e -> dsd_kind (edata x) = dsd_kind (edata e) -> primitive x.
Proof. intros x e P K. unfold primitive in *. destruct (edata e); try destruct P; destruct (edata x); try discriminate K; exact I. Qed.

(** the value of a primitive: a literal of its kind, null, or the empty value *)
Definition prim_val (e : element) (nl : bool) (v : value) : Prop :=
  (ehas e = true /\ literal e v) \/
  (ehas e = false /\ exists x, fallback e = Some x /\ primitive x /\ dsd_kind (edata x) = dsd_kind (edata e) /\ literal x v) \/
  (ehas e = false /\ fallback e = None /\ if nl then v = VNull else instantiate_empty (edata e) = Some v).
Lemma prim_val_ok : forall n e o v, tame_primitive e -> render_value n e o = Some (Ok v) -> 
  exists nl, has_type_attr e "nullable" = Some nl /\ prim_val e (o_nullable o || nl) v.
Proof.
  intros [|n] e o v [P T] R; [discriminate|]. rewrite (prim_render n e o P) in R. ob R. apply v_update_ok in E as (f & nl & _ & N & ->).
  exists nl. split; [exact N|]. unfold prim_val. destruct (ehas e) eqn:H.
  - left. split; [reflexivity|]. destruct (prim_literal e P H) as (w & I & L). rewrite I in R. injection R as ->. exact L.
  - right. ob R. apply sdn_ok in E as [(x & w & F & Rx & ->)|(F & ->)].
    + left. split; [reflexivity|]. injection R as ->. exists x. split; [exact F|].
      destruct (T eq_refl x (proj1 (fallback_iff _ _) F)) as [Hx Kx]. assert (Px := kind_prim x e P Kx). split; [exact Px|]. split; [exact Kx|].
      destruct (prim_literal x Px Hx) as (w & _ & L). now rewrite (literal_body x w L _ _ _ Rx).
    + right. split; [reflexivity|]. split; [exact F|]. cbn [o_nullable] in *. destruct (o_nullable o || nl)%bool; [now injection R as <-|].
      now apply lift_ok in R.
Qed.
Lemma literal_unique : forall e v, literal e v -> forall w, literal e w -> v = w.
Proof. induction 1 as [e s H D|e s H D|e H D|e H D|e x v H D L IH]; intros w W; inversion W; subst; try congruence. apply IH. congruence. Qed.
Lemma prim_val_unique : forall e nl v w, prim_val e nl v -> prim_val e nl w -> v = w.
Proof.
  intros e nl v w A B. destruct A as [[H A]|[(H & x & F & Px & K & A)|(H & F & A)]], B as [[H' B]|[(H' & x' & F' & Px' & K' & B)|(H' & F' & B)]]; try congruence.
  - now apply (literal_unique e).
  - assert (x = x') by congruence. subst. now apply (literal_unique x').
  - destruct nl; congruence.
Qed.
