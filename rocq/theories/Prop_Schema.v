(** Property C29: a generated body satisfies the generated schema *)
From Verif Require Import Base SoValue SoValueSpec SoValueProofs PatternSpec SchemaSpec ValidProofs Element ElementSpec MergeSpec Extend Registry Expand
  ElementUtils ExpandShape BodyProofs JsonValue JsonSchema GenSpec Prop_Gen ConformSpec ConformProofs ConformObject ConformUnique ConformValid SchemaProofs.

Definition unversioned (fs : list field) : Prop := ~ In "$schema"%string (map fst fs).
Lemma un_wrap : forall o fs, unversioned fs -> unversioned (wrap_nullable o fs).
Proof. intros o fs H. unfold wrap_nullable. destruct (s_nullable o); [unfold unversioned; cbn; intros [E|[]]; discriminate|exact H]. Qed.
Lemma un_enum : forall vs, unversioned [f_enum vs].
Proof. intros vs. unfold f_enum. destruct vs as [|x [|y r]]; unfold unversioned; cbn; intros [E|[]]; discriminate. Qed.
Lemma un_1 : forall k v, k <> "$schema"%string -> unversioned [(k, v)].
Proof. intros k v N. cbn. intros [E|[]]. auto. Qed.
Lemma schema_unversioned : forall n e o, yields (render_schema n e o) unversioned.
Proof.
  induction n as [|n IH]; intros e o; [exact (yields_none _ _)|]. cbn [render_schema].
  destruct (edata e) as [|d0|ds|ds|db|l|k v|l|d0|ds|l|l|l] eqn:E; try (apply yields_ret; apply un_1; discriminate); try exact (yields_undefined _ _);
    try (eapply yields_bind; [apply yields_any|]; intros o1 _; destruct (s_fixed o1 && ehas e)%bool;
         [eapply yields_bind; [apply yields_any|]; intros v _; apply yields_ret; apply un_enum|];
         destruct (s_nullable o1); apply yields_ret; apply un_1; discriminate).
  - destruct (ehas e), d0; try (apply yields_ret; intros []). apply IH.
  - eapply yields_bind; [apply yields_any|]. intros o1 _. cbn zeta.
    destruct (s_ftype o1); [|destruct (s_fixed o1)].
    + eapply yields_bind with (P := unversioned).
      * destruct (negb (ehas e)); [apply yields_ret, un_1; discriminate|].
        destruct l as [|x [|y l]]; (eapply yields_bind; [apply yields_any|]; intros fs _; apply yields_ret; unfold unversioned; cbn; intuition discriminate).
      * intros fs H. apply yields_ret, un_wrap. unfold unversioned. cbn. intros [K|K]; [discriminate|contradiction].
    + eapply yields_bind; [apply yields_any|]. intros items _. apply yields_ret, un_wrap. unfold unversioned. cbn. intuition discriminate.
    + apply yields_ret, un_wrap. unfold unversioned. cbn. intuition discriminate.
  - eapply yields_bind; [apply yields_any|]. intros o1 _. cbn zeta. eapply yields_bind; [apply yields_any|]. intros s _.
    apply yields_ret, un_wrap. unfold unversioned. rewrite !map_app, !in_app_iff. intros [H|[H|H]].
    + cbn in H. intuition discriminate.
    + apply materialize_keys in H. cbn in H. intuition discriminate.
    + destruct (s_ftype o1 || s_fixed o1)%bool; cbn in H; intuition discriminate.
  - eapply yields_bind; [apply yields_any|]. intros o1 _. cbn zeta. eapply yields_bind; [apply yields_any|]. intros [enm anyOf] _.
    destruct anyOf; apply yields_ret; [apply un_enum|apply un_1; discriminate].
  - eapply yields_bind; [apply yields_any|]. intros x _. apply IH.
  - eapply yields_bind; [apply yields_any|]. intros x _. apply IH.
Qed.

Lemma valid_version : forall fs v, valid (VObject fs) v -> valid (VObject (f_schema_version :: fs)) v.
Proof.
  intros fs v H. apply valid_obj. apply valid_obj in H. constructor; [exact I|].
  apply Forall_forall. rewrite Forall_forall in H. intros [k x] Hk. specialize (H _ Hk). unfold kw in *.
  destruct (String.eqb k "type"); [exact H|]. destruct (String.eqb k "const"); [exact H|]. destruct (String.eqb k "enum"); [exact H|].
  destruct (String.eqb k "minItems"); [exact H|]. destruct (String.eqb k "maxItems"); [exact H|]. destruct (String.eqb k "items"); [exact H|].
  destruct (String.eqb k "additionalItems").
  { destruct v; auto. intros ss [Hs|Hs]; [discriminate Hs|]. now apply H. }
  destruct (String.eqb k "properties"); [exact H|]. destruct (String.eqb k "patternProperties"); [exact H|].
  destruct (String.eqb k "additionalProperties").
  { destruct v; auto. apply allP_in. intros m Hm [A1 A2]. rewrite allP_iff, Forall_forall in H. apply (H m Hm). split.
    - intros ps Hp. apply A1. now right.
    - intros ps p Hp. apply A2. now right. }
  exact H.
Qed.

Theorem C29_body_satisfies_schema : forall e v fs, conform false false false e -> body e v -> schema e fs ->
  valid (VObject fs) v /\ unique_keys (VObject fs).
Proof.
  intros e v fs C [f1 B] [f2 S]. specialize (B f1 (le_n f1)). specialize (S f2 (le_n f2)). unfold generate_schema in S.
  destruct (render_schema f2 e (SO false false false false)) as [[x| |]|] eqn:R; cbn in S; try discriminate.
  assert (A := schema_alone f2 e (SO false false false false) x R). rewrite (reduce_alone x A) in S. cbn in S. injection S as <-.
  assert (V := conform_valid f1 e false false false C f2 false v x B R).
  assert (U := schema_unique f2 e false false false false C x R).
  split; [now apply valid_version|]. apply ukeys_iff in U as [U1 U2]. apply ukeys_iff. split; [|constructor; [exact I|exact U2]].
  cbn [map fst]. constructor; [|exact U1]. exact (schema_unversioned f2 e _ x R).
Qed.
Print Assumptions C29_body_satisfies_schema.

(** ** A data structure of that kind *)
Definition enum_of (v : element) (l : list element) : element :=
  set_attrs (lit (DEnum (Some v))) [("enumerations"%string, lit (DArray l))].
Definition any_name (m : element) : element := set_attrs m [("variable"%string, lit (DBoolean true))].
Definition mixed : element := lit (DObject
  [typed "required" (member "id" (num "5"));
   member "status" (enum_of (str "b") [str "a"; str "b"]);
   member "tags" (typed "fixedType" (lit (DArray [str "x"; str "y"])));
   lit (DObject [member "extra" (typed "fixed" (lit (DObject [any_name (member "k" (num "1"))])))])]).

Ltac no_attr := let n := fresh in let m := fresh in let a := fresh in let l := fresh in let H := fresh in let K := fresh in
  intros (n & m & a & l & H & K); cbn in H; try discriminate H; injection H as <- <- <- <-;
  destruct K as (? & ? & ? & K); cbn in K; repeat (destruct K as [K|K]; [discriminate K|]); destruct K.
Lemma adds_not : forall e name b, ~ declares e name -> adds e name b b.
Proof. intros e name b N. split; [now left|intros [H|H]; [exact H|contradiction]]. Qed.
Lemma adds_keeps : forall e name b b', ~ declares e name -> adds e name b b' -> b' = b.
Proof. intros e name b b' N [A1 A2]. destruct b, b'; auto. destruct (A1 eq_refl) as [H|H]; [discriminate|contradiction]. Qed.
Lemma adds_yes : forall e name b, declares e name -> adds e name b true.
Proof. intros e name b N. split; auto. Qed.
Ltac declared := eexists _, _, _, _; split; [reflexivity|]; eexists _, _, _; cbn; now left.
Lemma conform_lit : forall fx ft nl d, match d with DString _ | DNumber _ | DBoolean _ => True | _ => False end -> conform fx ft nl (lit d).
Proof. intros fx ft nl d P. apply c_primitive; [exact P|]. discriminate. Qed.

Ltac unnamed N := let D := fresh "D" in let E := fresh "E" in
  inversion N as [? ? ? ? D ? E|? ? ? ? ? ? D ? E]; cbn in D; injection D as <- <-; discriminate E.
Example C29_nonvacuous : conform false false false mixed /\
  exists v fs, body mixed v /\ schema mixed fs /\ v = (VObject [("id", VNumber "5"); ("status", VString "b"); ("tags", VArray [VString "x"; VString "y"]);
    ("extra", VObject [("k", VNumber "1")])])%string.
Proof.
  split.
  - eapply c_object; [reflexivity|apply adds_not; no_attr|apply adds_not; no_attr|discriminate|]. intros _.
    exists [[typed "required" (member "id" (num "5"))]; [member "status" (enum_of (str "b") [str "a"; str "b"])];
            [member "tags" (typed "fixedType" (lit (DArray [str "x"; str "y"])))];
            [member "extra" (typed "fixed" (lit (DObject [any_name (member "k" (num "1"))])))]], ["id"; "status"; "tags"; "extra"]%string.
    split.
    { repeat constructor; try (eapply flat_member; reflexivity).
      change [member "extra" (typed "fixed" (lit (DObject [any_name (member "k" (num "1"))])))] with (concat [[member "extra" (typed "fixed" (lit (DObject [any_name (member "k" (num "1"))])))]]).
      eapply flat_mixin; [reflexivity|reflexivity|reflexivity|no_attr|]. repeat constructor. eapply flat_member. reflexivity. }
    split; [repeat constructor; eapply named_string; reflexivity|]. split; [apply nodupb_ok; reflexivity|].
    split; [|split].
    + cbn. intros m Hm (n & m0 & a & H). repeat (destruct Hm as [<-|Hm]; [discriminate H|]). destruct Hm.
    + cbn. intros m Hm _ N. repeat (destruct Hm as [<-|Hm]; [clear -N; unnamed N|]). destruct Hm.
    + cbn. intros m k x b fxm ftm nlm Hm. destruct b; [intros _ F; discriminate (F eq_refl)|].
      destruct Hm as [<-|[<-|[<-|[<-|[]]]]]; intros D _ Af At An; injection D as <- <-.
      * now apply conform_lit.
      * eapply c_enum; [reflexivity|apply adds_not; no_attr|apply adds_not; no_attr|reflexivity| |intros _|discriminate|discriminate].
        -- intros y [<-|[<-|[]]]; now apply conform_lit.
        -- intros x [= <-]. exists (VString "b"). split; [now apply lit_string|]. exists (str "b"). split; [cbn; auto|]. split; [exact I|now apply lit_string].
      * eapply c_array; [reflexivity|apply adds_not; no_attr|apply adds_yes; declared|discriminate|].
        intros _ _ x [<-|[<-|[]]]; (split; [exact I|]; split; [intros _ _; now left|]; intros b _; now apply conform_lit).
      * eapply c_object; [reflexivity|apply adds_yes; declared|apply adds_not; no_attr|discriminate|]. intros _.
        exists [[any_name (member "k" (num "1"))]], ["k"]%string. split; [repeat constructor; eapply flat_member; reflexivity|].
        split; [repeat constructor; eapply named_string; reflexivity|]. split; [apply nodupb_ok; reflexivity|].
        split; [|split].
        -- intros m [<-|[]] _. reflexivity.
        -- intros m [<-|[]] _ N. clear -N; unnamed N.
        -- cbn. intros m k x b fx2 ft2 nl2 [<-|[]] D _ _ _ _. injection D as <- <-. now apply conform_lit.
  - eexists _, _. split; [evaluates|]. split; [evaluates|]. reflexivity.
Qed.

(** ** Why the conditions are there: bodies their schemas reject *)
Definition rejected (e : element) : Prop := exists v fs, body e v /\ schema e fs /\ ~ valid (VObject fs) v.
Lemma found_all : forall name, found "(?:)" name.
Proof. exact found_open. Qed.
Ltac rejecting := eexists _, _; split; [evaluates|]; split; [evaluates|].

(** a member with a variable name, beside another one: the pattern for any name also applies to [n] *)
Definition open_pair : element := lit (DObject [any_name (member "key" (str "x")); member "n" (num "5")]).
Theorem C29_variable_name_refuted : rejected open_pair.
Proof.
  rejecting. cbn - [found]. intros (_ & _ & _ & ((_ & H & _) & _) & _). specialize (H (found_open _)). destruct H as [H _]. discriminate H.
Qed.
Print Assumptions C29_variable_name_refuted.

(** alternatives whose members are not required: the body satisfies each of the options of oneOf *)
Definition choice : element := lit (DObject [lit (DSelect [lit (DOption [member "a" (str "x")]); lit (DOption [member "b" (str "y")])])]).
Theorem C29_one_of_refuted : rejected choice.
Proof.
  rejecting. cbn. intros (_ & _ & ((H & _) & _) & _). destruct H as [(_ & N & _)|(N & _)]; apply N.
  - repeat split; try discriminate.
  - repeat split.
Qed.
Print Assumptions C29_one_of_refuted.

(** a fixed array with an entry that has no value: the schema counts it, the body leaves it out *)
Definition no_entry : element := typed "fixed" (lit (DArray [str "x"; Elem "string" [] [] false (DString "")])).
Theorem C29_fixed_array_refuted : rejected no_entry.
Proof. rejecting. cbn. intros (_ & _ & (n & R & L) & _). unfold reads in R. cbn in R. subst n. cbn in L. lia. Qed.
Print Assumptions C29_fixed_array_refuted.

(** an enum that lists nothing: null, against a schema no value satisfies *)
Definition no_enum : element := Elem "enum" [] [] false (DEnum None).
Theorem C29_empty_enum_refuted : rejected no_enum /\ exists fs, schema no_enum fs /\ forall v, ~ valid (VObject fs) v.
Proof.
  split; [rejecting|eexists; split; [evaluates|intros v]]; cbn; intros (_ & (y & [] & _) & _).
Qed.
Print Assumptions C29_empty_enum_refuted.

(** a required member whose name is empty is left out of the body *)
Definition no_name : element := lit (DObject [typed "required" (member "" (str "x"))]).
Theorem C29_empty_name_refuted : rejected no_name.
Proof. rejecting. cbn. intros (_ & _ & _ & H & _). destruct (H (VString "") (or_introl eq_refl)) as (s & _ & []). Qed.
Print Assumptions C29_empty_name_refuted.

(** a name given twice: the last value, against both schemas *)
Definition name_twice : element := lit (DObject [member "a" (str "x"); member "a" (num "1")]).
Theorem C29_name_twice_refuted : rejected name_twice.
Proof. rejecting. cbn. intros (_ & _ & ((H & _) & _) & _). specialize (H eq_refl). destruct H as [H _]. discriminate H. Qed.
Print Assumptions C29_name_twice_refuted.

(** a value of a fixed enum that is not listed; a sample of another type *)
Definition unlisted : element := enum_of (str "c") [typed "fixed" (str "a"); typed "fixed" (str "b")].
Definition bad_sample : element := Elem "string" [] [("samples"%string, lit (DArray [num "5"]))] false (DString "").
Theorem C29_bad_values_refuted : rejected unlisted /\ rejected bad_sample.
Proof.
  split; rejecting; cbn.
  - intros (_ & (y & [<-|[<-|[]]] & S) & _); inversion S.
  - intros (_ & H & _). discriminate H.
Qed.
Print Assumptions C29_bad_values_refuted.
