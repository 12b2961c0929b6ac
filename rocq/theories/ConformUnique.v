From Coq Require Import Permutation.
From Verif Require Import Base SoValue SoValueSpec SoValueProofs PatternSpec PatternProofs SchemaSpec ValidProofs Element Extend Registry Expand
  ExpandShape Depth ElementUtils JsonValue JsonSchema GenConv BodyProofs SchemaProofs ConformSpec ConformProofs ConformObject.

Definition ukeys (fs : list field) : Prop := unique_keys (VObject fs).
Lemma ukeys_iff : forall fs, ukeys fs <-> NoDup (map fst fs) /\ Forall (fun kv => unique_keys (snd kv)) fs.
Proof. exact unique_keys_obj. Qed.
Lemma ukeys_1 : forall k v, unique_keys v -> ukeys [(k, v)].
Proof. intros k v U. apply ukeys_iff. split; [repeat constructor; intros []|repeat constructor; exact U]. Qed.
Lemma ukeys_type : forall t, ukeys [f_type t].
Proof. intros t. apply ukeys_1. exact I. Qed.
Lemma ukeys_enum : forall vs, Forall unique_keys vs -> ukeys [f_enum vs].
Proof.
  intros [|v [|w vs]] H; cbn [f_enum]; apply ukeys_1; try (apply unique_keys_arr; exact H). now inversion H.
Qed.
Lemma ukeys_null : unique_keys null_schema.
Proof. apply (ukeys_type "null"). Qed.
Lemma ukeys_wrap : forall o fs, ukeys fs -> ukeys (wrap_nullable o fs).
Proof.
  intros o fs H. unfold wrap_nullable. destruct (s_nullable o); [|exact H]. apply ukeys_1. apply unique_keys_arr.
  constructor; [exact ukeys_null|]. constructor; [exact H|constructor].
Qed.
Lemma body_unique : forall n e o v, render_value n e o = Some (Ok v) -> unique_keys v.
Proof.
  intros n e o v R. assert (K : allsub (lit_ok False (fun _ => True)) e).
  { intros x _. destruct (edata x); cbn; auto; now intros []. }
  destruct (body_good False (fun _ => True) I n e K) as (V & _ & _). exact (proj1 (V _ _ R)).
Qed.
Lemma emplace_arr_unique : forall vs v, Forall unique_keys vs -> unique_keys v -> Forall unique_keys (emplace_unique_arr vs v).
Proof.
  intros vs v H U. unfold emplace_unique_arr. destruct (existsb _ vs); [exact H|]. apply Forall_app. split; [exact H|now constructor].
Qed.
Lemma emplace_arr_all_unique : forall ws vs, Forall unique_keys vs -> Forall unique_keys ws -> Forall unique_keys (emplace_arr_all vs ws).
Proof.
  induction ws as [|w ws IH]; intros vs H W; [exact H|]. cbn. inversion W; subst. apply IH; [now apply emplace_arr_unique|assumption].
Qed.
Definition uacc (a : list value * list value) : Prop := Forall unique_keys (fst a) /\ Forall unique_keys (snd a).
Lemma add_enum_unique : forall acc fs acc', uacc acc -> ukeys fs -> add_enum_schema acc fs = Some acc' -> uacc acc'.
Proof.
  intros [enm any] fs acc' [H1 H2] U E. cbn [fst snd] in *. unfold add_enum_schema in E.
  assert (Dflt : uacc (enm, emplace_unique_arr any (VObject fs))) by (split; [exact H1|now apply emplace_arr_unique]).
  destruct fs as [|[k v] [|y r]]; try (injection E as <-; exact Dflt).
  apply ukeys_iff in U as [_ U]. apply Forall_inv in U. cbn in U.
  destruct (String.eqb k "enum").
  - destruct v; try discriminate. injection E as <-. split; [|exact H2]. apply emplace_arr_all_unique; [exact H1|now apply unique_keys_arr].
  - destruct (String.eqb k "anyOf"); [|injection E as <-; exact Dflt].
    destruct v; try discriminate. injection E as <-. split; [exact H1|]. apply emplace_arr_all_unique; [exact H2|now apply unique_keys_arr].
Qed.

(** the loop of an object over its entries *)
Lemma top_schema : forall n fx l mss, Forall2 (flat fx) l mss -> forall o (g : sopts -> sopts) s s', s_fixed o = fx -> (forall o, s_fixed (g o) = s_fixed o) ->
  foldR (fun s x => bind (s_inherit_or_pass n o x) (fun o' => render_sproperty n s x (g o'))) s l = Some (Ok s') ->
  exists T, s' = fold_left step T s /\ Forall2 (fun m t => exists b, (b = true -> fx = true) /\ srel n b m t) (concat mss) T.
Proof.
  intros n fx l mss F. induction F as [|x ms l mss Fx F IH]; intros o g s s' Ho Hg R.
  - injection R as <-. exists []. split; [reflexivity|constructor].
  - apply foldR_ok in R as (s1 & R1 & R2). ob R1. unfold s_inherit_or_pass in E. ob E. injection E as <-.
    assert (Hb : (if a0 then s_fixed o else false) = true -> fx = true) by (destruct a0; [congruence|discriminate]).
    destruct (sprop_flat n fx x ms (if a0 then s_fixed o else false) _ s s1 Fx Hb (Hg (SO (if a0 then s_fixed o else false) false false false)) R1) as (T1 & -> & S1).
    destruct (IH o g _ _ Ho Hg R2) as (T2 & -> & S2).
    exists (T1 ++ T2)%list. split; [now rewrite fold_left_app|]. cbn. apply Forall2_app; [|exact S2].
    revert S1. apply Forall2_imp. intros m t S1. eexists. split; [exact Hb|exact S1].
Qed.

(** the result of the loop *)
Definition prop_of (t : srec) : field := (t_key t, VObject (t_fs t)).
Definition req_of (t : srec) : list string := if t_req t then [t_key t] else [].
Lemma fold_plain : forall T s, Forall (fun t => t_pat t = None) T -> fold_left step T s =
  OS (os_props s ++ map prop_of T) (os_patterns s) (os_required s ++ flat_map req_of T) (os_allOf s).
Proof.
  induction T as [|t T IH]; intros s H; cbn; [now destruct s; rewrite !app_nil_r|]. inversion H as [|? ? Ht HT]; subst. rewrite IH by exact HT.
  unfold step. rewrite Ht. unfold req_of, prop_of. cbn. rewrite <- app_assoc. destruct (t_req t); [rewrite <- app_assoc|]; reflexivity.
Qed.

Lemma named_key : forall m k x s key, edata m = DMember (Some k) x -> ~ variable m -> named m s -> member_key k = Some key -> key = s.
Proof.
  intros m k x s key D V N K. inversion N as [m' k' x' s' D' H E|m' k' x' l k2 s' D' V' E1 E2 E3 E4]; subst; [|contradiction].
  assert (k' = k) by congruence. subst. unfold member_key in K. rewrite E, H in K. congruence.
Qed.

(** what the members of an object amount to *)
Inductive members_case (mss : list (list element)) (T : list srec) (names : list string) : Prop :=
| case_plain : Forall (fun t => t_pat t = None) T -> map t_key T = names -> Forall (fun m => ~ variable m) (concat mss) -> members_case mss T names
| case_variable : forall m t p, concat mss = [m] -> variable m -> T = [t] -> t_pat t = Some p -> members_case mss T names.
Lemma members_split : forall n fx mss T names, Forall2 (fun m t => exists b, (b = true -> fx = true) /\ srel n b m t) (concat mss) T ->
  Forall2 named (concat mss) names -> (forall m, In m (concat mss) -> variable m -> concat mss = [m]) -> members_case mss T names.
Proof.
  intros n fx mss T names S N V.
  assert (D : (exists m, In m (concat mss) /\ variable m) \/ Forall (fun m => ~ variable m) (concat mss)).
  { clear. induction (concat mss) as [|m l [(x & Hx & Vx)|IH]]; [right; constructor| |].
    - left. exists x. split; [now right|exact Vx].
    - destruct (is_variable m) eqn:E; [left; exists m; split; [now left|now apply variable_iff]|right; constructor; [|exact IH]].
      intros H. apply variable_iff in H. congruence. }
  destruct D as [(m & Hm & Vm)|D].
  - assert (E := V m Hm Vm). rewrite E in S, N. inversion S as [|? t ? T' (b & _ & St) S']; subst. inversion S'; subst.
    destruct St as (k & x & f & ft & nl & opt & rq & _ & _ & _ & _ & _ & _ & [(_ & k' & p & _ & _ & P)|(C & _)]).
    + now apply (case_variable _ _ _ m t p).
    + apply variable_iff in Vm. congruence.
  - apply case_plain; [| |exact D]; revert D names N; clear V; induction S as [|m t ms T' (b & _ & St) S IH]; intros D names N.
    + constructor.
    + inversion D; subst. inversion N; subst. constructor; [|now apply (IH H2 _ H5)].
      destruct St as (k & x & f & ft & nl & opt & rq & _ & _ & _ & _ & _ & _ & [(C & _)|(_ & P & _)]); [|exact P].
      exfalso. apply H1. now apply variable_iff.
    + inversion N; reflexivity.
    + inversion D; subst. inversion N; subst. cbn. f_equal; [|now apply (IH H2)].
      destruct St as (k & x & f & ft & nl & opt & rq & Dm & _ & _ & _ & _ & _ & [(C & _)|(_ & _ & K & _)]).
      * exfalso. apply H1. now apply variable_iff.
      * now apply (named_key m k (Some x)).
Qed.

Fixpoint nodupb (l : list string) : bool := match l with [] => true | x :: r => (negb (existsb (String.eqb x) r) && nodupb r)%bool end.
Lemma nodupb_ok : forall l, nodupb l = true -> NoDup l.
Proof.
  induction l as [|x l IH]; cbn; intros H; constructor; apply andb_true_iff in H as [H1 H2]; [|now apply IH].
  intros I. apply negb_true_iff in H1. assert (existsb (String.eqb x) l = true); [|congruence].
  apply existsb_exists. exists x. split; [exact I|apply String.eqb_refl].
Qed.
Lemma ukeys_object : forall s fl, NoDup (map fst (os_props s)) -> Forall (fun kv => unique_keys (snd kv)) (os_props s) ->
  NoDup (map fst (os_patterns s)) -> Forall (fun kv => unique_keys (snd kv)) (os_patterns s) -> os_allOf s = [] ->
  (fl = [] \/ fl = [("additionalProperties"%string, VFalse)]) ->
  ukeys ([f_type "object"] ++ materialize s ++ fl).
Proof.
  intros s fl N1 U1 N2 U2 A Hf. apply ukeys_iff. unfold materialize. rewrite A. split.
  - destruct Hf as [->| ->], (os_props s), (os_patterns s), (os_required s); apply nodupb_ok; reflexivity.
  - constructor; [exact I|]. rewrite !Forall_app. split; [split; [|split; [|split]]|].
    + destruct (os_props s); constructor; [|constructor]. apply unique_keys_obj. auto.
    + destruct (os_patterns s); constructor; [|constructor]. apply unique_keys_obj. auto.
    + constructor.
    + destruct (os_required s); constructor; [|constructor]. apply unique_keys_arr. apply Forall_map. apply Forall_forall. intros; exact I.
    + destruct Hf as [->| ->]; repeat constructor.
Qed.

Lemma conform_null_data : forall fx ft nl e, conform fx ft nl e -> match edata e with DMember _ _ | DOption _ | DSelect _ => False | _ => True end.
Proof. intros fx ft nl e C. destruct C as [e D|e P H|e d D H|e t D H|e l D H|e v l n m a fx' nl' D|e l fx' ft' D|e l fx' ft' D]; rewrite ?D; try exact I.
  unfold primitive in P. destruct (edata e); try destruct P; exact I. Qed.

Lemma siop_ok : forall n o x o', s_inherit_or_pass n o x = Some (Ok o') -> exists b, inherits_fixed n x = Some (Ok b) /\ o' = SO (if b then s_fixed o else false) false false false.
Proof. intros n o x o' H. unfold s_inherit_or_pass in H. ob H. injection H as <-. eauto. Qed.

Theorem schema_unique : forall n e fx ft nl rq, conform fx ft nl e ->
  forall fs, render_schema n e (SO fx ft nl rq) = Some (Ok fs) -> ukeys fs.
Proof.
  induction n as [n IH] using lt_wf_ind. intros e fx ft nl rq C fs R. destruct n as [|n]; [discriminate|].
  assert (IHn : forall e fx ft nl rq, conform fx ft nl e -> forall fs, render_schema n e (SO fx ft nl rq) = Some (Ok fs) -> ukeys fs)
    by (intros until 1; eapply IH; [|eassumption]; lia).
  destruct C as [e D|e P H|e d D H|e t D H|e l D H|e v l n0 m0 a0 fx' nl' D Af An Ae Hl Hv Hs Hf|e l fx' ft' D Af At Hs Hl|e l fx' ft' D Af At Hs Hl].
  - cbn [render_schema] in R. rewrite D in R. injection R as <-. apply ukeys_type.
  - rewrite (prim_schema n e _ P) in R. ob R. destruct (s_fixed a && ehas e)%bool.
    + ob R. injection R as <-. apply ukeys_enum. apply lift_ok in E0.
      assert (U : unique_keys a0). { unfold primitive in P. destruct (edata e); try destruct P; cbn in E0; injection E0 as <-; try exact I. destruct b; exact I. }
      destruct (s_nullable a); repeat constructor; exact U.
    + destruct (s_nullable a); injection R as <-; [|apply ukeys_type]. apply ukeys_1. apply unique_keys_arr. constructor; [exact ukeys_null|]. constructor; [apply ukeys_type|constructor].
  - cbn [render_schema] in R. rewrite D in R. assert (Z : ukeys []) by (apply ukeys_iff; split; constructor).
    destruct (ehas e), d; try (injection R as <-; exact Z). apply (IHn e0 fx ft nl rq); [now apply H|exact R].
  - cbn [render_schema] in R. rewrite D in R. ob R. apply lift_ok in E. apply (IHn a fx ft nl rq); [now apply H|exact R].
  - cbn [render_schema] in R. rewrite D in R. ob R. apply merged_list in E as (l' & _ & D' & M).
    apply (IHn a fx ft nl rq); [apply H; congruence|exact R].
  - cbn [render_schema] in R. rewrite D in R. ob R. apply s_update_ok in E as (f & ft0 & nl0 & rq0 & F1 & F2 & F3 & F4 & ->). cbn [s_fixed s_ftype s_nullable s_required] in R.
    rewrite <- (adds_eq _ _ _ _ _ F1 Af), <- (adds_eq _ _ _ _ _ F3 An) in R. rewrite Ae in R. cbv zeta in R. ob R.
    assert (G : forall l acc acc', (forall y, In y l -> conform fx' false false y) -> uacc acc -> foldR (fun (acc : list value * list value) x =>
                  bind (size_of n x false) (fun c => if (c =? 1)%N then bind (generate_value n x) (fun v => ret (emplace_unique_arr (fst acc) v, snd acc))
                  else bind (render_schema n x (s_inherit (SO fx' (ft || ft0) nl' (rq || rq0)))) (fun fs => lift (add_enum_schema acc fs)))) acc l = Some (Ok acc') -> uacc acc').
    { clear -IHn. induction l as [|y l IHl]; intros acc acc' Hl U R; [now injection R as <-|]. apply foldR_ok in R as (acc1 & R1 & R2).
      apply (IHl acc1 acc'); [intros z Hz; apply Hl; now right| |exact R2]. ob R1. destruct (a =? 1)%N; ob R1.
      - injection R1 as <-. destruct U as [U1 U2]. split; [|exact U2]. apply emplace_arr_unique; [exact U1|]. now apply body_unique in E0.
      - apply lift_ok in R1. apply (add_enum_unique _ _ _ U) in R1; [exact R1|]. apply (IHn y fx' false false false); [apply Hl; now left|exact E0]. }
    apply G in E; [|exact Hl|split; cbn; [destruct nl'; repeat constructor|constructor]].
    destruct a as [enm any], E as [U1 U2]. cbn [fst snd] in *. destruct any as [|z any].
    + injection R as <-. now apply ukeys_enum.
    + injection R as <-. apply ukeys_1. apply unique_keys_arr. destruct enm; [exact U2|]. apply emplace_arr_unique; [exact U2|]. now apply ukeys_enum.
  - cbn [render_schema] in R. rewrite D in R. ob R. apply s_update_ok in E as (f & ft0 & nl0 & rq0 & F1 & F2 & F3 & F4 & ->). cbn [s_fixed s_ftype s_nullable s_required] in R.
    rewrite <- (adds_eq _ _ _ _ _ F1 Af), <- (adds_eq _ _ _ _ _ F2 At) in R. cbv zeta in R.
    assert (Mk : forall x, ehas e = true -> (fx' = true \/ ft' = true) -> In x l -> forall fs, bind (s_inherit_or_pass n (SO fx' ft' (nl || nl0) (rq || rq0)) x) (render_schema n x) = Some (Ok fs) -> ukeys fs).
    { intros x He Hc Hx fs' R'. ob R'. apply siop_ok in E as (b & _ & ->). destruct (Hl He Hc x Hx) as (_ & _ & C).
      refine (IHn x (if b then fx' else false) false false false (C _ _) fs' R'). destruct b; [auto|discriminate]. }
    destruct ft'.
    + ob R. injection R as <-. apply ukeys_wrap. apply ukeys_iff. destruct (ehas e) eqn:He; cbn [negb] in E.
      * assert (Dflt : forall acc acc' r, Forall unique_keys acc -> (forall x, In x r -> In x l) ->
           foldR (fun acc x => bind (bind (s_inherit_or_pass n (SO fx' true (nl || nl0) (rq || rq0)) x) (render_schema n x)) (fun fs => ret (emplace_unique_arr acc (VObject fs)))) acc r = Some (Ok acc') -> Forall unique_keys acc').
        { intros acc acc' r. revert acc. induction r as [|x r IHr]; intros acc U Sub Rr; [now injection Rr as <-|]. apply foldR_ok in Rr as (acc1 & R1 & R2).
          apply (IHr acc1); [|intros y Hy; apply Sub; now right|exact R2]. ob R1. injection R1 as <-. apply emplace_arr_unique; [exact U|].
          apply (Mk x eq_refl (or_intror eq_refl)) in E0; [exact E0|apply Sub; now left]. }
        assert (Two : forall u, unique_keys u -> NoDup (map fst [f_type "array"; ("items"%string, u)]) /\ Forall (fun kv => unique_keys (snd kv)) [f_type "array"; ("items"%string, u)]).
        { intros u U. split; [apply nodupb_ok; reflexivity|]. constructor; [exact I|]. constructor; [exact U|constructor]. }
        destruct l as [|x [|y l]].
        -- ob E. injection E as <-. apply Two. apply Dflt in E0; [|constructor|auto]. apply ukeys_1. now apply unique_keys_arr.
        -- ob E. injection E as <-. apply Two. apply (Mk x eq_refl (or_intror eq_refl)) in E0; [exact E0|now left].
        -- ob E. injection E as <-. apply Two. apply Dflt in E0; [|constructor|auto]. apply ukeys_1. now apply unique_keys_arr.
      * injection E as <-. split; [apply nodupb_ok; reflexivity|repeat constructor].
    + destruct fx'.
      * ob R. injection R as <-. apply ukeys_wrap. apply ukeys_iff. split; [apply nodupb_ok; reflexivity|].
        assert (U : Forall unique_keys a).
        { destruct (ehas e) eqn:He; [|injection E as <-; constructor]. clear -Mk E. revert a E.
          assert (G : forall r a, (forall x, In x r -> In x l) -> mapR (fun x => bind (bind (s_inherit_or_pass n (SO true false (nl || nl0) (rq || rq0)) x) (render_schema n x)) (fun fs => ret (VObject fs))) r = Some (Ok a) -> Forall unique_keys a).
          { induction r as [|x r IHr]; intros a Sub E; cbn [mapR] in E; [injection E as <-; constructor|]. ob E. ob E0. injection E0 as <-. ob E. injection E as <-.
            constructor; [|apply IHr in E0; [exact E0|intros y Hy; apply Sub; now right]].
            apply (Mk x eq_refl (or_introl eq_refl)) in E1; [exact E1|apply Sub; now left]. }
          intros a. apply G. auto. }
        repeat constructor. now apply unique_keys_arr.
      * injection R as <-. apply ukeys_wrap, ukeys_type.
  - cbn [render_schema] in R. rewrite D in R. ob R. apply s_update_ok in E as (f & ft0 & nl0 & rq0 & F1 & F2 & F3 & F4 & ->). cbn [s_fixed s_ftype s_nullable s_required] in R.
    rewrite <- (adds_eq _ _ _ _ _ F1 Af), <- (adds_eq _ _ _ _ _ F2 At) in R. cbv zeta in R. ob R. injection R as <-. apply ukeys_wrap.
    assert (Fl : (if (ft' || fx')%bool then [("additionalProperties"%string, VFalse)] else []) = [] \/ (if (ft' || fx')%bool then [("additionalProperties"%string, VFalse)] else []) = [("additionalProperties"%string, VFalse)]) by (destruct (ft' || fx')%bool; auto).
    destruct (ehas e) eqn:He.
    + destruct (Hl eq_refl) as (mss & names & Fm & Nm & Nd & Hvar & _ & Hc).
      set (g := fun o' : sopts => if (ft' || fx')%bool then s_require o' else o').
      assert (Hg : forall o', s_fixed (g o') = s_fixed o') by (intros o'; unfold g; destruct (ft' || fx')%bool; reflexivity).
      destruct (top_schema n fx' l mss Fm (SO fx' ft' (nl || nl0) (rq || rq0)) g os_empty a eq_refl Hg E) as (T & -> & S).
      assert (UT : Forall (fun t => ukeys (t_fs t)) T).
      { clear -S Hc IH. assert (G : forall ms T', Forall2 (fun m t => exists b, (b = true -> fx' = true) /\ srel n b m t) ms T' -> (forall m, In m ms -> In m (concat mss)) -> Forall (fun t => ukeys (t_fs t)) T').
        { intros ms T' F. induction F as [|m t ms T1 (b & Hb & k & x & fm & ftm & nlm & opt & rqm & Dm & A1 & A2 & A3 & A4 & (n' & Hn & Rx) & _) F IHF]; intros Sub; [constructor|]. constructor; [|apply IHF; intros; apply Sub; now right].
          apply (IH n' ltac:(lia) x (b || fm)%bool ftm nlm rqm); [|exact Rx]. apply (Hc m (Some k) x b); [apply Sub; now left|exact Dm|exact Hb|now apply adds_or|now apply (adds_or m _ _ false)|now apply (adds_or m _ _ false)]. }
        apply (G _ _ S). auto. }
      destruct (members_split _ _ _ _ _ S Nm Hvar) as [Pl Kn _|m t p Em Vm -> Hp].
      * rewrite fold_plain by exact Pl. apply ukeys_object; cbn; auto; try apply NoDup_nil.
        -- assert (Em : map fst (map prop_of T) = map t_key T) by (rewrite map_map; apply map_ext; reflexivity). rewrite Em, Kn. exact Nd.
        -- apply Forall_map. exact UT.
      * cbn. unfold step. rewrite Hp. inversion UT as [|? ? U0 _]. apply ukeys_object; cbn; auto; try apply NoDup_nil.
        repeat constructor. intros [].
    + injection E as <-. apply ukeys_object; cbn; auto; apply NoDup_nil.
Qed.
