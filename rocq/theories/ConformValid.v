From Coq Require Import Permutation DecimalString DecimalN DecimalFacts.
From Verif Require Import Base SoValue SoValueSpec SoValueProofs PatternSpec PatternProofs SchemaSpec ValidProofs Element Extend Registry Expand
  ExpandShape Depth ElementUtils JsonValue JsonSchema GenConv BodyProofs SchemaProofs ConformSpec ConformProofs ConformObject ConformUnique.

Lemma valid_type : forall t v, of_type t v -> valid (VObject [f_type t]) v.
Proof. intros t v H. apply valid_obj. repeat constructor. exact H. Qed.
Lemma valid_enum : forall vs v, (exists y, In y vs /\ same v y) -> valid (VObject [f_enum vs]) v.
Proof.
  intros vs v H. apply valid_obj. constructor; [|constructor]. destruct vs as [|w [|w' vs]]; cbn; try exact H.
  destruct H as (y & [<-|[]] & S). exact S.
Qed.
Lemma valid_anyof : forall ss v, (exists s, In s ss /\ valid s v) -> valid (VObject [("anyOf"%string, VArray ss)]) v.
Proof. intros ss v H. apply valid_obj. constructor; [|constructor]. cbn. now apply anyP_in. Qed.
Lemma valid_wrap : forall o fs v, valid (VObject fs) v -> valid (VObject (wrap_nullable o fs)) v.
Proof.
  intros o fs v H. unfold wrap_nullable. destruct (s_nullable o); [|exact H]. apply valid_anyof. exists (VObject fs). split; [right; now left|exact H].
Qed.
Lemma valid_null : valid null_schema VNull.
Proof. now apply (valid_type "null"). Qed.
Lemma valid_wrap_null : forall o fs, s_nullable o = true -> valid (VObject (wrap_nullable o fs)) VNull.
Proof. intros o fs H. unfold wrap_nullable. rewrite H. apply valid_anyof. exists null_schema. split; [now left|exact valid_null]. Qed.

(** ** primitives *)
Lemma literal_type : forall e v, primitive e -> literal e v -> of_type (type_name (edata e)) v.
Proof. intros e v P L. unfold primitive in P. destruct L; rewrite ?H0 in *; cbn; try reflexivity. destruct P. Qed.
Lemma empty_type : forall e v, instantiate_empty (edata e) = Some v -> of_type (type_name (edata e)) v.
Proof. intros e v H. destruct (edata e); cbn in H; try discriminate; injection H as <-; reflexivity. Qed.
Lemma kind_type : forall x e, primitive e -> dsd_kind (edata x) = dsd_kind (edata e) -> type_name (edata x) = type_name (edata e).
Proof. intros x e P K. unfold primitive in P. destruct (edata e); try destruct P; destruct (edata x); try discriminate K; reflexivity. Qed.

Lemma prim_valid : forall n e nl ft fx rq fs v nlb, primitive e -> has_type_attr e "nullable" = Some nlb -> prim_val e (nl || nlb) v ->
  render_schema n e (SO fx ft nl rq) = Some (Ok fs) -> valid (VObject fs) v.
Proof.
  intros [|n] e nl ft fx rq fs v nlb P Hn V R; [discriminate|]. rewrite (prim_schema n e _ P) in R. ob R.
  apply s_update_ok in E as (f & ft0 & nl0 & rq0 & F1 & F2 & F3 & F4 & ->). cbn [s_fixed s_nullable] in R.
  assert (nl0 = nlb) by congruence. subst nl0.
  assert (Ty : (ehas e = true -> (fx || f)%bool = false) -> (v = VNull /\ (nl || nlb)%bool = true) \/ of_type (type_name (edata e)) v).
  { intros _. destruct V as [[H L]|[(H & x & F & Px & K & L)|(H & F & V)]].
    - right. now apply literal_type.
    - right. rewrite <- (kind_type x e P K). now apply literal_type.
    - destruct (nl || nlb)%bool; [now left|right]. now apply empty_type. }
  destruct ((fx || f) && ehas e)%bool eqn:B.
  - apply andb_true_iff in B as [B H]. ob R. apply lift_ok in E. injection R as <-.
    destruct V as [[_ L]|[(H' & _)|(H' & _)]]; try congruence. apply valid_enum.
    destruct (prim_literal e P H) as (w & I & Lw). assert (v = a) by (rewrite (literal_unique e v L w Lw); congruence). subst a.
    exists v. split; [|apply same_refl]. destruct (nl || nlb)%bool; cbn; auto.
  - destruct Ty as [[-> N]|T].
    + intros H. rewrite H in B. now rewrite andb_true_r in B.
    + rewrite N in R. injection R as <-. apply valid_anyof. exists null_schema. split; [now left|exact valid_null].
    + destruct (nl || nlb)%bool; injection R as <-; [apply valid_anyof; eexists; split; [right; now left|]|]; now apply valid_type.
Qed.
Lemma literal_valid : forall n e o fs v, primitive e -> literal e v -> render_schema n e o = Some (Ok fs) -> valid (VObject fs) v.
Proof.
  intros n e [fx ft nl rq] fs v P L R. assert (H : exists b, has_type_attr e "nullable" = Some b).
  { destruct n; [discriminate|]. rewrite (prim_schema n e _ P) in R. ob R. apply s_update_ok in E as (f & ft0 & nl0 & rq0 & F1 & F2 & F3 & F4 & ->). eauto. }
  destruct H as [b H]. apply (prim_valid n e nl ft fx rq fs v b P H); [|exact R]. left. split; [|exact L]. inversion L; assumption.
Qed.

(** ** enums *)
Definition sat (acc : list value * list value) (v : value) : Prop :=
  (exists y, In y (fst acc) /\ same v y) \/ (exists s, In s (snd acc) /\ valid s v).
Lemma emplace_arr_keeps : forall vs w y, In y vs -> In y (emplace_unique_arr vs w).
Proof. intros vs w y H. unfold emplace_unique_arr. destruct (existsb _ vs); [exact H|]. apply in_or_app. now left. Qed.
Lemma emplace_arr_has : forall vs w, Forall unique_keys vs -> exists y, In y (emplace_unique_arr vs w) /\ same y w.
Proof.
  intros vs w U. unfold emplace_unique_arr. destruct (existsb _ vs) eqn:E.
  - apply existsb_exists in E as (y & Hy & Ey). exists y. split; [exact Hy|]. apply veq_same; [|exact Ey]. rewrite Forall_forall in U. now apply U.
  - exists w. split; [apply in_or_app; right; now left|apply same_refl].
Qed.
Lemma emplace_arr_all_keeps : forall ws vs y, In y vs -> In y (emplace_arr_all vs ws).
Proof. induction ws as [|w ws IH]; intros vs y H; [exact H|]. cbn. apply IH. now apply emplace_arr_keeps. Qed.
Lemma emplace_arr_all_has : forall ws vs w, Forall unique_keys vs -> Forall unique_keys ws -> In w ws -> exists y, In y (emplace_arr_all vs ws) /\ same y w.
Proof.
  induction ws as [|x ws IH]; intros vs w U W H; [destruct H|]. cbn. inversion W; subst. destruct H as [->|H].
  - destruct (emplace_arr_has vs w U) as (y & Hy & S). exists y. split; [now apply emplace_arr_all_keeps|exact S].
  - apply IH; [now apply emplace_arr_unique|assumption|exact H].
Qed.
Lemma add_enum_keeps : forall acc fs acc' v, add_enum_schema acc fs = Some acc' -> sat acc v -> sat acc' v.
Proof.
  intros [enm any] fs acc' v E S. unfold add_enum_schema in E.
  assert (Dflt : sat (enm, emplace_unique_arr any (VObject fs)) v).
  { destruct S as [S|(s & Hs & V)]; [now left|right]. exists s. split; [now apply emplace_arr_keeps|exact V]. }
  destruct fs as [|[k w] [|y r]]; try (injection E as <-; exact Dflt).
  destruct (String.eqb k "enum").
  - destruct w; try discriminate. injection E as <-. destruct S as [(y & Hy & S)|S]; [left|now right]. exists y. split; [now apply emplace_arr_all_keeps|exact S].
  - destruct (String.eqb k "anyOf"); [|injection E as <-; exact Dflt]. destruct w; try discriminate. injection E as <-.
    destruct S as [S|(s & Hs & V)]; [now left|right]. exists s. split; [now apply emplace_arr_all_keeps|exact V].
Qed.
Lemma add_enum_sat : forall acc fs acc' v, uacc acc -> ukeys fs -> add_enum_schema acc fs = Some acc' -> valid (VObject fs) v -> sat acc' v.
Proof.
  intros [enm any] fs acc' v [U1 U2] U E V. cbn [fst snd] in *. unfold add_enum_schema in E.
  assert (Dflt : sat (enm, emplace_unique_arr any (VObject fs)) v).
  { right. destruct (emplace_arr_has any (VObject fs) U2) as (y & Hy & S). exists y. split; [exact Hy|]. now apply (valid_same y (VObject fs)). }
  destruct fs as [|[k w] [|y r]]; try (injection E as <-; exact Dflt).
  apply ukeys_iff in U as [_ U]. apply Forall_inv in U. cbn in U. apply valid_obj in V. apply Forall_inv in V.
  destruct (String.eqb_spec k "enum") as [->|_].
  - destruct w; try discriminate. injection E as <-. cbn in V. destruct V as (y & Hy & S). left. cbn [fst].
    destruct (emplace_arr_all_has vs enm y U1) as (z & Hz & Sz); [now apply unique_keys_arr|exact Hy|].
    exists z. split; [exact Hz|]. apply (same_trans _ y); [exact S|now apply same_sym].
  - destruct (String.eqb_spec k "anyOf") as [->|_]; [|injection E as <-; exact Dflt]. destruct w; try discriminate. injection E as <-.
    cbn in V. apply anyP_in in V as (s & Hs & V). right. cbn [snd].
    destruct (emplace_arr_all_has vs any s U2) as (z & Hz & Sz); [now apply unique_keys_arr|exact Hs|].
    exists z. split; [exact Hz|]. now apply (valid_same z s).
Qed.
Definition enum_step (n : nat) (o : sopts) (acc : list value * list value) (x : element) : run (list value * list value) :=
  bind (size_of n x false) (fun c => if (c =? 1)%N then bind (generate_value n x) (fun v => ret (emplace_unique_arr (fst acc) v, snd acc))
                  else bind (render_schema n x (s_inherit o)) (fun fs => lift (add_enum_schema acc fs))).
Lemma enum_step_ok : forall n o acc x acc', uacc acc -> (forall fs, render_schema n x (s_inherit o) = Some (Ok fs) -> ukeys fs) ->
  enum_step n o acc x = Some (Ok acc') -> uacc acc' /\ (forall v, sat acc v -> sat acc' v) /\
  forall v, (forall w, generate_value n x = Some (Ok w) -> w = v) -> (forall fs, render_schema n x (s_inherit o) = Some (Ok fs) -> valid (VObject fs) v) -> sat acc' v.
Proof.
  intros n o acc x acc' U Hu R. unfold enum_step in R. ob R. destruct (a =? 1)%N; ob R.
  - injection R as <-. destruct U as [U1 U2]. split; [|split].
    + split; [|exact U2]. apply emplace_arr_unique; [exact U1|]. now apply body_unique in E0.
    + intros v [(y & Hy & S)|S]; [left|now right]. exists y. split; [now apply emplace_arr_keeps|exact S].
    + intros v Hv _. left. cbn [fst]. destruct (emplace_arr_has (fst acc) a0 U1) as (y & Hy & S). exists y. split; [exact Hy|].
      rewrite (Hv a0 E0) in S. now apply same_sym.
  - apply lift_ok in R. specialize (Hu _ E0). split; [now apply (add_enum_unique acc a0)|]. split.
    + intros v. now apply (add_enum_keeps acc a0).
    + intros v _ Hv. apply (add_enum_sat acc a0); auto.
Qed.
Lemma enum_fold : forall n o l acc acc', uacc acc -> (forall x, In x l -> forall fs, render_schema n x (s_inherit o) = Some (Ok fs) -> ukeys fs) ->
  foldR (enum_step n o) acc l = Some (Ok acc') -> uacc acc' /\ (forall v, sat acc v -> sat acc' v) /\
  forall v x, In x l -> (forall w, generate_value n x = Some (Ok w) -> w = v) -> (forall fs, render_schema n x (s_inherit o) = Some (Ok fs) -> valid (VObject fs) v) -> sat acc' v.
Proof.
  intros n o. induction l as [|y l IH]; intros acc acc' U Hu R.
  - injection R as <-. split; [exact U|]. split; [auto|]. intros v x [].
  - apply foldR_ok in R as (acc1 & R1 & R2). destruct (enum_step_ok n o acc y acc1 U (Hu y (or_introl eq_refl)) R1) as (U1 & K1 & S1).
    destruct (IH acc1 acc' U1 (fun x Hx => Hu x (or_intror Hx)) R2) as (U2 & K2 & S2).
    split; [exact U2|]. split; [auto|]. intros v x [->|Hx] A B; [apply K2, S1; assumption|now apply (S2 v x)].
Qed.

(** ** arrays and objects that are given a value render as arrays and objects *)
Lemma array_body : forall n x o v, ehas x = true -> dsd_kind (edata x) = KArray -> render_value n x o = Some (Ok v) -> exists vs, v = VArray vs.
Proof.
  intros [|n] x o v H K R; [discriminate|]. destruct (edata x) eqn:D; try discriminate K. cbn [render_value] in R. rewrite D in R. ob R. rewrite H in R. ob R. injection R as <-. eauto.
Qed.
Lemma object_body : forall n x o v, ehas x = true -> dsd_kind (edata x) = KObject -> render_value n x o = Some (Ok v) -> exists vs, v = VObject vs.
Proof.
  intros [|n] x o v H K R; [discriminate|]. destruct (edata x) eqn:D; try discriminate K. cbn [render_value] in R. rewrite D in R. ob R. rewrite H in R. ob R. injection R as <-. eauto.
Qed.

Lemma viop_ok : forall n o x o', v_inherit_or_pass n o x = Some (Ok o') -> exists b, inherits_fixed n x = Some (Ok b) /\ o' = VO (if b then o_fixed o else false) false.
Proof. intros n o x o' H. unfold v_inherit_or_pass in H. ob H. injection H as <-. eauto. Qed.
Lemma defines_iff : forall e, defines_value e = true <-> ehas e = true \/ exists x, stand_in e x.
Proof.
  intros e. unfold defines_value, find_value. destruct (ehas e); [tauto|].
  change (match (match find_first_sample e with Some x => Some x | None => find_default e end) with Some _ => true | None => false end = true <-> false = true \/ exists x, stand_in e x).
  fold (fallback e). destruct (fallback e) eqn:F.
  - split; [|reflexivity]. intros _. right. exists e0. now apply fallback_iff.
  - split; [discriminate|]. intros [H|(x & Hx)]; [discriminate|]. apply fallback_iff in Hx. congruence.
Qed.

(** one entry of an array *)
Lemma item_cases : forall n arr x fx b arr', inherits_fixed n x = Some (Ok b) ->
  match edata x with DMember _ _ | DOption _ | DSelect _ | DRef _ => False | _ => True end ->
  render_item n arr x (VO (if b then fx else false) false) = Some (Ok arr') ->
  (exists v n' b2, arr' = (arr ++ [v])%list /\ n' < n /\ render_value n' x (VO b2 false) = Some (Ok v) /\ (primitive x \/ b2 = (if b then fx else false))) \/
  (arr' = arr /\ primitive x /\ ~ (ehas x = true \/ exists y, stand_in x y)).
Proof.
  intros [|n] arr x fx b arr' Hi K R; [discriminate|]. cbn [render_item] in R.
  assert (Agree : forall o o', v_inherit_or_pass n o x = Some (Ok o') -> o' = VO (if b then o_fixed o else false) false).
  { intros o o' H. apply viop_ok in H as (c & Hc & ->). now rewrite (inherits_agree _ _ _ _ _ Hi Hc). }
  assert (Self : bind (v_inherit_or_pass n (VO (if b then fx else false) false) x) (fun o' => bind (render_value n x o') (fun v => ret (arr ++ [v])%list)) = Some (Ok arr') ->
    exists v n' b2, arr' = (arr ++ [v])%list /\ n' < S n /\ render_value n' x (VO b2 false) = Some (Ok v) /\ (primitive x \/ b2 = (if b then fx else false))).
  { intros H. ob H. apply Agree in E. subst a. ob H. injection H as <-. cbn [o_fixed] in E. eexists _, n, _. split; [reflexivity|]. split; [lia|]. split; [exact E|].
    right. now destruct b. }
  destruct (edata x) as [|d0|ds|ds|db|l|k v|l|d0|ds|l|l|l] eqn:D; try destruct K; try (left; now apply Self).
  all: assert (P : primitive x) by (unfold primitive; rewrite D; exact I).
  all: ob R; apply v_update_ok in E as (f & nl & _ & _ & ->); cbn [o_fixed] in R.
  all: destruct ((if b then fx else false) || f || defines_value x)%bool eqn:Q.
  all: try (ob R; apply viop_ok in E as (c & _ & ->); ob R; injection R as <-; left; eexists _, n, _; split; [reflexivity|]; split; [lia|]; split; [exact E|]; now left).
  all: right; injection R as <-; split; [reflexivity|]; split; [exact P|]; intros H; apply defines_iff in H; rewrite H, orb_true_r in Q; discriminate.
Qed.

Definition item (n : nat) (fx : bool) (x : element) (v : value) : Prop :=
  exists b n' b2, inherits_fixed n x = Some (Ok b) /\ n' < n /\ render_value n' x (VO b2 false) = Some (Ok v) /\
  (primitive x \/ b2 = (if b then fx else false)).
Definition item_loop (n : nat) (o : vopts) (arr : list value) (l : list element) : run (list value) :=
  foldR (fun arr x => bind (v_inherit_or_pass n o x) (fun o' => render_item n arr x o')) arr l.
Definition item_kind (x : element) : Prop := match edata x with DMember _ _ | DOption _ | DSelect _ | DRef _ => False | _ => True end.
Lemma items_all : forall n o l arr arr', (forall x, In x l -> item_kind x) -> item_loop n o arr l = Some (Ok arr') ->
  exists vs, arr' = (arr ++ vs)%list /\ (forall v, In v vs -> exists x, In x l /\ item n (o_fixed o) x v) /\
  ((forall x, In x l -> primitive x -> ehas x = true \/ exists y, stand_in x y) -> Forall2 (item n (o_fixed o)) l vs).
Proof.
  intros n o. induction l as [|x l IH]; intros arr arr' K R.
  - injection R as <-. exists []. rewrite app_nil_r. split; [reflexivity|]. split; [intros v []|constructor].
  - unfold item_loop in R. apply foldR_ok in R as (arr1 & R1 & R2). fold (item_loop n o arr1 l) in R2. ob R1. apply viop_ok in E as (b & Hb & ->).
    destruct (IH arr1 arr' (fun y Hy => K y (or_intror Hy)) R2) as (vs & -> & A & B).
    destruct (item_cases n arr x (o_fixed o) b arr1 Hb (K x (or_introl eq_refl)) R1) as [(v & n' & b2 & -> & Hn & Rv & Hp)|(-> & P & Nd)].
    + assert (Ix : item n (o_fixed o) x v) by (exists b, n', b2; auto).
      exists (v :: vs). rewrite <- app_assoc. split; [reflexivity|]. split.
      * intros w [<-|Hw]; [exists x; split; [now left|exact Ix]|]. destruct (A w Hw) as (y & Hy & Iy). exists y. split; [now right|exact Iy].
      * intros H. constructor; [exact Ix|]. apply B. intros y Hy. apply H. now right.
    + exists vs. split; [reflexivity|]. split.
      * intros w Hw. destruct (A w Hw) as (y & Hy & Iy). exists y. split; [now right|exact Iy].
      * intros H. exfalso. apply Nd. apply H; [now left|exact P].
Qed.

Lemma conform_tame : forall fx ft nl e, conform fx ft nl e -> primitive e -> tame_primitive e.
Proof.
  intros fx ft nl e C P. split; [exact P|]. unfold primitive in P.
  destruct C as [e D|e P' H|e d D H|e t D H|e l D H|e v l n m a fx' nl' D|e l fx' ft' D|e l fx' ft' D]; try (rewrite D in P; destruct P). exact H.
Qed.

Lemma reads_to_string : forall n, reads (to_string n) n.
Proof.
  intros n. unfold reads, to_string. rewrite NilZero.usu.
  - apply DecimalN.Unsigned.of_to.
  - assert (E : N.to_uint n = Decimal.unorm (N.to_uint n)) by (rewrite <- (DecimalN.Unsigned.to_of (N.to_uint n)), DecimalN.Unsigned.of_to; reflexivity).
    rewrite E. unfold Decimal.unorm. destruct (Decimal.nzhead (N.to_uint n)); discriminate.
Qed.

Lemma render_key_string : forall n k s key, ehas k = true -> edata k = DString s -> render_key n k = Some (Ok key) -> key = s.
Proof. intros [|n] k s key H D R; [discriminate|]. cbn in R. rewrite D, H in R. now injection R. Qed.
Lemma named_body : forall m k x s n key, edata m = DMember (Some k) x -> named m s -> render_key n k = Some (Ok key) -> key = s.
Proof.
  intros m k x s n key D N R. inversion N as [m' k' x' s' D' H E|m' k' x' l k2 s' D' V' E1 E2 E3 E4]; subst; assert (k' = k) by congruence; subst k'.
  - now apply (render_key_string n k).
  - destruct n as [|n]; [discriminate|]. cbn in R. rewrite E1 in R. ob R. apply merged_list in E as (l' & _ & D2 & M). assert (a = k2) by congruence. subst a.
    now apply (render_key_string n k2).
Qed.
Lemma found_self : forall k, found (escape_pattern k) k.
Proof.
  intros k. exists (map TChar (list_ascii_of_string k)), ""%string, k. split; [apply read_escape|]. split; [reflexivity|].
  apply seq_chars. exists ""%string. now rewrite app_nil_s.
Qed.
Lemma found_open : forall name, found "(?:)" name.
Proof.
  intros name. exists [TEmpty], ""%string, name. split; [reflexivity|]. split; [reflexivity|].
  apply (seq_cons _ _ _ "" _ name); [reflexivity|reflexivity|constructor].
Qed.
Lemma named_pattern : forall m k x s k' o p, edata m = DMember (Some k) x -> named m s -> pattern_key k k' ->
  render_pattern k' o = Some (Ok p) -> found p s.
Proof.
  intros m k x s k' o p D N [Pk Ks] R.
  assert (H : ehas k' = true /\ edata k' = DString s).
  { inversion N as [m' k0 x' s' D' H E|m' k0 x' l k2 s' D' V' E1 E2 E3 E4]; subst; assert (k0 = k) by congruence; subst k0.
    - destruct Pk as [->|(l & Dl & _)]; [auto|congruence].
    - destruct Pk as [->|(l' & Dl & M)]; [unfold is_kind, ekind in Ks; rewrite E1 in Ks; discriminate|]. assert (k' = k2) by congruence. now subst. }
  destruct H as [H E]. unfold render_pattern in R. ob R. destruct a; [rewrite H, E in R; injection R as <-; apply found_self|].
  injection R as <-. apply found_open.
Qed.

(** what one member contributes on both sides *)
Definition pair_ok (nm : string) (t : srec) (r : option (string * value)) : Prop :=
  (r = None \/ exists v, r = Some (nm, v) /\ valid (VObject (t_fs t)) v).
Lemma top_both : forall n1 n2 fx l mss, Forall2 (flat fx) l mss -> forall ob_ os_ (g : sopts -> sopts), o_fixed ob_ = fx -> s_fixed os_ = fx -> (forall o, s_fixed (g o) = s_fixed o) ->
  forall obj obj' s s',
  foldR (fun obj x => bind (v_inherit_or_pass n1 ob_ x) (fun o' => render_property n1 obj x o')) obj l = Some (Ok obj') ->
  foldR (fun s x => bind (s_inherit_or_pass n2 os_ x) (fun o' => render_sproperty n2 s x (g o'))) s l = Some (Ok s') ->
  exists T B, s' = fold_left step T s /\ obj' = emplace_all obj (somes B) /\
    exists bs, Forall2 (fun m b => b = true -> fx = true) (concat mss) bs /\
    Forall2 (fun mb t => srel n2 (snd mb) (fst mb) t) (combine (concat mss) bs) T /\ Forall2 (fun mb r => brel n1 (snd mb) (fst mb) r) (combine (concat mss) bs) B.
Proof.
  intros n1 n2 fx l mss F ob_ os_ g H1 H2 Hg. induction F as [|x ms l mss Fx F IH]; intros obj obj' s s' R1 R2.
  - injection R1 as <-. injection R2 as <-. exists [], []. repeat split. exists []. repeat split; constructor.
  - apply foldR_ok in R1 as (obj1 & A1 & A2). apply foldR_ok in R2 as (s1 & B1 & B2).
    ob A1. apply viop_ok in E as (b & Hb & ->). ob B1. apply siop_ok in E as (c & Hc & ->).
    assert (b = c) by now apply (inherits_agree n1 n2 x). subst c. rewrite H1 in A1. rewrite H2 in B1.
    set (bb := if b then fx else false) in *. assert (Hbb : bb = true -> fx = true) by (unfold bb; destruct b; [auto|discriminate]).
    destruct (sprop_flat n2 fx x ms bb _ s s1 Fx Hbb (Hg (SO bb false false false)) B1) as (T1 & -> & S1).
    destruct (prop_flat n1 fx x ms bb _ _ Fx Hbb A1) as (C1 & -> & S2).
    destruct (IH _ _ _ _ A2 B2) as (T2 & C2 & -> & -> & bs & Z1 & Z2 & Z3).
    exists (T1 ++ T2)%list, (C1 ++ C2)%list. split; [now rewrite fold_left_app|]. split; [now rewrite somes_app, emplace_all_app|].
    exists (repeat bb (List.length ms) ++ bs)%list. cbn [concat].
    assert (Len : List.length ms = List.length (repeat bb (List.length ms))) by now rewrite repeat_length.
    assert (Cmb : combine (ms ++ concat mss) (repeat bb (List.length ms) ++ bs) = (map (fun m => (m, bb)) ms ++ combine (concat mss) bs)%list).
    { clear. induction ms as [|m ms IHm]; [reflexivity|]. cbn. now rewrite IHm. }
    split; [|split]; [|rewrite Cmb..].
    + apply Forall2_app; [|exact Z1]. clear -Hbb. induction ms; cbn; constructor; auto.
    + apply Forall2_app; [|exact Z2]. clear -S1. induction S1; cbn; constructor; auto.
    + apply Forall2_app; [|exact Z3]. clear -S2. induction S2; cbn; constructor; auto.
Qed.

Lemma valid_object : forall s fl obj, os_allOf s = [] ->
  (forall p m, In p (os_props s) -> In m obj -> fst m = fst p -> valid (snd p) (snd m)) ->
  (forall p m, In p (os_patterns s) -> In m obj -> found (fst p) (fst m) -> valid (snd p) (snd m)) ->
  (forall n, In n (os_required s) -> In n (map fst obj)) ->
  (fl = [] \/ (fl = [("additionalProperties"%string, VFalse)] /\ forall m, In m obj ->
     In (fst m) (map fst (os_props s)) \/ exists p, In p (map fst (os_patterns s)) /\ found p (fst m))) ->
  valid (VObject ([f_type "object"] ++ materialize s ++ fl)) (VObject obj).
Proof.
  intros s fl obj A Hp Hpat Hr Hfl. apply valid_obj.
  assert (In1 : forall ps, ps = os_props s -> ps <> [] -> In ("properties"%string, VObject ps) ([f_type "object"] ++ materialize s ++ fl)).
  { intros ps -> N. apply in_or_app; right. apply in_or_app; left. unfold materialize. destruct (os_props s); [contradiction|]. now left. }
  assert (In2 : forall ps, ps = os_patterns s -> ps <> [] -> In ("patternProperties"%string, VObject ps) ([f_type "object"] ++ materialize s ++ fl)).
  { intros ps -> N. apply in_or_app; right. apply in_or_app; left. unfold materialize. apply in_or_app; right. destruct (os_patterns s); [contradiction|]. now left. }
  set (kws := ([f_type "object"] ++ materialize s ++ fl)%list) in *. unfold kws at 2. clearbody kws.
  apply Forall_app. split; [repeat constructor; reflexivity|]. apply Forall_app. split.
  - unfold materialize. rewrite A. rewrite !Forall_app. split; [|split; [|split]].
    + destruct (os_props s) as [|p ps]; [constructor|]. constructor; [|constructor]. cbn - [allP]. apply allP_in. intros q Hq. apply allP_in. intros m Hm E. now apply Hp.
    + destruct (os_patterns s) as [|p ps]; [constructor|]. constructor; [|constructor]. cbn - [allP]. apply allP_in. intros q Hq. apply allP_in. intros m Hm E. now apply Hpat.
    + constructor.
    + destruct (os_required s) as [|p ps]; [constructor|]. constructor; [|constructor]. cbn - [In map]. intros n Hn. apply in_map_iff in Hn as (x & <- & Hx). exists x. split; [reflexivity|]. now apply Hr.
  - destruct Hfl as [->|[-> Hfl]]; [constructor|]. constructor; [|constructor]. cbn - [allP]. apply allP_in. intros m Hm [A1 A2].
    destruct (Hfl m Hm) as [H|(p & H & F)].
    + apply (A1 (os_props s)); [|exact H]. apply In1; [reflexivity|]. intros Z. rewrite Z in H. destruct H.
    + apply (A2 (os_patterns s) p); [|exact H|exact F]. apply In2; [reflexivity|]. intros Z. rewrite Z in H. destruct H.
Qed.

Record zrec : Type := ZR { z_m : element; z_b : bool; z_n : string; z_t : srec; z_r : option (string * value) }.
Lemma zip_up : forall (P : bool -> Prop) (S : element * bool -> srec -> Prop) (R : element * bool -> option (string * value) -> Prop) ms bs names T B,
  Forall2 (fun _ b => P b) ms bs -> Forall2 named ms names -> Forall2 S (combine ms bs) T -> Forall2 R (combine ms bs) B ->
  exists Z, ms = map z_m Z /\ names = map z_n Z /\ T = map z_t Z /\ B = map z_r Z /\
    Forall (fun z => P (z_b z) /\ named (z_m z) (z_n z) /\ S (z_m z, z_b z) (z_t z) /\ R (z_m z, z_b z) (z_r z)) Z.
Proof.
  intros P S R ms bs names T B F. revert names T B. induction F as [|m b ms bs Pb F IH]; intros names T B N St Rt.
  - inversion N; subst. cbn in *. inversion St; subst. inversion Rt; subst. exists []. repeat split. constructor.
  - inversion N as [|? nm ? names' Nm N']; subst. cbn in *. inversion St as [|? t ? T' Sm S']; subst. inversion Rt as [|? r ? B' Rm R']; subst.
    destruct (IH _ _ _ N' S' R') as (Z & -> & -> & -> & -> & A). exists (ZR m b nm t r :: Z). repeat split. constructor; auto.
Qed.
Lemma nodup_inj : forall A B (f : A -> B) l a b, NoDup (map f l) -> In a l -> In b l -> f a = f b -> a = b.
Proof.
  intros A B f l. induction l as [|x l IH]; intros a b N Ha Hb E; [destruct Ha|]. cbn in N. inversion N as [|? ? Nx Nl]; subst.
  destruct Ha as [->|Ha], Hb as [->|Hb]; auto.
  - exfalso. apply Nx. rewrite E. now apply in_map.
  - exfalso. apply Nx. rewrite <- E. now apply in_map.
Qed.
Lemma somes_In : forall A (l : list (option A)) a, In a (somes l) <-> In (Some a) l.
Proof.
  intros A l a. induction l as [|[x|] l IH]; cbn; [tauto| |].
  - rewrite IH. split; intros [H|H]; auto; [left; congruence|left; congruence].
  - rewrite IH. split; [now right|intros [H|H]; [discriminate|exact H]].
Qed.
Lemma somes_nodup : forall Z, NoDup (map z_n Z) -> Forall (fun z => forall k v, z_r z = Some (k, v) -> k = z_n z) Z -> NoDup (map fst (somes (map z_r Z))).
Proof.
  induction Z as [|z Z IH]; intros N F; cbn; [constructor|]. inversion N as [|? ? Nz N']; subst. inversion F as [|? ? Fz F']; subst.
  destruct (z_r z) as [[k v]|] eqn:E; [|now apply IH]. cbn. constructor; [|now apply IH].
  rewrite (Fz _ _ eq_refl). intros H. apply Nz. apply in_map_iff in H as ([k' v'] & E' & H). cbn in E'. subst k'. apply somes_In in H.
  apply in_map_iff in H as (z' & Ez & Hz). rewrite Forall_forall in F'. rewrite (F' z' Hz _ _ Ez). now apply in_map.
Qed.

Theorem conform_valid : forall n1 e fx ft nl, conform fx ft nl e -> forall n2 rq v fs,
  render_value n1 e (VO fx nl) = Some (Ok v) -> render_schema n2 e (SO fx ft nl rq) = Some (Ok fs) -> valid (VObject fs) v.
Proof.
  induction n1 as [n1 IH] using lt_wf_ind. intros e fx ft nl C n2 rq v fs Rv Rs. destruct n1 as [|n1]; [discriminate|].
  destruct n2 as [|n2]; [discriminate|]. assert (C0 := C).
  destruct C as [e D|e P H|e d D H|e t D H|e l D H|e w l n0 m0 a0 fx' nl' D Af An Ae Hl Hv Hs Hf|e l fx' ft' D Af At Hs Hl|e l fx' ft' D Af At Hs Hl].
  - cbn [render_schema] in Rs. cbn [render_value] in Rv. rewrite D in Rs, Rv. injection Rs as <-. injection Rv as <-. now apply valid_type.
  - destruct (prim_val_ok _ e _ v (conj P H) Rv) as (b & Hb & V). now apply (prim_valid (S n2) e nl ft fx rq fs v b).
  - cbn [render_schema] in Rs. cbn [render_value] in Rv. rewrite D in Rs, Rv.
    destruct (ehas e), d; try (injection Rs as <-; apply valid_obj; constructor). apply (IH n1 ltac:(lia) e0 fx ft nl (H _ eq_refl) n2 rq); assumption.
  - cbn [render_schema] in Rs. cbn [render_value] in Rv. rewrite D in Rs, Rv. ob Rs. ob Rv. assert (a0 = a) by congruence. subst a0. apply lift_ok in E.
    apply (IH n1 ltac:(lia) a fx ft nl (H _ E) n2 rq); assumption.
  - cbn [render_schema] in Rs. cbn [render_value] in Rv. rewrite D in Rs, Rv. ob Rs. ob Rv. assert (a0 = a) by congruence. subst a0.
    apply merged_list in E as (l' & _ & D' & M). assert (l' = l) by congruence. subst l'.
    apply (IH n1 ltac:(lia) a fx ft nl (H _ M) n2 rq); assumption.
  - (* enum *)
    cbn [render_schema] in Rs. cbn [render_value] in Rv. rewrite D in Rs, Rv. ob Rs. apply s_update_ok in E as (f & ft0 & nl0 & rq0 & F1 & F2 & F3 & F4 & ->).
    cbn [s_fixed s_ftype s_nullable s_required] in Rs. rewrite <- (adds_eq _ _ _ _ _ F1 Af), <- (adds_eq _ _ _ _ _ F3 An) in Rs. rewrite Ae in Rs. cbv zeta in Rs. ob Rs.
    ob Rv. apply v_update_ok in E0 as (f' & nl1 & G1 & G2 & ->). cbn [o_fixed o_nullable] in Rv.
    rewrite <- (adds_eq _ _ _ _ _ G1 Af), <- (adds_eq _ _ _ _ _ G2 An) in Rv.
    change (foldR (enum_step n2 (SO fx' (ft || ft0) nl' (rq || rq0))) (if nl' then [VNull] else [], []) l = Some (Ok a)) in E.
    apply enum_fold in E.
    2: { split; cbn; [destruct nl'; repeat constructor|constructor]. }
    2: { intros x Hx fs' Hfs'. apply (schema_unique n2 x fx' false false false); [now apply Hl|exact Hfs']. }
    destruct E as (U & K & S).
    assert (Lt : forall w', listed l w' -> sat a w').
    { intros w' (y & Hy & Py & Ly). apply (S w' y Hy).
      - intros z Hz. now apply (literal_body y w' Ly) in Hz.
      - intros fs' Hfs'. exact (literal_valid n2 y _ fs' w' Py Ly Hfs'). }
    assert (Sat : sat a v).
    { destruct (ehas e) eqn:He.
      - ob Rv. apply lift_ok in E. destruct (Hv eq_refl _ E) as (w' & Lw & Li). rewrite (literal_body _ _ Lw _ _ _ Rv). now apply Lt.
      - ob Rv. apply sdn_ok in E as [(x & w' & Fx & Rx & ->)|(Fx & ->)].
        + injection Rv as ->. destruct (Hs eq_refl x (proj1 (fallback_iff _ _) Fx)) as (w' & Lw & Li). rewrite (literal_body _ _ Lw _ _ _ Rx). now apply Lt.
        + cbn [o_nullable] in Rv. destruct nl'.
          * injection Rv as <-. apply K. left. exists VNull. split; [now left|constructor].
          * destruct (Hf eq_refl eq_refl (no_fallback _ Fx)) as (x & r & -> & Px). rewrite Ae in Rv.
            assert (Cx := Hl x (or_introl eq_refl)). assert (Tx := conform_tame _ _ _ _ Cx Px).
            destruct (prim_val_ok _ x _ v Tx Rv) as (b & Hb & V). cbn [o_nullable orb] in V.
            apply (S v x (or_introl eq_refl)).
            -- intros z Hz. destruct (prim_val_ok _ x _ z Tx Hz) as (b' & Hb' & V'). cbn [o_nullable orb] in V'. assert (b' = b) by congruence. subst b'.
               now apply (prim_val_unique x b).
            -- intros fs' Hfs'. unfold s_inherit in Hfs'. cbn in Hfs'. now apply (prim_valid n2 x false false fx' false fs' v b). }
    destruct a as [enm any], U as [U1 U2]. cbn [fst snd] in *. destruct any as [|z any].
    + injection Rs as <-. apply valid_enum. destruct Sat as [Sat|(s & [] & _)]. exact Sat.
    + injection Rs as <-. apply valid_anyof. destruct Sat as [Sat|(s & Hs' & Vs)].
      * cbn [fst] in Sat. destruct enm as [|y enm]; [destruct Sat as (y & [] & _)|].
        destruct (emplace_arr_has (z :: any) (VObject [f_enum (y :: enm)]) U2) as (q & Hq & Sq). exists q. split; [exact Hq|].
        apply (valid_same q _ v Sq). now apply valid_enum.
      * cbn [snd] in Hs'. exists s. split; [|exact Vs]. destruct enm; [exact Hs'|now apply emplace_arr_keeps].
  - (* array *)
    cbn [render_schema] in Rs. cbn [render_value] in Rv. rewrite D in Rs, Rv. ob Rs. apply s_update_ok in E as (f & ft0 & nl0 & rq0 & F1 & F2 & F3 & F4 & ->).
    cbn [s_fixed s_ftype s_nullable s_required] in Rs. rewrite <- (adds_eq _ _ _ _ _ F1 Af), <- (adds_eq _ _ _ _ _ F2 At) in Rs. cbv zeta in Rs.
    ob Rv. apply v_update_ok in E as (f' & nl1 & G1 & G2 & ->). cbn [o_fixed o_nullable] in Rv.
    rewrite <- (adds_eq _ _ _ _ _ G1 Af) in Rv. assert (nl1 = nl0) by congruence. subst nl1.
    set (os := SO fx' ft' (nl || nl0) (rq || rq0)) in *.
    destruct (ehas e) eqn:He.
    + (* with entries *)
      ob Rv. injection Rv as <-. rename E into Ra. change (item_loop n1 (VO fx' (nl || nl0)) [] l = Some (Ok a)) in Ra.
      assert (Mk : (fx' = true \/ ft' = true) -> forall x w, In x l -> item n1 fx' x w -> forall fs', bind (s_inherit_or_pass n2 os x) (render_schema n2 x) = Some (Ok fs') -> valid (VObject fs') w).
      { intros Hc x w Hx (b & n' & b2 & Hb & Hn & Rw & Hp) fs' Rf. ob Rf. apply siop_ok in E as (c & Hcc & ->).
        assert (b = c) by now apply (inherits_agree n1 n2 x). subst c. change (s_fixed os) with fx' in Rf.
        destruct (Hl eq_refl Hc x Hx) as (_ & _ & Cx). assert (Cb : conform (if b then fx' else false) false false x) by (apply Cx; destruct b; [auto|discriminate]).
        destruct Hp as [P| ->].
        - destruct (prim_val_ok _ x _ w (conform_tame _ _ _ _ Cb P) Rw) as (bb & Hbb & V). now apply (prim_valid n2 x false false (if b then fx' else false) false fs' w bb).
        - exact (IH n' ltac:(lia) x _ _ _ Cb n2 false w fs' Rw Rf). }
      destruct ft'.
      * assert (Kd : forall x, In x l -> item_kind x) by (intros x Hx; apply (Hl eq_refl (or_intror eq_refl) x Hx)).
        destruct (items_all n1 _ l [] a Kd Ra) as (vs & -> & A & _). cbn [app o_fixed] in *.
        ob Rs. injection Rs as <-. apply valid_wrap. cbn [negb] in E.
        assert (Two : forall u, (forall w, In w vs -> valid u w) -> (forall ss, u <> VArray ss) -> valid (VObject [f_type "array"; ("items"%string, u)]) (VArray vs)).
        { intros u U N. apply valid_obj. constructor; [reflexivity|]. constructor; [|constructor]. cbn - [allP]. destruct u; try (exfalso; now apply (N vs0)); apply allP_in; exact U. }
        assert (Many : forall items, foldR (fun acc x => bind (bind (s_inherit_or_pass n2 os x) (render_schema n2 x)) (fun fs => ret (emplace_unique_arr acc (VObject fs)))) [] l = Some (Ok items) ->
            valid (VObject [f_type "array"; ("items"%string, VObject [("anyOf"%string, VArray items)])]) (VArray vs)).
        { intros items Ri. apply Two; [|discriminate]. intros w Hw. destruct (A w Hw) as (x & Hx & Ix). apply valid_anyof.
          assert (G : forall r acc items, (forall y, In y r -> In y l) -> Forall unique_keys acc ->
             foldR (fun acc x => bind (bind (s_inherit_or_pass n2 os x) (render_schema n2 x)) (fun fs => ret (emplace_unique_arr acc (VObject fs)))) acc r = Some (Ok items) ->
             (forall y, In y acc -> In y items) /\ (In x r -> exists s, In s items /\ valid s w)).
          { induction r as [|y r IHr]; intros acc its Sub U Rr; [injection Rr as <-; split; [auto|intros []]|]. apply foldR_ok in Rr as (acc1 & R1 & R2). ob R1. injection R1 as <-.
            assert (Uy : unique_keys (VObject a0)).
            { ob E0. apply siop_ok in E1 as (c & _ & ->). destruct (Hl eq_refl (or_intror eq_refl) y (Sub y (or_introl eq_refl))) as (_ & _ & Cy).
              refine (schema_unique n2 y (if c then fx' else false) false false false (Cy _ _) a0 E0). destruct c; [auto|discriminate]. }
            destruct (IHr _ _ (fun z Hz => Sub z (or_intror Hz)) (emplace_arr_unique _ _ U Uy) R2) as (K1 & K2). split.
            - intros z Hz. apply K1. now apply emplace_arr_keeps.
            - intros [->|Hr]; [|now apply K2]. destruct (emplace_arr_has acc (VObject a0) U) as (q & Hq & Sq). exists q. split; [now apply K1|].
              apply (valid_same q _ w Sq). now apply (Mk (or_intror eq_refl) x w Hx Ix). }
          apply (G l [] items (fun y Hy => Hy) (Forall_nil _) Ri). exact Hx. }
        destruct l as [|x [|y l]].
        -- ob E. injection E as <-. now apply Many.
        -- ob E. injection E as <-. apply Two; [|discriminate]. intros w Hw. destruct (A w Hw) as (x' & [<-|[]] & Ix). now apply (Mk (or_intror eq_refl) x w (or_introl eq_refl) Ix).
        -- ob E. injection E as <-. now apply Many.
      * destruct fx'.
        -- assert (Kd : forall x, In x l -> item_kind x) by (intros x Hx; apply (Hl eq_refl (or_introl eq_refl) x Hx)).
           destruct (items_all n1 _ l [] a Kd Ra) as (vs & -> & _ & B). cbn [app o_fixed] in *.
           assert (F2' : Forall2 (item n1 true) l vs) by (apply B; intros x Hx Px; now apply (Hl eq_refl (or_introl eq_refl) x Hx)).
           ob Rs. injection Rs as <-. apply valid_wrap.
           assert (Z : zipP valid a vs /\ List.length a = List.length vs).
           { assert (G : forall r ws items, (forall y, In y r -> In y l) -> Forall2 (item n1 true) r ws ->
               mapR (fun x => bind (bind (s_inherit_or_pass n2 os x) (render_schema n2 x)) (fun fs => ret (VObject fs))) r = Some (Ok items) -> zipP valid items ws /\ List.length items = List.length ws).
             { intros r ws items Sub F. revert items. induction F as [|x w r ws Ix F IHF]; intros items Ri; cbn [mapR] in Ri; [injection Ri as <-; split; [exact I|reflexivity]|].
               ob Ri. ob E0. injection E0 as <-. ob Ri. injection Ri as <-. destruct (IHF (fun y Hy => Sub y (or_intror Hy)) _ E0) as (Z1 & Z2). split; [|cbn; now rewrite Z2].
               cbn. split; [|exact Z1]. apply (Mk (or_introl eq_refl) x w (Sub x (or_introl eq_refl)) Ix a1 E1). }
             now apply (G l vs a (fun y Hy => Hy) F2'). }
           destruct Z as [Z Len]. apply valid_obj. constructor; [reflexivity|]. constructor; [|constructor; [exact Z|constructor; [|constructor]]].
           ++ cbn - [reads to_string N.of_nat N.modulo]. eexists. split; [apply reads_to_string|]. rewrite <- Len.
              apply N.mod_le. discriminate.
           ++ cbn - [allP skipn]. intros ss Hs'. assert (ss = a).
              { unfold has in Hs'. cbn in Hs'. destruct Hs' as [Hs'|[Hs'|[Hs'|[Hs'|Hs']]]]; [discriminate Hs'|discriminate Hs'|now injection Hs'|discriminate Hs'|destruct Hs']. }
              subst ss. rewrite Len, skipn_all. exact I.
        -- injection Rs as <-. apply valid_wrap. now apply valid_type.
    + (* without *)
      assert (Cases : (v = VNull /\ (nl || nl0)%bool = true) \/ v = VArray [] \/ ((exists vs, v = VArray vs) /\ fx' = false /\ ft' = false)).
      { ob Rv. apply sdn_ok in E as [(x & w' & Fx & Rx & ->)|(Fx & ->)].
        - right. right. injection Rv as ->. destruct (Hs eq_refl x (proj1 (fallback_iff _ _) Fx)) as (Q1 & Q2 & Q3 & Q4). split; [now apply (array_body n1 x (VO fx' (nl || nl0)))|auto].
        - cbn [o_nullable] in Rv. destruct (nl || nl0)%bool; injection Rv as <-; auto. }
      destruct Cases as [[-> N]|[->|((vs & ->) & -> & ->)]].
      * destruct ft'; [ob Rs; injection Rs as <-; now apply valid_wrap_null|]. destruct fx'; [ob Rs; injection Rs as <-; now apply valid_wrap_null|]. injection Rs as <-. now apply valid_wrap_null.
      * cbn [negb] in Rs. destruct ft'; [|destruct fx'].
        -- injection Rs as <-. apply valid_wrap. apply valid_obj. constructor; [reflexivity|]. constructor; [|constructor]. cbn - [reads]. exists 0%N. split; [reflexivity|]. cbn. lia.
        -- injection Rs as <-. apply valid_wrap. apply valid_obj. constructor; [reflexivity|]. constructor; [|constructor; [exact I|constructor; [|constructor]]].
           ++ cbn - [reads]. exists 0%N. split; [reflexivity|]. cbn. lia.
           ++ cbn - [skipn]. intros ss _. rewrite skipn_nil. exact I.
        -- injection Rs as <-. apply valid_wrap. now apply valid_type.
      * injection Rs as <-. apply valid_wrap. now apply valid_type.
  - (* object *)
    cbn [render_schema] in Rs. cbn [render_value] in Rv. rewrite D in Rs, Rv. ob Rs. apply s_update_ok in E as (f & ft0 & nl0 & rq0 & F1 & F2 & F3 & F4 & ->).
    cbn [s_fixed s_ftype s_nullable s_required] in Rs. rewrite <- (adds_eq _ _ _ _ _ F1 Af), <- (adds_eq _ _ _ _ _ F2 At) in Rs. cbv zeta in Rs.
    ob Rv. apply v_update_ok in E as (f' & nl1 & G1 & G2 & ->). cbn [o_fixed o_nullable] in Rv.
    rewrite <- (adds_eq _ _ _ _ _ G1 Af) in Rv. assert (nl1 = nl0) by congruence. subst nl1.
    ob Rs. injection Rs as <-.
    set (fl := if (ft' || fx')%bool then [("additionalProperties"%string, VFalse)] else []) in *.
    destruct (ehas e) eqn:He.
    + ob Rv. injection Rv as <-. apply valid_wrap. destruct (Hl eq_refl) as (mss & names & Fm & Nm & Nd & Hvar & Hne & Hc).
      set (g := fun o' : sopts => if (ft' || fx')%bool then s_require o' else o').
      assert (Hg : forall o', s_fixed (g o') = s_fixed o') by (intros o'; unfold g; destruct (ft' || fx')%bool; reflexivity).
      destruct (top_both n1 n2 fx' l mss Fm (VO fx' (nl || nl0)) (SO fx' ft' (nl || nl0) (rq || rq0)) g eq_refl eq_refl Hg [] a0 os_empty a E0 E) as (T & B & -> & -> & bs & Pb & Ps & Pr).
      destruct (zip_up (fun b => b = true -> fx' = true) _ _ _ _ _ _ _ Pb Nm Ps Pr) as (Z & Em & En & -> & -> & FZ). cbn [fst snd] in FZ.
      rewrite Forall_forall in FZ.
      assert (Pair : forall z, In z Z -> forall k v, z_r z = Some (k, v) -> k = z_n z /\ valid (VObject (t_fs (z_t z))) v).
      { intros z Hz k0 v0 Er. destruct (FZ z Hz) as (Hb & Nz & (k & x & fm & ftm & nlm & opt & rqm & Dm & A1 & A2 & A3 & A4 & (n' & Hn & Rx) & _) & (k2 & vx & f2 & nl2 & opt2 & Dm2 & B1 & B2 & B3 & Br)).
        destruct Br as [[Er' _]|(x2 & key & v2 & n'' & n3 & Ex & Er' & Hn2 & Nk & Rk & Rx2)]; [congruence|]. rewrite Er in Er'. injection Er' as -> ->.
        assert (k2 = k) by congruence. assert (x2 = x) by congruence. assert (f2 = fm) by congruence. assert (nl2 = nlm) by congruence. subst k2 x2 f2 nl2.
        split; [now apply (named_body (z_m z) k vx (z_n z) n3)|].
        apply (IH n'' ltac:(lia) x (z_b z || fm)%bool ftm nlm) with (n2 := n') (rq := rqm); [|exact Rx2|exact Rx].
        apply (Hc (z_m z) (Some k) x (z_b z)); [rewrite Em; now apply in_map|exact Dm|exact Hb|now apply adds_or|now apply (adds_or _ _ _ false)|now apply (adds_or _ _ _ false)]. }
      assert (NZ : NoDup (map z_n Z)) by now rewrite <- En.
      assert (ND : NoDup (map fst (somes (map z_r Z)))).
      { apply somes_nodup; [exact NZ|]. apply Forall_forall. intros z Hz k0 v0 Er. now apply (Pair z Hz k0 v0). }
      rewrite emplace_all_new by exact ND. cbn [app].
      assert (Obj : forall m, In m (somes (map z_r Z)) -> exists z, In z Z /\ z_r z = Some m /\ fst m = z_n z /\ valid (VObject (t_fs (z_t z))) (snd m)).
      { intros [k0 v0] Hm. apply somes_In in Hm. apply in_map_iff in Hm as (z & Er & Hz). exists z. split; [exact Hz|]. split; [exact Er|]. now apply (Pair z Hz). }
      assert (Ss : Forall2 (fun m t => exists b, (b = true -> fx' = true) /\ srel n2 b m t) (concat mss) (map z_t Z)).
      { rewrite Em. clear -FZ. induction Z as [|z Z IHZ]; cbn; constructor; [exists (z_b z); destruct (FZ z (or_introl eq_refl)) as (Q1 & _ & Q2 & _); auto|].
        apply IHZ. intros y Hy. apply FZ. now right. }
      destruct (members_split _ _ _ _ _ Ss Nm Hvar) as [Pl Kn NV|m t p Ecm Vm Et Hp].
      * rewrite fold_plain by exact Pl. apply valid_object; cbn.
        -- reflexivity.
        -- intros pf m Hpf Hm Eq. apply in_map_iff in Hpf as (t & <- & Ht). apply in_map_iff in Ht as (z & <- & Hz). cbn in *.
           destruct (Obj m Hm) as (z' & Hz' & Er & En' & V).
           assert (Kz : t_key (z_t z) = z_n z).
           { rewrite map_map in Kn. rewrite En in Kn. clear -Kn Hz. induction Z as [|y Z IHZ]; [destruct Hz|]. cbn in Kn. injection Kn as K1 K2. destruct Hz as [->|Hz]; auto. }
           assert (z = z') by (apply (nodup_inj _ _ z_n Z); auto; congruence). subst z'. exact V.
        -- intros pf m [].
        -- intros nm Hnm. apply in_flat_map in Hnm as (t & Ht & Hin). unfold req_of in Hin. destruct (t_req t) eqn:Rq; [|destruct Hin]. destruct Hin as [<-|[]].
           apply in_map_iff in Ht as (z & <- & Hz).
           assert (Kz : t_key (z_t z) = z_n z).
           { rewrite map_map in Kn. rewrite En in Kn. clear -Kn Hz. induction Z as [|y Z IHZ]; [destruct Hz|]. cbn in Kn. injection Kn as K1 K2. destruct Hz as [->|Hz]; auto. }
           assert (Im : In (z_m z) (concat mss)) by (rewrite Em; now apply in_map).
           assert (Nv : ~ variable (z_m z)) by (rewrite Forall_forall in NV; now apply NV).
           destruct (z_r z) as [[k0 v0]|] eqn:Er.
           ++ destruct (Pair z Hz k0 v0 Er) as [-> _]. rewrite Kz. apply in_map_iff. exists (z_n z, v0). split; [reflexivity|]. apply somes_In. rewrite <- Er. now apply in_map.
           ++ exfalso. destruct (FZ z Hz) as (Hb & Nz & (k & x & fm & ftm & nlm & opt & rqm & Dm & A1 & A2 & A3 & A4 & _ & Sp) & (k2 & vx & f2 & nl2 & opt2 & Dm2 & B1 & B2 & B3 & Br)).
              destruct Sp as [(Vv & _)|(_ & _ & _ & Ho)]; [apply Nv; now apply variable_iff|].
              destruct Br as [[_ [Ho'|(n' & Rk)]]|(x2 & key & v2 & n'' & n3 & Ex & Er' & _)]; [specialize (Ho Rq); congruence| |congruence].
              assert (Em0 := named_body (z_m z) k2 vx (z_n z) n' "" Dm2 Nz Rk). rewrite <- Em0 in Nz. exact (Hne _ Im Nv Nz).
        -- unfold fl. destruct (ft' || fx')%bool; [right; split; [reflexivity|]|now left].
           intros m Hm. left. destruct (Obj m Hm) as (z & Hz & _ & -> & _). rewrite map_map. cbn.
           assert (Kz : t_key (z_t z) = z_n z).
           { rewrite map_map in Kn. rewrite En in Kn. clear -Kn Hz. induction Z as [|y Z IHZ]; [destruct Hz|]. cbn in Kn. injection Kn as K1 K2. destruct Hz as [->|Hz]; auto. }
           rewrite <- Kz. rewrite map_map. apply in_map_iff. exists z. auto.
      * rewrite Ecm in Em. destruct Z as [|z [|z' Z]]; try discriminate Em. injection Em as Emz. cbn in Et. injection Et as Et. cbn [map fold_left]. unfold step. rewrite Et, Hp. cbn [os_empty os_props os_patterns os_required os_allOf emplace_unique].
        apply valid_object; cbn.
        -- reflexivity.
        -- intros pf m0 [].
        -- intros pf m0 [<-|[]] Hm _. cbn. destruct (Obj m0 Hm) as (z0 & [<-|[]] & _ & _ & V). now rewrite <- Et.
        -- intros nm [].
        -- unfold fl. destruct (ft' || fx')%bool; [right; split; [reflexivity|]|now left].
           intros m0 Hm. right. destruct (Obj m0 Hm) as (z0 & [<-|[]] & _ & -> & _). exists p. split; [now left|].
           destruct (FZ z (or_introl eq_refl)) as (Hb & Nz & (k & x & fm & ftm & nlm & opt & rqm & Dm & A1 & A2 & A3 & A4 & _ & Sp) & _).
           destruct Sp as [(_ & k' & p' & Pk & Rp & Hp')|(Vv & _)].
           ++ assert (p' = p) by congruence. subst p'. now apply (named_pattern (z_m z) k (Some x) (z_n z) k' _ p Dm Nz Pk Rp).
           ++ exfalso. rewrite Emz in Vm. apply variable_iff in Vm. congruence.
    + injection E as <-.
      assert (Cases : (v = VNull /\ (nl || nl0)%bool = true) \/ v = VObject [] \/ ((exists vs, v = VObject vs) /\ fx' = false /\ ft' = false)).
      { ob Rv. apply sdn_ok in E as [(x & w' & Fx & Rx & ->)|(Fx & ->)].
        - right. right. injection Rv as ->. destruct (Hs eq_refl x (proj1 (fallback_iff _ _) Fx)) as (Q1 & Q2 & Q3 & Q4). split; [now apply (object_body n1 x (VO fx' (nl || nl0)))|auto].
        - cbn [o_nullable] in Rv. destruct (nl || nl0)%bool; injection Rv as <-; auto. }
      destruct Cases as [[-> N]|[->|((vs & ->) & -> & ->)]].
      * now apply valid_wrap_null.
      * apply valid_wrap. apply valid_object; cbn; auto; try (intros; contradiction).
        unfold fl. destruct (ft' || fx')%bool; [right; split; [reflexivity|intros m []]|now left].
      * apply valid_wrap. apply valid_object; cbn; auto; intros; contradiction.
Qed.
