(** The exact result of converting MSON: what each kind of member becomes *)
From Verif Require Import Base Element ElementSpec ElementProofs InfoProofs Extend Registry RegistryProofs Expand ElementUtils SourceMap SourceMapProofs
  DecProofs JsonSpec SerializeSpec TypeTables StringUtility Mson MsonSpec MsonProofs MsonSane.

(** * Objects *)
Definition key_in (l : list element) (x : element) : bool :=
  match string_key x with Some s => existsb (has_key s) l | None => false end.
Lemma filter_all : forall (p : element -> bool) l, (forall y, p y = true) -> filter p l = l.
Proof. intros p l H. induction l as [|y l IH]; cbn; [reflexivity|]. now rewrite H, IH. Qed.
Lemma filter_twice : forall (p q : element -> bool) l, filter p (filter q l) = filter (fun y => q y && p y)%bool l.
Proof. intros p q l. induction l as [|y l IH]; cbn; [reflexivity|]. destruct (q y); cbn; [destruct (p y)|]; now rewrite IH. Qed.
Lemma push_back_eq : forall l x, NoDup (member_keys l) ->
  obj_push_back l x = (filter (fun y => negb (key_in [x] y)) l ++ [x])%list.
Proof.
  intros l x N. unfold obj_push_back. destruct l as [|z l]; [reflexivity|]. destruct (string_key x) as [s|] eqn:K.
  - destruct (remove_key s _ N) as (_ & _ & ->). f_equal. apply filter_ext. intros y. unfold key_in, has_key. cbn. unfold has_key. rewrite K.
    destruct (string_key y) as [t|]; [|reflexivity]. now rewrite orb_false_r, String.eqb_sym.
  - f_equal. symmetry. apply filter_all. intros y. unfold key_in. cbn. unfold has_key. rewrite K. now destruct (string_key y).
Qed.
Lemma fold_push_back : forall l acc, NoDup (member_keys acc) ->
  fold_left obj_push_back l acc = (filter (fun y => negb (key_in l y)) acc ++ last_per_key l)%list.
Proof.
  induction l as [|x l IH]; intros acc N; cbn [fold_left last_per_key].
  - rewrite app_nil_r. symmetry. apply filter_all. intros y. unfold key_in. now destruct (string_key y).
  - rewrite IH by now apply push_back_nodup. rewrite push_back_eq by exact N. rewrite filter_app, filter_twice, <- app_assoc. f_equal.
    + apply filter_ext. intros y. unfold key_in. cbn. destruct (string_key y) as [t|]; [|reflexivity]. rewrite orb_false_r. now rewrite negb_orb.
    + cbn. unfold key_in. destruct (string_key x) as [s|]; [|reflexivity]. now destruct (existsb (has_key s) l).
Qed.
Lemma content_eq : forall k l, content_of k l = collection k l.
Proof. intros k l. unfold content_of, collection. destruct k; try reflexivity. now rewrite fold_push_back by constructor. Qed.

(** * Decorations of an element leave the rest alone *)
Lemma attr_set : forall e k v k', attr (set_attrs e (iset (eattrs e) k v)) k' = if String.eqb k k' then Some v else attr e k'.
Proof. intros [n m a h d] k v k'. unfold attr. cbn [set_attrs eattrs]. now rewrite ifind_iset. Qed.
Lemma meta_set : forall e k v k', meta (set_meta e (iset (emeta e) k v)) k' = if String.eqb k k' then Some v else meta e k'.
Proof. intros [n m a h d] k v k'. unfold meta. cbn [set_meta emeta]. now rewrite ifind_iset. Qed.
(** same content, up to some attributes and meta data *)
Record same_but (ks ms : list string) (x y : element) : Prop := SameBut {
  sb_name : ename x = ename y; sb_has : ehas x = ehas y; sb_data : edata x = edata y;
  sb_attr : forall k, ~ In k ks -> attr x k = attr y k; sb_meta : forall k, ~ In k ms -> meta x k = meta y k }.
Lemma same_refl : forall ks ms e, same_but ks ms e e.
Proof. now constructor. Qed.
Lemma same_trans : forall ks ms x y z, same_but ks ms x y -> same_but ks ms y z -> same_but ks ms x z.
Proof. intros ks ms x y z [A1 A2 A3 A4 A5] [B1 B2 B3 B4 B5]. constructor; try congruence; intros k H; [now rewrite A4, B4|now rewrite A5, B5]. Qed.
Lemma same_attr : forall ks ms e k v, In k ks -> same_but ks ms (set_attrs e (iset (eattrs e) k v)) e.
Proof.
  intros ks ms e k v H. constructor; try now destruct e. intros k' N. rewrite attr_set. destruct (String.eqb_spec k k') as [<-|]; [contradiction|reflexivity].
Qed.
Lemma same_meta : forall ks ms e k v, In k ms -> same_but ks ms (set_meta e (iset (emeta e) k v)) e.
Proof.
  intros ks ms e k v H. constructor; try now destruct e. intros k' N. rewrite meta_set. destruct (String.eqb_spec k k') as [<-|]; [contradiction|reflexivity].
Qed.
Lemma same_attach : forall ks ms e p, In "sourceMap"%string ks -> same_but ks ms (attach e p) e.
Proof. intros ks ms e [|x p] H; [apply same_refl|now apply same_attr]. Qed.
Lemma same_description : forall ks ms e o, In "description"%string ms -> same_but ks ms (set_description e o) e.
Proof. intros ks ms e [d|] H; [now apply same_meta|apply same_refl]. Qed.
Lemma same_types : forall ks ms e ta, In "typeAttributes"%string ks -> same_but ks ms (set_type_attributes e ta) e.
Proof. intros ks ms e ta H. unfold set_type_attributes. destruct (attributes_to_refract ta); [now apply same_attr|apply same_refl]. Qed.

(** * Sections *)
Definition picked {V} (fetch : msection conv -> M V) (l : list (msection conv)) (vs : list (V * places)) : Prop :=
  Forall2 (fun s v => (exists w, fetch s = ret (fst v, w)) /\ snd v = sc_value_map s) l vs.
Definition block_texts {A} (l : list (msection A)) : list (string * places) :=
  map (fun s => (sc_description s, sc_description_map s)) (of_class BlockDescriptionClass l).
Lemma has_content_written : forall s, has_content s = written s.
Proof. intros s. unfold has_content, written. destruct (sc_value s); [|reflexivity]. cbn. now destruct (sc_elements s). Qed.
Lemma sections_data : forall V primitive (fetch : msection conv -> M V) l d d' w,
  foldW (extract_section primitive fetch) d l = ret (d', w) ->
  Forall (fun s => sc_class s <> UndefinedClass) l /\
  exists vs ss ds, picked fetch (if primitive then [] else members l) vs /\ picked fetch (sample_sections l) ss /\
    picked fetch (default_sections l) ds /\
    d' = Data (inlines d) (values d ++ vs) (defaults d ++ ds) (samples d ++ ss) (hints d) (descriptions d ++ block_texts l).
Proof.
  intros V primitive fetch. induction l as [|s l IH]; intros d d' w H; cbn [foldW] in H.
  - minv H. subst. split; [constructor|]. exists [], [], []. destruct primitive; cbn; (split; [constructor|]; split; [constructor|]; split; [constructor|]);
      rewrite !app_nil_r; now destruct d'.
  - minv H. apply IH in H as (U & vs & ss & ds & Pv & Ps & Pd & ->). unfold extract_section in H0.
    assert (Y : forall v w', fetch s = ret (v, w') -> forall L (xs : list (V * places)), picked fetch L xs -> picked fetch (s :: L) ((v, sc_value_map s) :: xs)).
    { intros v w' Ev L xs F. constructor; [|exact F]. split; [now exists w'|reflexivity]. }
    unfold members, sample_sections, default_sections, block_texts in *. unfold of_class in *. cbn [filter].
    destruct (sc_class s) eqn:C; cbn [same_class] in *.
    + discriminate.
    + minv H0. subst a. split; [constructor; [congruence|exact U]|]. exists vs, ss, ds. split; [exact Pv|]. split; [exact Ps|]. split; [exact Pd|].
      cbn. now rewrite <- app_assoc.
    + split; [constructor; [congruence|exact U]|]. destruct primitive.
      * minv H0. subst a. exists vs, ss, ds. now repeat (split; [assumption|]).
      * minv H0. minv H0. subst a. exists ((a0, sc_value_map s) :: vs), ss, ds. split; [now apply (Y _ w2)|]. split; [exact Ps|]. split; [exact Pd|].
        cbn. now rewrite <- app_assoc.
    + split; [constructor; [congruence|exact U]|]. cbn [filter]. rewrite has_content_written in H0. destruct (written s).
      * minv H0. minv H0. subst a. exists vs, ((a0, sc_value_map s) :: ss), ds. split; [exact Pv|]. split; [now apply (Y _ w2)|]. split; [exact Pd|].
        cbn. now rewrite <- app_assoc.
      * minv H0. subst a. exists vs, ss, ds. now repeat (split; [assumption|]).
    + split; [constructor; [congruence|exact U]|]. cbn [filter]. rewrite has_content_written in H0. destruct (written s).
      * minv H0. minv H0. subst a. exists vs, ss, ((a0, sc_value_map s) :: ds). split; [exact Pv|]. split; [exact Ps|]. split; [now apply (Y _ w2)|].
        cbn. now rewrite <- app_assoc.
      * minv H0. subst a. exists vs, ss, ds. now repeat (split; [assumption|]).
Qed.

(** * Literals *)
Lemma literal_to_of : forall k s, is_primitive k = true ->
  literal_to k s = match literal_of k s with Some d => (true, d) | None => (false, match k with KString => DString s | _ => dsd_default k end) end.
Proof.
  intros [] s; cbn; try discriminate; intros _.
  - unfold literal_string. now destruct (String.eqb_spec s "") as [->|].
  - now destruct (literal_number s).
  - unfold literal_boolean. destruct (String.eqb s "true"); [reflexivity|]. now destruct (String.eqb s "false").
Qed.
Lemma text_element_eq : forall k i, is_primitive k = true -> text_element k i = literal_element k (fst i).
Proof. intros k i P. unfold text_element, literal_element. rewrite (literal_to_of k (fst i) P). now destruct (literal_of k (fst i)). Qed.
Lemma literal_of_empty : forall k, literal_of k ""%string = None.
Proof. now intros []. Qed.
Lemma create_value_eq : forall b s, is_primitive (kind_of b) = true -> create b s eValue = literal_element (kind_of b) s.
Proof.
  intros b s P. unfold create. rewrite P. unfold create_primitive, literal_element. destruct (String.eqb_spec s "") as [->|N]; [now rewrite literal_of_empty|].
  rewrite (literal_to_of _ s P). now destruct (literal_of (kind_of b) s).
Qed.
Lemma create_sample_eq : forall b s, is_primitive (kind_of b) = true -> s <> ""%string -> create b s eSample = with_sample (kind_of b) s.
Proof.
  intros b s P N. unfold create. rewrite P. unfold create_primitive, with_sample. destruct (String.eqb_spec s "") as [->|_]; [easy|].
  rewrite (literal_to_of _ s P). unfold make_empty. cbn [set_attrs iset]. now destruct (literal_of (kind_of b) s).
Qed.
Lemma select_nested_primitive : forall l, is_primitive (kind_of (select_nested l)) = true.
Proof. intros [|n [|? ?]]; cbn; try reflexivity. now destruct (n_base n). Qed.
Lemma entry_kind_eq : forall t, kind_of (select_nested (t_nested (td_spec t))) = entry_kind t.
Proof. intros t. unfold select_nested, entry_kind. destruct (t_nested _) as [|n [|? ?]]; try reflexivity. now destruct (n_base n). Qed.
Lemma item_eq : forall t v, create (select_nested (t_nested (td_spec t))) (v_literal v) (if v_variable v then eSample else eValue) = item (entry_kind t) v.
Proof.
  intros t v. unfold item. rewrite <- entry_kind_eq. assert (P := select_nested_primitive (t_nested (td_spec t))).
  destruct (v_variable v); cbn [andb]; [|now apply create_value_eq]. destruct (String.eqb_spec (v_literal v) "") as [E|N]; cbn [negb]; [|now apply create_sample_eq].
  rewrite E. unfold create, literal_element. rewrite P, literal_of_empty. reflexivity.
Qed.

Section Shapes.
  Context (fuel : nat) (r : registry).

  Lemma base_of_known : forall k, In k [KBoolean; KNumber; KString; KArray; KEnum; KObject] <-> base_of_kind k <> UndefinedTN.
  Proof. intros k. destruct k; cbn; split; intros H; try discriminate; try tauto; intuition discriminate. Qed.
  Lemma kind_base : forall k, In k [KBoolean; KNumber; KString; KArray; KEnum; KObject] -> kind_of (base_of_kind k) = k.
  Proof. intros k H. cbn in H. destruct H as [<-|[<-|[<-|[<-|[<-|[<-|[]]]]]]]; reflexivity. Qed.
  Lemma type_from_name_known : forall s b, type_from_name fuel r s = ret b ->
    (b = UndefinedTN /\ forall k, ~ known fuel r s k) \/ (b <> UndefinedTN /\ known fuel r s (kind_of b)).
  Proof.
    intros s b H. unfold type_from_name, root_ancestor in H. destruct (FindRootAncestor fuel r s) as [o|] eqn:F; [|discriminate].
    minv H. injection H0 as <-. injection H as <-. destruct o as [e|].
    - destruct (base_of_kind (ekind e)) eqn:B.
      1:{ left. split; [reflexivity|]. intros k (e' & E & <- & K). rewrite F in E. injection E as <-. apply base_of_known in K. congruence. }
      all: right; (split; [discriminate|]); exists e; (split; [exact F|]).
      all: assert (K : base_of_kind (ekind e) <> UndefinedTN) by congruence; apply base_of_known in K; assert (T := kind_base _ K); rewrite B in T; rewrite T; split; [reflexivity|exact K].
    - left. split; [reflexivity|]. intros k (e' & E & _). congruence.
  Qed.
  Lemma known_fun : forall s k k', known fuel r s k -> known fuel r s k' -> k = k'.
  Proof. intros s k k' (e & E & K & _) (e' & E' & K' & _). congruence. Qed.
  Lemma nested_type_hint : forall p n l w, nested_type fuel r p n = ret (l, w) -> hint fuel r p n l w.
  Proof.
    intros p [b [s v]] l w H. unfold nested_type in H. cbn [n_base n_symbol s_literal s_variable] in H.
    assert (B : forall b, b <> UndefinedTN -> mret [create b s eValue] = ret (l, w) -> hint fuel r p (TN b (Sym s v)) l w).
    { intros b' N E. minv E. subst l w. destruct (String.eqb_spec s "") as [->|Hs]; [|now apply hint_other; [|left]].
      destruct v; [now apply hint_other; [|right]|]. replace (create b' "" eValue) with (make_empty (kind_of b')) by (destruct b'; reflexivity). now apply hint_base. }
    destruct b; try (now apply B). clear B.
    destruct (String.eqb_spec s "") as [->|N]; [minv H; subst l w; apply hint_nameless|].
    apply mbind_ret in H as (a & w0 & w1 & H0 & H & ->). apply quiet_ret in H0 as [H0 ->]. cbn [app]. apply type_from_name_known in H0 as [[-> K]|[Nb K]].
    - destruct v; [|apply mbind_ret in H as (u & w2 & w3 & H1 & H & ->); apply mret_ret in H as [<- ->]; injection H1 as _ <-; now apply hint_unknown]. apply mret_ret in H as [<- ->].
      replace (create UndefinedTN s eSample) with (set_name (make_element (DString s)) "generic") by reflexivity. apply hint_generic; [exact N|]. intros k Hk. now destruct (K k).
    - destruct v.
      + assert (E' : mret [create a s eSample] = ret (l, w1)) by (destruct a; easy). clear H. apply mret_ret in E' as [<- ->].
        destruct (is_primitive (kind_of a)) eqn:P.
        * rewrite create_sample_eq by assumption. apply hint_sample; [exact N|exact K|]. destruct a; cbn in *; try discriminate; tauto.
        * replace (create a s eSample) with (set_name (make_element (DString s)) "generic") by (unfold create; rewrite P; reflexivity).
          apply hint_generic; [exact N|]. intros k Hk. rewrite (known_fun _ _ _ Hk K). destruct a; cbn in *; try discriminate; intuition discriminate.
      + assert (E' : mret [create a s eElement] = ret (l, w1)) by (destruct a; easy). clear H. apply mret_ret in E' as [<- ->].
        replace (create a s eElement) with (set_name (make_empty (kind_of a)) s); [now apply hint_named|].
        unfold create, create_primitive, create_complex. destruct (String.eqb_spec s "") as [->|_]; [easy|]. now destruct (is_primitive (kind_of a)).
  Qed.
  Lemma hints_of_definition : forall t p d d' w, extract_definition fuel r t p d = ret (d', w) ->
    exists hs, nested_hints fuel r t p hs w /\ d' = add_hint d (hs, []).
  Proof.
    intros t p d d' w H. unfold extract_definition in H. apply mbind_ret in H as (a & w0 & w1 & H0 & H & ->). apply mret_ret in H as [<- ->]. apply mapM_ret in H0 as (rs & R & -> & ->).
    exists (concat (map fst rs)). split; [|reflexivity]. exists rs. rewrite app_nil_r. split; [|now split]. induction R as [|n [l w'] L rs Ex R IH]; [constructor|]. constructor; [exact (nested_type_hint _ _ _ _ Ex)|exact IH].
  Qed.

  (** * The values of a member *)
  Definition own_description (m : mmember conv) : list (string * places) :=
    if String.eqb (m_description m) "" then [] else [(m_description m, m_description_map m)].
  Lemma extract_value_data : forall V vc (fetch : mmember conv -> M V) definition m d w,
    extract_value vc fetch definition m = ret (d, w) ->
    if object_base (m_value m) then d = no_data /\ w = [] else
    exists xs ws wd,
      (match vd_values (m_value m) with
       | [] => xs = [] /\ ws = missing_warnings m
       | _ => exists x, fetch m = ret (x, ws) /\ xs = [(x, m_value_map m)]
       end) /\
      (let u := use_of vc (m_value m) in
       let d0 := Data (if_use AsValue u xs) [] (if_use AsDefault u xs) (if_use AsSample u xs) [] (own_description m) in
       if hinted (m_value m) then definition d0 = ret (d, wd) else d = d0 /\ wd = []) /\
      w = (ws ++ wd)%list.
  Proof.
    intros V vc fetch definition m d w H. unfold extract_value in H. unfold object_base, missing_warnings, use_of, hinted, inline_values, object_base.
    destruct (td_base (vd_type (m_value m))); try (minv H; now subst);
    (minv H; cbn [negb andb];
     destruct (vd_values (m_value m)) as [|v vs];
     [ minv H0; minv H0; minv H0; unfold when in H1, H2; subst a; exists [], (w2 ++ w4)%list, w1;
       (split; [split; [reflexivity|];
          cbv zeta; cbn [fst snd]; f_equal; [destruct (N.testbit _ DefaultTA); [injection H1 as <- <-; reflexivity|minv H1; now subst]|destruct (N.testbit _ SampleTA); [injection H2 as <- <-; reflexivity|minv H2; now subst]]|]);
       (split; [|subst; now rewrite app_nil_r]);
       unfold own_description; destruct (String.eqb (m_description m) ""); exact H
     | assert (G : exists x wf, fetch m = ret (x, wf) /\ w0 = wf /\
          a = (let xs := [(x, m_value_map m)] in
            if N.testbit (td_attrs (vd_type (m_value m))) DefaultTA then Data [] [] xs [] [] []
            else if (N.testbit (td_attrs (vd_type (m_value m))) SampleTA || vc && v_variable v)%bool then Data [] [] [] xs [] []
            else Data xs [] [] [] [] []));
       [ destruct (N.testbit _ DefaultTA); [|destruct (N.testbit _ SampleTA || _)%bool]; minv H0; minv H0; subst; rewrite app_nil_r; now exists a0, w2
       | destruct G as (x & wf & Ef & -> & ->); clear H0; exists [(x, m_value_map m)], wf, w1; (split; [now exists x|]); (split; [|exact E]);
         unfold own_description;
         destruct (N.testbit _ DefaultTA); [|destruct (N.testbit _ SampleTA); [|destruct (vc && v_variable v)%bool]]; cbn [orb] in H;
         destruct (String.eqb (m_description m) ""); destruct (t_nested (td_spec (vd_type (m_value m)))) as [|? [|? ?]];
         cbn [if_use add_description inlines values defaults samples hints descriptions app] in *; try exact H; minv H; subst; now split ] ]).
  Qed.

  (** * Finished elements *)
  Lemma merge_concat : forall l, fst (merge_infos l) = concat (map fst l).
  Proof.
    intros l. unfold merge_infos. assert (G : forall acc, fst (fold_left (fun r i => (fst r ++ fst i, append_places (snd r) (snd i)))%list l acc) = (fst acc ++ concat (map fst l))%list).
    { induction l as [|x l IH]; intros acc; cbn; [now rewrite app_nil_r|]. rewrite IH. cbn. now rewrite app_assoc. }
    apply G.
  Qed.
  Lemma attr_samples : forall l e k, attr e "samples" = None -> attr (set_samples l e) k = if String.eqb "samples" k then list_attribute l else attr e k.
  Proof.
    intros [|x l] e k N; cbn [set_samples list_attribute]; [destruct (String.eqb_spec "samples" k) as [<-|]; [exact N|reflexivity]|]. apply attr_set.
  Qed.
  Lemma attr_default : forall V (f : V * places -> element) l e k, attr e "default" = None ->
    attr (set_last_default f l e) k = if String.eqb "default" k then option_map f (last_of l) else attr e k.
  Proof.
    intros V f l e k N. unfold set_last_default, last_of. destruct (rev l) as [|x t]; [destruct (String.eqb_spec "default" k) as [<-|]; [exact N|reflexivity]|]. apply attr_set.
  Qed.
  Lemma samples_same : forall l e, ename (set_samples l e) = ename e /\ ehas (set_samples l e) = ehas e /\ edata (set_samples l e) = edata e /\ emeta (set_samples l e) = emeta e.
  Proof. intros [|x l] [n m a h d]; now repeat split. Qed.
  Lemma default_same : forall V (f : V * places -> element) l e,
    ename (set_last_default f l e) = ename e /\ ehas (set_last_default f l e) = ehas e /\ edata (set_last_default f l e) = edata e /\ emeta (set_last_default f l e) = emeta e.
  Proof. intros V f l [n m a h d]. unfold set_last_default. destruct (rev l); now repeat split. Qed.
  (** an element without a value, samples or default, as all elements start *)
  Definition fresh_element (e : element) : Prop :=
    ehas e = false /\ attr e "samples" = None /\ attr e "default" = None /\ attr e "enumerations" = None.
  Definition kept (e e' : element) : Prop :=
    ename e' = ename e /\ emeta e' = emeta e /\ (forall k, ~ In k ["samples"; "default"; "enumerations"; "sourceMap"]%string -> attr e' k = attr e k).
  Lemma not_among : forall k l x, ~ In k l -> In x l -> String.eqb x k = false.
  Proof. intros k l x N H. apply String.eqb_neq. now intros ->. Qed.
  Lemma last_map : forall A B (f : A -> B) l, last_of (map f l) = option_map f (last_of l).
  Proof. intros A B f l. unfold last_of. rewrite <- map_rev. now destruct (rev l). Qed.
  Lemma finish_list_shape : forall k d e e' w, fresh_element e -> finish_list k d e = ret (e', w) ->
    w = [] /\ kept e e' /\ attr e' "sourceMap" = attr e "sourceMap" /\
    holds k (concat (map fst (hints d)) ++ concat (map fst (inlines d)) ++ concat (map fst (values d))) e' /\
    attr e' "samples" = list_attribute (map (collected k) (map fst (samples d))) /\
    attr e' "default" = option_map (collected k) (last_of (map fst (defaults d))) /\
    attr e' "enumerations" = None.
  Proof.
    intros k d e e' w (F1 & F2 & F3 & F4) H. unfold finish_list in H. minv H. subst w e'. split; [reflexivity|].
    assert (Sv : ename (save_list k d e) = ename e /\ eattrs (save_list k d e) = eattrs e /\ emeta (save_list k d e) = emeta e /\
      holds k (concat (map fst (hints d)) ++ concat (map fst (inlines d)) ++ concat (map fst (values d))) (save_list k d e)).
    { unfold save_list. rewrite !merge_concat. destruct (concat (map fst (hints d)) ++ _)%list as [|x l]; [now repeat split|].
      unfold eempty. rewrite F1. cbn [negb]. destruct e as [n m a h dd]. cbn. rewrite content_eq. now repeat split. }
    destruct Sv as (S1 & S2 & S3 & S4). set (e1 := save_list k d e) in *. clearbody e1.
    assert (A : forall x, attr e1 x = attr e x) by (intros x; unfold attr; now rewrite S2).
    set (f := list_element k). assert (Ef : forall i, f i = collected k (fst i)) by (intros i; unfold f, list_element, collected; now rewrite content_eq).
    destruct (samples_same (map f (samples d)) e1) as (P1 & P2 & P3 & P4).
    destruct (default_same _ f (defaults d) (set_samples (map f (samples d)) e1)) as (Q1 & Q2 & Q3 & Q4).
    assert (At : forall x, attr (set_last_default f (defaults d) (set_samples (map f (samples d)) e1)) x =
      if String.eqb "default" x then option_map f (last_of (defaults d)) else if String.eqb "samples" x then list_attribute (map f (samples d)) else attr e x).
    { intros x. rewrite attr_default, attr_samples by (rewrite ?attr_samples by (now rewrite A); cbn; now rewrite A). now rewrite A. }
    split; [|split; [|split; [|split; [|split]]]].
    - split; [congruence|]. split; [congruence|]. intros x N. rewrite At, !(not_among _ _ _ N) by (cbn; tauto). reflexivity.
    - now rewrite At.
    - unfold holds in *. destruct (_ ++ _)%list; [congruence|]. destruct S4. split; congruence.
    - rewrite At. cbn. f_equal. rewrite map_map. apply map_ext, Ef.
    - rewrite At. cbn. rewrite last_map. destruct (last_of (defaults d)) as [i|]; cbn; [now rewrite Ef|reflexivity].
    - rewrite At. cbn. exact F4.
  Qed.
  Lemma check_text_warnings : forall k l us w, is_primitive k = true -> mapM (check_text k) l = ret (us, w) -> w = literal_warnings k l.
  Proof.
    intros k l us w P H. apply mapM_ret in H as (rs & R & _ & ->). unfold literal_warnings. induction R as [|i [u w] l rs Ex R IH]; [reflexivity|].
    cbn. rewrite IH. f_equal. unfold check_text in Ex. destruct k; try discriminate P.
    - minv Ex. now subst.
    - cbn [literal_of]. destruct (literal_number (fst i)); cbn [option_map]; [minv Ex; now subst|injection Ex as _ <-; reflexivity].
    - cbn [literal_of]. unfold literal_boolean in Ex. destruct (String.eqb (fst i) "true"); [minv Ex; now subst|].
      destruct (String.eqb (fst i) "false"); [minv Ex; now subst|injection Ex as _ <-; reflexivity].
  Qed.
  Lemma literal_to_snd : forall k s, is_primitive k = true -> snd (literal_to k s) = literal_or_default k s.
  Proof.
    intros k s P. rewrite literal_to_of by exact P. unfold literal_or_default. destruct (literal_of k s) eqn:L; [reflexivity|].
    destruct k; try reflexivity. cbn in L. destruct (String.eqb_spec s ""); [now subst|discriminate].
  Qed.
  Lemma finish_text_shape : forall k d e e' w, is_primitive k = true -> fresh_element e -> values d = [] -> hints d = [] -> finish_text k d e = ret (e', w) ->
    w = literal_warnings k (inlines d ++ samples d ++ defaults d) /\ kept e e' /\
    (match inlines d with
     | [] => ehas e' = false /\ attr e' "sourceMap" = attr e "sourceMap"
     | (s, p) :: _ => ehas e' = true /\ edata e' = literal_or_default k s /\
        attr e' "sourceMap" = match p with [] => attr e "sourceMap" | _ => Some (SourceMapToRefract p) end
     end) /\
    attr e' "samples" = list_attribute (map (fun i => literal_element k (fst i)) (samples d)) /\
    attr e' "default" = option_map (fun i => literal_element k (fst i)) (last_of (defaults d)) /\
    attr e' "enumerations" = None.
  Proof.
    intros k d e e' w P (F1 & F2 & F3 & F4) V Hh H. unfold finish_text in H. minv H. minv H. subst e'.
    apply check_text_warnings in H0; [|exact P]. rewrite V, Hh in H0. cbn [app] in H0. rewrite app_nil_r in H0. split; [subst; now rewrite app_nil_r|]. clear H0 E E0.
    assert (Sv : ename (save_text k d e) = ename e /\ emeta (save_text k d e) = emeta e /\ (forall x, "sourceMap"%string <> x -> attr (save_text k d e) x = attr e x) /\
      match inlines d with
      | [] => ehas (save_text k d e) = false /\ attr (save_text k d e) "sourceMap" = attr e "sourceMap"
      | (s, p) :: _ => ehas (save_text k d e) = true /\ edata (save_text k d e) = literal_or_default k s /\
         attr (save_text k d e) "sourceMap" = match p with [] => attr e "sourceMap" | _ => Some (SourceMapToRefract p) end
      end).
    { unfold save_text. rewrite V. destruct (inlines d) as [|[s p] l]; [now repeat split|]. rewrite literal_to_snd by exact P.
      destruct p as [|q p]; cbn [attach]; [destruct e; now repeat split|]. destruct e as [n mm aa h dd]. cbn [eset set_attrs ename emeta ehas edata].
      split; [reflexivity|]. split; [reflexivity|]. split; [|split; [reflexivity|split; [reflexivity|]]]; unfold attr; cbn [eattrs].
      - intros x N. rewrite ifind_iset. destruct (String.eqb_spec "sourceMap" x); [contradiction|reflexivity].
      - now rewrite ifind_iset. }
    destruct Sv as (S1 & S3 & A & S4). set (e1 := save_text k d e) in *. clearbody e1.
    set (f := text_element k). assert (Ef : forall i, f i = literal_element k (fst i)) by (intros i; now apply text_element_eq).
    destruct (samples_same (map f (samples d)) e1) as (P1 & P2 & P3 & P4).
    destruct (default_same _ f (defaults d) (set_samples (map f (samples d)) e1)) as (Q1 & Q2 & Q3 & Q4).
    assert (At : forall x, attr (set_last_default f (defaults d) (set_samples (map f (samples d)) e1)) x =
      if String.eqb "default" x then option_map f (last_of (defaults d)) else if String.eqb "samples" x then list_attribute (map f (samples d)) else attr e1 x).
    { intros x. rewrite attr_default, attr_samples by (rewrite ?attr_samples by (now rewrite A); cbn; now rewrite A). reflexivity. }
    split; [|split; [|split; [|split]]].
    - split; [congruence|]. split; [congruence|]. intros x N. rewrite At, !(not_among _ _ _ N) by (cbn; tauto). apply A. intros <-. apply N. cbn. tauto.
    - rewrite At. cbn [String.eqb]. destruct (inlines d) as [|[s p] l]; cbn.
      + destruct S4. split; congruence.
      + destruct S4 as (? & ? & ?). repeat split; congruence.
    - rewrite At. cbn. f_equal. apply map_ext, Ef.
    - rewrite At. cbn. destruct (last_of (defaults d)) as [i|]; cbn; [now rewrite Ef|reflexivity].
    - rewrite At. cbn. now rewrite A.
  Qed.
End Shapes.
