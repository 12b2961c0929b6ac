(** C48: decent MSON is converted to elements that are tame *)
From Verif Require Import Base Element ElementSpec ElementProofs InfoProofs Extend Registry Expand ExpandClosed ElementUtils SourceMap TypeTables StringUtility Mson MsonSpec MsonProofs MsonSane ReadySpec ReadyProofs.

Section Tame.
  Context (fuel : nat) (r : registry).
  (** the registry is consistent: the types are of the kind of their root *)
  Definition consistent : Prop :=
    (forall b, b <> UndefinedTN -> rfind r (kind_name (kind_of b)) <> None) /\ (forall p, rfind r "sourceMap" = Some p -> ekind p = KArray) /\
    forall n p, n <> ""%string -> is_reserved n = false -> rfind r n = Some p -> known fuel r n (ekind p).
  Hypothesis Con : consistent.
  Definition reg (n : string) : Prop := rfind r n <> None.
  Definition enu (n : string) : Prop := known fuel r n KEnum.
  (** [b]: mixins are allowed *)
  Definition tp (b : bool) (x : element) : Prop := tame_piece r x /\ (b = false -> ekind x <> KRef).
  Definition T (b : bool) (e : element) : Prop := everywhere (tp b) e.
  Lemma t_more : forall b e, T false e -> T b e.
  Proof. intros b e H x Hx. destruct (H x Hx) as [A B]. split; [exact A|]. intros _. now apply B. Qed.
  Lemma t_no_mixin : forall e, T false e -> no_mixin e.
  Proof. intros e H x Hx. now apply (H x Hx). Qed.
  Lemma t_calm : forall b e, T b e -> no_mixin e -> T false e.
  Proof. intros b e H N x Hx. split; [now apply (H x Hx)|]. intros _. now apply N. Qed.
  Lemma t_elem : forall b n m a h d, T b (Elem n m a h d) <-> tp b (Elem n m a h d) /\ Forall (fun kv => T b (snd kv)) m /\ Forall (fun kv => T b (snd kv)) a /\ Forall (T b) (dsd_children d).
  Proof. intros. apply every_elem. Qed.
  Definition fits (k : kind) (n : string) : Prop := is_reserved n = false -> forall p, rfind r n = Some p -> ekind p = k.
  Definition dsd_tame (b : bool) (h : bool) (d : dsd element) : Prop :=
    match d with DRef s => b = true /\ s <> ""%string /\ rfind r s <> None | DMember (Some k) _ => is_reserved (ename k) = true /\ ehas k = true | DSelect _ => h = true | _ => True end.
  Lemma t_intro : forall b n m a h d, fits (dsd_kind d) n -> Forall (fun kv => T b (snd kv)) m -> Forall (fun kv => T false (snd kv)) a -> Forall (T b) (dsd_children d) -> dsd_tame b h d -> T b (Elem n m a h d).
  Proof.
    intros b n m a h d F M A C D. apply t_elem. split; [|split; [exact M|split; [eapply Forall_impl; [|exact A]; intros; now apply t_more|exact C]]].
    split; [split; [|split; [exact F|]]|].
    - intros k v Hv. rewrite Forall_forall in A. apply t_no_mixin. apply (A (k, v)). exact Hv.
    - unfold dsd_tame in D. cbn [edata ehas]. destruct d as [| | | | | |[]| | | | | |]; auto. now destruct D.
    - intros ->. unfold ekind. cbn [edata]. destruct d; try discriminate. now destruct D.
  Qed.
  Lemma t_inv : forall b e, T b e -> fits (ekind e) (ename e) /\ Forall (fun kv => T b (snd kv)) (emeta e) /\ Forall (fun kv => T false (snd kv)) (eattrs e) /\ Forall (T b) (dsd_children (edata e)) /\ dsd_tame b (ehas e) (edata e).
  Proof.
    intros b [n m a h d] H. apply t_elem in H as (((P1 & P2 & P3) & P4) & M & A & C). cbn [emeta eattrs edata ehas ename] in *. split; [exact P2|]. split; [exact M|]. split; [|split; [exact C|]].
    - rewrite Forall_forall in *. intros [k v] Hv. apply (t_calm b); [now apply (A _ Hv)|now apply (P1 k v)].
    - unfold dsd_tame. destruct d as [| | | | | |[]| | | | | |]; auto. split; [|exact P3]. destruct b; [reflexivity|]. exfalso. now apply P4.
  Qed.
  Lemma fits_kind : forall k k', k' <> KHolder -> fits k (kind_name k').
  Proof. intros k k' H R. rewrite kind_name_reserved in R by exact H. discriminate. Qed.
  Lemma t_attr : forall b e k v, T b e -> T false v -> T b (set_attrs e (iset (eattrs e) k v)).
  Proof. intros b [n m a h d] k v H V. destruct (t_inv _ _ H) as (F & M & A & C & D). apply t_intro; auto. now apply iset_all. Qed.
  Lemma t_meta : forall b e k v, T b e -> T b v -> T b (set_meta e (iset (emeta e) k v)).
  Proof. intros b [n m a h d] k v H V. destruct (t_inv _ _ H) as (F & M & A & C & D). apply t_intro; auto. now apply iset_all. Qed.
  Lemma t_named : forall b e n, T b e -> fits (ekind e) n -> T b (set_name e n).
  Proof. intros b [n0 m a h d] n H N. destruct (t_inv _ _ H) as (F & M & A & C & D). now apply t_intro. Qed.
  Lemma t_set : forall b e d, T b e -> dsd_kind d = ekind e -> Forall (T b) (dsd_children d) -> dsd_tame b true d -> T b (eset e d).
  Proof. intros b [n0 m a h d0] d H K C' D'. destruct (t_inv _ _ H) as (F & M & A & C & D). apply t_intro; auto. rewrite K. exact F. Qed.
  Lemma t_make : forall b d, dsd_kind d <> KHolder -> Forall (T b) (dsd_children d) -> dsd_tame b true d -> T b (make_element d).
  Proof. intros b d K C D. apply t_intro; auto; try constructor. now apply fits_kind. Qed.
  Lemma t_empty : forall b k, In k [KBoolean; KNumber; KString; KArray; KEnum; KObject] -> T b (make_empty k).
  Proof. intros b k H. apply t_intro; try constructor; [apply fits_kind|..]; destruct H as [<-|[<-|[<-|[<-|[<-|[<-|[]]]]]]]; try discriminate; try constructor. Qed.
  Lemma t_str : forall b s, T b (str_elem s).
  Proof. intros b s. apply t_make; [discriminate|constructor|exact I]. Qed.
  Lemma t_array : forall b l, Forall (T b) l -> T b (make_element (DArray l)).
  Proof. intros b l H. apply t_make; [discriminate|exact H|exact I]. Qed.
  Lemma t_map : forall b p, T b (SourceMapToRefract p).
  Proof.
    intros b p. apply t_array. constructor; [|constructor]. apply t_named; [|destruct Con as (_ & C & _); intros _; exact C]. apply t_array, Forall_map, Forall_forall. intros x _.
    apply t_array. constructor; [|constructor; [|constructor]]; (apply t_make; [discriminate|constructor|exact I]).
  Qed.
  Lemma t_attach : forall b e p, T b e -> T b (attach e p).
  Proof. intros b e [|x p] H; [exact H|]. apply t_attr; [exact H|apply t_map]. Qed.
  Lemma t_literal : forall b k s, T b (make_element (snd (literal_to k s))).
  Proof.
    intros b k s. assert (G : forall d : dsd element, dsd_children d = [] -> dsd_kind d <> KHolder -> match d with DRef _ | DSelect _ | DMember _ _ => False | _ => True end -> T b (make_element d)).
    { intros d C K N. apply t_make; [exact K|rewrite C; constructor|]. destruct d; cbn; auto; contradiction. }
    destruct k; cbn; try (apply G; [reflexivity|discriminate|exact I]); [destruct (literal_number s)|destruct (literal_boolean s)]; apply G; try reflexivity; try discriminate; exact I.
  Qed.
  Lemma t_create : forall b bn s m, (m = eElement \/ is_primitive (kind_of bn) = false -> s = ""%string \/ fits (kind_of bn) s) -> T b (create bn s m).
  Proof.
    intros b bn s m N. unfold create. assert (E : T b (make_empty (kind_of bn))) by (apply t_empty; apply kind_of_value).
    assert (L := t_literal false (kind_of bn) s). assert (L' := t_literal b (kind_of bn) s).
    destruct (is_primitive (kind_of bn)) eqn:P.
    - unfold create_primitive. destruct (String.eqb_spec s "") as [->|Ns]; [exact E|]. destruct m.
      + destruct (literal_to (kind_of bn) s) as [[|] v]; [exact L'|exact E].
      + apply (t_attr b (make_empty (kind_of bn)) "samples"); [exact E|]. destruct (literal_to (kind_of bn) s) as [[|] v]; [apply t_array; constructor; [exact L|constructor]|apply t_empty; cbn; auto 10].
      + apply t_named; [exact E|]. rewrite empty_kind. destruct (N (or_introl eq_refl)); [contradiction|assumption].
    - assert (N' : s = ""%string \/ fits (kind_of bn) s) by (apply N; now right). unfold create_complex. destruct m; [|apply t_named; [apply t_str|intros X; discriminate X]|];
        (destruct (String.eqb_spec s "") as [->|Ns]; [exact E|]; apply t_named; [exact E|]; rewrite empty_kind; now destruct N').
  Qed.
  Lemma t_text_element : forall b k i, is_primitive k = true -> T b (text_element k i).
  Proof. intros b k i P. unfold text_element. assert (L := t_literal b k (fst i)). destruct (literal_to k (fst i)) as [[|] v]; [exact L|]. apply t_empty. destruct k; try discriminate; cbn; auto 10. Qed.
  Lemma t_content : forall b k l, Forall (T b) l -> T b (make_element (content_of k l)).
  Proof.
    intros b k l F. unfold content_of. destruct k; try now apply t_array. apply t_make; [discriminate| |exact I]. cbn. rewrite Forall_forall in *. intros x Hx. apply push_all_In in Hx as [[]|Hx]. now apply F.
  Qed.
  (** literals become fixed *)
  Lemma t_add_fixed : forall b e n m a h l, T b e -> T false (Elem n m a h (DArray l)) -> T b (set_attrs e (iset (eattrs e) "typeAttributes" (Elem n m a true (DArray (l ++ [str_elem "fixed"]))))).
  Proof.
    intros b e n m a h l H V. apply t_attr; [exact H|]. destruct (t_inv _ _ V) as (F & M & A & C & D). cbn [emeta eattrs edata ename] in *. apply t_intro; auto. cbn in *. apply Forall_app. split; [exact C|]. constructor; [apply t_str|constructor].
  Qed.
  Lemma t_new_fixed : forall b e, T b e -> T b (set_attrs e (iset (eattrs e) "typeAttributes" (make_element (DArray [str_elem "fixed"])))).
  Proof. intros b e H. apply t_attr; [exact H|]. apply t_array. constructor; [apply t_str|constructor]. Qed.
  Lemma t_found : forall b e k v, T b e -> ifind (eattrs e) k = Some v -> T false v.
  Proof. intros b e k v H F. destruct (t_inv _ _ H) as (_ & _ & A & _). apply ifind_In in F. rewrite Forall_forall in A. apply (A _ F). Qed.
  Lemma t_fix_literal : forall b e e', T b e -> fix_literal e = ret e' -> T b e'.
  Proof.
    intros b e e' H E. unfold fix_literal in E. minv E. destruct a; [|injection E as <-; exact H]. minv E. unfold set_fixed in E. destruct (ifind (eattrs e) "typeAttributes") as [v|] eqn:F.
    - assert (V := t_found _ _ _ _ H F). destruct v as [n m at_ h d]. destruct d; try (injection E as <-; exact H). destruct h; [|discriminate]. destruct (existsb _ l); injection E as <-; [exact H|now apply (t_add_fixed b e n m at_ true)].
    - injection E as <-. now apply t_new_fixed.
  Qed.
  Lemma t_fix_entry : forall b e e', T b e -> fix_entry e = ret e' -> T b e'.
  Proof.
    intros b e e' H E. unfold fix_entry in E. minv E. destruct a; [|injection E as <-; exact H]. minv E. unfold append_fixed in E. destruct (ifind (eattrs e) "typeAttributes") as [v|] eqn:F.
    - assert (V := t_found _ _ _ _ H F). destruct v as [n m at_ h d]. destruct d; try discriminate. destruct h.
      + destruct (any_string "fixed" l) as [[|]|]; try discriminate; injection E as <-; [exact H|now apply (t_add_fixed b e n m at_ true)].
      + injection E as <-. apply t_attr; [exact H|]. destruct (t_inv _ _ V) as (F' & M & A & C & D). apply t_intro; auto. constructor; [apply t_str|constructor].
    - injection E as <-. now apply t_new_fixed.
  Qed.
  Lemma t_mapR : forall b f l l', (forall e e', T b e -> f e = ret e' -> T b e') -> Forall (T b) l -> mapR f l = ret l' -> Forall (T b) l'.
  Proof.
    intros b f l l' Hf F H. apply mapR_ret in H. induction H as [|x y l l' E R IH]; [constructor|]. inversion F; subst. constructor; [now apply (Hf x)|now apply IH].
  Qed.

  (** * Data gathered from sections *)
  Definition all_t (b : bool) (l : list (list element * places)) : Prop := Forall (fun i => Forall (T b) (fst i)) l.
  Definition t_data (b : bool) (d : data (list element)) : Prop := all_t false (inlines d) /\ all_t b (values d) /\ all_t false (defaults d) /\ all_t false (samples d) /\ all_t false (hints d).
  Lemma no_data_t : forall b, t_data b no_data.
  Proof. intros b. repeat split; constructor. Qed.
  Lemma snoc_t : forall b l x, all_t b l -> Forall (T b) (fst x) -> all_t b (l ++ [x]).
  Proof. intros b l x F H. apply Forall_app. now split; [|constructor]. Qed.
  Lemma merge_t : forall b l, all_t b l -> Forall (T b) (fst (merge_infos l)).
  Proof.
    intros b l F. unfold merge_infos. assert (H : Forall (T b) (fst (@nil element, @nil range))) by constructor. revert H. generalize (@nil element, @nil range).
    induction F as [|x l Hx F IH]; intros acc H; cbn; [exact H|]. apply IH. cbn. now apply Forall_app.
  Qed.
  Definition conv_t (b : bool) (c : conv) : Prop := forall d o w, c d = ret (Some o, w) -> T b o.
  Definition in_class (b : bool) (c : section_class) : bool := match c with MemberTypeClass => b | _ => false end.
  Definition section_t (b : bool) (s : msection conv) : Prop := Forall (conv_t (in_class b (sc_class s))) (sc_elements s).
  Lemma sections_t : forall b d l es w, Forall (conv_t b) l -> sections_to_apie d l = ret (es, w) -> Forall (T b) es.
  Proof.
    intros b d l es w F H. unfold sections_to_apie in H. minv H. minv H. subst. apply mapM_ret in H0 as (rs & R & -> & _).
    induction R as [|c [o w] l rs E R IH]; [constructor|]. inversion F as [|? ? Fc Fl]; subst. cbn. apply Forall_app. split; [|now apply IH].
    destruct o as [e|]; [|constructor]. constructor; [|constructor]. now apply (Fc d e w).
  Qed.
  Definition fetches (b : bool) (fetch : msection conv -> M (list element)) : Prop := forall s es w, section_t b s -> fetch s = ret (es, w) -> Forall (T (in_class b (sc_class s))) es.
  Lemma fetch_elements_t : forall b d, fetches b (fetch_elements d).
  Proof. intros b d s es w S H. now apply (sections_t _ d _ _ w S). Qed.
  Lemma fetch_enum_t : forall b d, fetches b (fetch_enum d).
  Proof.
    intros b d s es w S H. unfold fetch_enum in H. minv H. minv H. subst. apply (sections_t _ _ _ _ _ S) in H0. apply (t_mapR _ fix_literal a); [intros; now apply (t_fix_literal _ e)|exact H0|exact H].
  Qed.
  Lemma extract_section_t : forall b fetch d s d' w, fetches b fetch -> section_t b s -> t_data b d -> extract_section false fetch d s = ret (d', w) -> t_data b d'.
  Proof.
    intros b fetch d s d' w Hf Hs (S1 & S2 & S3 & S4 & S5) H. unfold extract_section in H. specialize (Hf s). destruct (sc_class s); [discriminate| | | |].
    - minv H. subst. now repeat split.
    - minv H. minv H. subst. apply Hf in H0; [|exact Hs]. repeat split; try assumption. now apply snoc_t.
    - destruct (has_content s); [|minv H; subst; now repeat split]. minv H. minv H. subst. apply Hf in H0; [|exact Hs]. repeat split; try assumption. now apply snoc_t.
    - destruct (has_content s); [|minv H; subst; now repeat split]. minv H. minv H. subst. apply Hf in H0; [|exact Hs]. repeat split; try assumption. now apply snoc_t.
  Qed.
  Lemma extract_sections_t : forall b fetch l d d' w, fetches b fetch -> Forall (section_t b) l -> t_data b d -> foldW (extract_section false fetch) d l = ret (d', w) -> t_data b d'.
  Proof.
    intros b fetch l d d' w Hf F S H. apply (foldW_ind _ _ _ (t_data b) _ _ _ _ H S). intros a x a' w' Hx Sa E. apply (extract_section_t b fetch a x a' w'); auto. rewrite Forall_forall in F. now apply F.
  Qed.
  (** names of types *)
  Lemma name_fits : forall s b, s <> ""%string -> type_from_name fuel r s = ret b -> b <> UndefinedTN -> fits (kind_of b) s.
  Proof.
    intros s b N H B R p P. destruct Con as (_ & _ & C). destruct (C s p N R P) as (e & F & K & V). unfold type_from_name, root_ancestor in H. rewrite F in H. cbn in H. injection H as <-.
    rewrite <- K in *. destruct V as [V|[V|[V|[V|[V|[V|[]]]]]]]; rewrite <- V; reflexivity.
  Qed.
  Lemma type_fits : forall t b, plain (t_name t) -> resolve_type fuel r t = ret b -> symbol_of (t_name t) = ""%string \/ (fits (kind_of b) (symbol_of (t_name t)) /\ (is_reserved (symbol_of (t_name t)) = false -> rfind r (symbol_of (t_name t)) <> None -> b <> UndefinedTN)).
  Proof.
    intros t b [P|P] H; [|now left]. unfold resolve_type in H. rewrite P in H. unfold symbol_of in *. destruct (String.eqb_spec (s_literal (n_symbol (t_name t))) "") as [E|N]; [now left|right].
    assert (X : is_reserved (s_literal (n_symbol (t_name t))) = false -> rfind r (s_literal (n_symbol (t_name t))) <> None -> b <> UndefinedTN).
    { intros R Q. destruct (rfind r _) as [p|] eqn:F; [|congruence]. destruct Con as (_ & _ & C). destruct (C _ p N R F) as (e & Fe & K & V). unfold root_ancestor in H. rewrite Fe in H. cbn in H. injection H as <-. rewrite <- K in V.
      destruct V as [V|[V|[V|[V|[V|[V|[]]]]]]]; rewrite <- V; discriminate. }
    split; [|exact X]. intros R p F. apply (name_fits _ b N H); [|exact R|exact F]. apply X; [exact R|]. now rewrite F.
  Qed.
  Lemma nested_type_t : forall p n es w, plain n -> nested_type fuel r p n = ret (es, w) -> Forall (T false) es.
  Proof.
    intros p n es w P H. unfold nested_type in H. assert (C : forall b m s, (m = eElement \/ is_primitive (kind_of b) = false -> s = ""%string \/ fits (kind_of b) s) -> Forall (T false) [create b s m]) by (intros; constructor; [now apply t_create|constructor]).
    assert (Z : forall b, n_base n <> UndefinedTN -> Forall (T false) [create b (s_literal (n_symbol n)) eValue]) by (intros b N; apply C; intros _; left; now destruct P).
    destruct (n_base n) eqn:B; try (minv H; subst; apply Z; discriminate). destruct (String.eqb_spec (s_literal (n_symbol n)) "") as [E|E]; [minv H; subst; apply C; intros _; now left|].
    minv H. minv H0. destruct (s_variable (n_symbol n)) eqn:V.
    - assert (X : forall b, Forall (T false) [create b (s_literal (n_symbol n)) eSample]).
      { intros b. unfold create. constructor; [|constructor]. destruct (is_primitive (kind_of b)) eqn:Q; [|unfold create_complex; apply t_named; [apply t_str|intros Y; discriminate Y]].
        assert (G := t_create false b (s_literal (n_symbol n)) eSample). unfold create in G. rewrite Q in G. apply G. intros [Y|Y]; discriminate. }
      destruct a; minv H; subst; apply X.
    - destruct a; try (minv H; subst; apply C; intros _; right; apply name_fits; [exact E|exact H0|discriminate]). minv H. minv H. subst. constructor.
  Qed.
  Lemma extract_definition_t : forall b t p d d' w, Forall plain (t_nested (td_spec t)) -> t_data b d -> extract_definition fuel r t p d = ret (d', w) -> t_data b d'.
  Proof.
    intros b t p d d' w P (S1 & S2 & S3 & S4 & S5) H. unfold extract_definition in H. minv H. minv H. subst. apply mapM_ret in H0 as (rs & R & -> & _).
    repeat split; try assumption. apply snoc_t; [exact S5|]. cbn. clear - R P Con. induction R as [|n [es w] l rs E R IH]; [constructor|]. inversion P; subst. cbn. apply Forall_app. split; [|now apply IH].
    now apply nested_type_t in E.
  Qed.
  Lemma primitive_nested : forall l, is_primitive (kind_of (select_nested l)) = true.
  Proof. intros [|n [|? ?]]; try reflexivity. cbn. now destruct (n_base n). Qed.
  Lemma value_elements_t : forall m es w, value_elements m = ret (es, w) -> Forall (T false) es.
  Proof.
    intros m es w H. unfold value_elements in H. minv H. subst. apply Forall_map, Forall_forall. intros x _. apply t_create. unfold nested_of. rewrite primitive_nested. intros [X|X]; [destruct (v_variable x); discriminate|discriminate].
  Qed.
  Lemma value_enum_t : forall m es w, value_enum m = ret (es, w) -> Forall (T false) es.
  Proof.
    intros m es w H. unfold value_enum in H. minv H. apply mapR_ret in H. induction H as [|x e l es Ex R IH]; [constructor|]. constructor; [|exact IH].
    apply (t_fix_literal false _ _) in Ex; [exact Ex|]. apply t_create. unfold nested_of. rewrite primitive_nested. intros [X|X]; discriminate.
  Qed.
  Lemma extract_value_t : forall b vc fetch definition m d w, (forall es w, fetch m = ret (es, w) -> Forall (T false) es) -> (forall d d' w, t_data b d -> definition d = ret (d', w) -> t_data b d') ->
    extract_value vc fetch definition m = ret (d, w) -> t_data b d.
  Proof.
    intros b vc fetch definition m d w Hf Hd H. unfold extract_value in H.
    assert (X : forall d0 d w, t_data b d0 ->
      (let d1 := if String.eqb (m_description m) "" then d0 else add_description d0 (m_description m, m_description_map m) in
       match vd_values (m_value m), t_nested (td_spec (vd_type (m_value m))) with
       | [], _ | _, _ :: _ :: _ => definition d1 | _, _ => mret d1 end) = ret (d, w) -> t_data b d).
    { intros d0 d2 w' S0 E. cbn zeta in E. set (d1 := if String.eqb (m_description m) "" then d0 else add_description d0 (m_description m, m_description_map m)) in *.
      assert (S1 : t_data b d1) by (unfold d1; destruct (String.eqb _ ""); [exact S0|now destruct S0 as (? & ? & ? & ? & ?); repeat split]).
      destruct (vd_values (m_value m)); [now apply (Hd d1 _ w')|]. destruct (t_nested _) as [|? [|? ?]]; [minv E; now subst|minv E; now subst|now apply (Hd d1 _ w')]. }
    destruct (td_base (vd_type (m_value m))); try (minv H; subst; apply no_data_t);
    (minv H; apply X in H; [exact H|]; clear H X;
     destruct (vd_values (m_value m)); [minv H0; minv H0; minv H0; subst; apply no_data_t|];
     destruct (N.testbit _ DefaultTA); [|destruct (_ || _)%bool]; minv H0; minv H0; subst; apply Hf in H; repeat split; try constructor; try assumption; constructor).
  Qed.

  (** * The finished elements *)
  Definition of (b : bool) (k : kind) (e : element) : Prop := T b e /\ ekind e = k.
  Lemma of_attr : forall b k e n v, of b k e -> T false v -> of b k (set_attrs e (iset (eattrs e) n v)).
  Proof. intros b k e n v [S K] V. split; [now apply t_attr|now destruct e]. Qed.
  Lemma of_attach : forall b k e p, of b k e -> of b k (attach e p).
  Proof. intros b k e p [S K]. split; [now apply t_attach|]. now destruct e, p. Qed.
  Lemma of_description : forall b k e l, of b k e -> of b k (set_description e (description_to_refract l)).
  Proof.
    intros b k e l [S K]. destruct l as [|x l]; [now split|]. unfold description_to_refract. destruct (join_descriptions (x :: l)) as [t p].
    destruct (String.eqb t ""); [now split|]. cbn [set_description]. split; [|now destruct e]. apply t_meta; [exact S|apply t_attach, t_str].
  Qed.
  Lemma of_type_attributes : forall b k e ta, of b k e -> of b k (set_type_attributes e ta).
  Proof.
    intros b k e ta H. unfold set_type_attributes, attributes_to_refract. destruct (attribute_names ta) as [|x l]; [exact H|]. apply of_attr; [exact H|]. apply t_array, Forall_map, Forall_forall. intros; apply t_str.
  Qed.
  Lemma of_samples : forall b k e l, of b k e -> Forall (T false) l -> of b k (set_samples l e).
  Proof. intros b k e [|x l] H S; [exact H|]. apply of_attr; [exact H|now apply t_array]. Qed.
  Lemma of_set : forall b k e d, of b k e -> dsd_kind d = k -> Forall (T b) (dsd_children d) -> dsd_tame b true d -> of b k (eset e d).
  Proof. intros b k e d [S K] D C X. split; [apply t_set; auto; congruence|now destruct e]. Qed.
  Lemma literal_flat : forall b k s, dsd_children (snd (literal_to k s)) = [] /\ dsd_tame b true (snd (literal_to k s)).
  Proof. intros b k s. destruct k; cbn; try (now split); [destruct (literal_number s)|destruct (literal_boolean s)]; now split. Qed.
  Lemma finish_text_t : forall b k d e e' w, is_primitive k = true -> of b k e -> finish_text k d e = ret (e', w) -> of b k e'.
  Proof.
    intros b k d e e' w P H E. unfold finish_text in E. minv E. minv E. subst.
    assert (S : of b k (save_text k d e)).
    { unfold save_text. assert (G : forall v p, of b k (attach (eset e (snd (literal_to k v))) p)).
      { intros v p. destruct (literal_flat b k v) as [L1 L2]. apply of_attach, of_set; [exact H|now apply literal_kind|rewrite L1; constructor|exact L2]. }
      destruct (inlines d) as [|[v p] l]; [destruct (values d); [exact H|apply (G ""%string [])]|apply G]. }
    assert (G : of b k (set_samples (map (text_element k) (samples d)) (save_text k d e))).
    { apply of_samples; [exact S|]. apply Forall_map, Forall_forall. intros i _. now apply t_text_element. }
    unfold set_last_default. destruct (rev (defaults d)) as [|i l]; [exact G|]. apply of_attr; [exact G|]. now apply t_text_element.
  Qed.
  Lemma finish_list_t : forall b k d e e' w, k = KArray \/ k = KObject -> t_data b d -> of b k e -> finish_list k d e = ret (e', w) -> of b k e'.
  Proof.
    intros b k d e e' w K (S1 & S2 & S3 & S4 & S5) H E. unfold finish_list in E. minv E. subst.
    assert (S : of b k (save_list k d e)).
    { unfold save_list. apply merge_t in S1, S2, S5.
      set (l := (fst (merge_infos (hints d)) ++ fst (merge_infos (inlines d)) ++ fst (merge_infos (values d)))%list).
      assert (Hl : Forall (T b) l) by (unfold l; rewrite !Forall_app; repeat split; try assumption; eapply Forall_impl; try eassumption; intros; now apply t_more). destruct l as [|x l]; [exact H|]. destruct (eempty e); [|exact H].
      assert (C := t_content b k (x :: l) Hl). destruct (t_inv _ _ C) as (_ & _ & _ & C1 & C2). apply of_set; [exact H|now apply content_kind|exact C1|exact C2]. }
    unfold all_t in S3, S4. rewrite Forall_forall in S3, S4.
    assert (G : of b k (set_samples (map (list_element k) (samples d)) (save_list k d e))).
    { apply of_samples; [exact S|]. apply Forall_map, Forall_forall. intros i Hi. apply t_content. now apply S4. }
    unfold set_last_default. destruct (rev (defaults d)) as [|i l] eqn:R; [exact G|]. apply of_attr; [exact G|]. apply t_content. apply S3. apply in_rev. rewrite R. now left.
  Qed.
  Lemma t_enum : forall b x, T b x -> T b (enum_of x).
  Proof. intros b x H. apply t_make; [discriminate|constructor; [exact H|constructor]|exact I]. Qed.
  Lemma single_t : forall b l x, all_t b l -> single l = Some x -> T b x.
  Proof.
    intros b l0 x F H. destruct l0 as [|[[|y [|z t]] p] l]; try discriminate. cbn in H. destruct (eempty y); [discriminate|]. injection H as <-. rewrite clone_all_id. inversion F as [|? ? Fy _]; subst. now inversion Fy.
  Qed.
  Lemma add_t : forall b p rep l enums es w, Forall (T b) enums -> Forall (T b) l -> foldW (add_to_enumerations p rep) enums l = ret (es, w) -> Forall (T b) es.
  Proof.
    intros b p rep l enums es w S F H. apply (foldW_ind _ _ _ (Forall (T b)) _ _ _ _ H S). intros a x a' w' Hx Sa E.
    unfold add_to_enumerations in E. minv E. destruct a0; [minv E; minv E; now subst|]. minv E. subst. apply Forall_app. split; [exact Sa|].
    constructor; [|constructor]. rewrite Forall_forall in F. now apply F.
  Qed.
  Lemma save_enum_t : forall d e e' w, t_data false d -> of false KEnum e -> save_enum d e = ret (e', w) -> of false KEnum e'.
  Proof.
    intros d e e' w (S1 & S2 & S3 & S4 & S5) H E. unfold save_enum in E. rewrite !map_clone_infos in E.
    set (e0 := match single (inlines d) with Some x => _ | None => _ end) in E.
    assert (H0 : of false KEnum e0).
    { unfold e0. destruct (single (inlines d)) as [x|] eqn:E1; [|destruct (single (values d)) as [x|] eqn:E2; [|exact H]];
      (apply of_set; [exact H|reflexivity|constructor; [|constructor]|exact I]); [now apply (single_t _ (inlines d))|now apply (single_t _ (values d))]. }
    clearbody e0. apply merge_t in S1, S2, S3, S4, S5.
    destruct (merge_infos (inlines d)) as [il ip], (merge_infos (values d)) as [vl vp], (merge_infos (hints d)) as [hl hp],
      (merge_infos (samples d)) as [sl sp], (merge_infos (defaults d)) as [dl dp]. cbn [fst] in *.
    minv E. minv H1. minv H1. assert (A0 : Forall (T false) a). { apply Forall_forall. intros x Hx. rewrite Forall_forall in S1. apply S1. now apply (filterO_incl _ _ _ H1). }
    minv E. apply (add_t false) in H2; [|constructor|exact A0]. minv E. apply (add_t false) in H3; [|assumption..]. minv E. apply (add_t false) in H4; [|assumption..].
    minv E. apply (add_t false) in H5; [|assumption..]. minv E. apply (add_t false) in H6; [|assumption..].
    destruct a4 as [|x l]; [minv E; now subst|]. minv E. minv E. minv H7. subst.
    apply (t_mapR false fix_entry) in H7; [|intros y y' Hy E1; exact (t_fix_entry false y y' Hy E1)|exact H6]. rewrite map_clone. apply of_attr; [exact H0|now apply t_array].
  Qed.
  Lemma finish_enum_t : forall d e e' w, t_data false d -> of false KEnum e -> finish_enum d e = ret (e', w) -> of false KEnum e'.
  Proof.
    intros d e e' w S H E. unfold finish_enum in E. minv E. apply save_enum_t in H0; [|exact S|exact H]. destruct S as (S1 & S2 & S3 & S4 & S5). apply merge_t in S4.
    assert (G : of false KEnum (set_samples (map enum_of (fst (merge_infos (samples d)))) a)).
    { apply of_samples; [exact H0|]. apply Forall_map. eapply Forall_impl; [|exact S4]. intros x Hx. now apply t_enum. }
    unfold set_enum_default in E. destruct (defaults d) as [|[v p] l] eqn:Ed; [minv E; now subst|]. minv E. minv E. subst. apply of_attr; [exact G|]. apply merge_t in S3. rewrite Forall_forall in S3.
    destruct (rev (fst (merge_infos ((v, p) :: l)))) as [|x t] eqn:R; [apply t_empty; cbn; auto 10|]. apply t_enum. apply S3. apply in_rev. rewrite R. now left.
  Qed.

  (** * Members *)
  Definition typed (k : kind) (t : type_def) : Prop := symbol_of (t_name (td_spec t)) = ""%string \/ fits k (symbol_of (t_name (td_spec t))).
  Lemma of_type : forall b k e t, typed k t -> of b k e -> of b k (set_element_type e t).
  Proof.
    intros b k e t [F|F] [S K]; unfold set_element_type; unfold symbol_of in F; [rewrite F; now split|]. destruct (String.eqb _ ""); [now split|]. split; [apply t_named; [exact S|now rewrite K]|now destruct e].
  Qed.
  Lemma of_empty : forall b k, value_kind k -> of b k (make_empty k).
  Proof. intros b k H. split; [now apply t_empty|apply empty_kind]. Qed.
  Lemma of_start : forall b k m, value_kind k -> typed k (vd_type (m_value m)) -> of b k (start_value k m).
  Proof. intros b k m V Ty. apply of_attach, of_type; [exact Ty|now apply of_empty]. Qed.
  Lemma element_from_value_t : forall b k m v w, value_kind k -> typed k (vd_type (m_value m)) -> Forall plain (t_nested (td_spec (vd_type (m_value m)))) ->
    Forall (section_t (match k with KEnum => false | _ => b end)) (m_sections m) -> element_from_value fuel r k m = ret (v, w) -> of b k (fst v).
  Proof.
    intros b k m v w V Ty P S H. assert (C : is_primitive k = true \/ k = KEnum \/ (k = KArray \/ k = KObject)) by (destruct V as [<-|[<-|[<-|[<-|[<-|[<-|[]]]]]]]; tauto).
    destruct C as [Q|[->|L]].
    - assert (X : element_from_value fuel r k m = value_of_text k m) by (destruct k; now cbn). rewrite X in H. unfold value_of_text in H. minv H. minv H. minv H. minv H. subst. cbn [fst].
      apply (finish_text_t b) in H2; [exact H2|exact Q|]. now apply of_start.
    - cbn [element_from_value] in H. unfold value_of_enum in H. minv H. minv H. minv H. minv H. subst. cbn [fst].
      assert (G : of false KEnum a1). { apply finish_enum_t in H2; [exact H2| |now apply of_start]. apply (extract_sections_t false) in H1; [exact H1|apply fetch_enum_t|exact S|].
        apply (extract_value_t false) in H0; [exact H0|apply value_enum_t|intros; eapply extract_definition_t; eassumption]. }
      destruct G as [G1 G2]. split; [now apply t_more|exact G2].
    - replace (element_from_value fuel r k m) with (value_of_list fuel r k m) in H by (destruct L as [->| ->]; reflexivity).
      assert (S' : Forall (section_t b) (m_sections m)) by (destruct L as [->| ->]; exact S).
      unfold value_of_list in H. minv H. minv H. minv H. minv H. subst. cbn [fst]. apply (finish_list_t b) in H2; [exact H2|exact L| |now apply of_start].
      apply (extract_sections_t b) in H1; [exact H1|apply fetch_elements_t|exact S'|]. apply (extract_value_t b) in H0; [exact H0|apply value_elements_t|intros; eapply extract_definition_t; eassumption].
  Qed.
  Lemma property_key_t : forall b n key w, plain_key n -> property_key fuel r n = ret (key, w) -> of b KString key /\ ename key = "string"%string /\ (forall k v, In (k, v) (eattrs key) -> k = "sourceMap"%string).
  Proof.
    intros b n key w P H. unfold property_key in H. minv H. minv H. subst.
    assert (Z : of b KString (make_empty KString) /\ ename (make_empty KString) = "string"%string /\ eattrs (make_empty KString) = []) by (split; [apply of_empty; cbn; auto 10|now split]).
    assert (St : forall e s, of b KString e /\ ename e = "string"%string /\ eattrs e = [] -> of b KString (eset e (DString s)) /\ ename (eset e (DString s)) = "string"%string /\ eattrs (eset e (DString s)) = []).
    { intros e s (E1 & E2 & E3). split; [apply of_set; [exact E1|reflexivity|constructor|exact I]|]. destruct e. now split. }
    assert (G : of b KString a /\ ename a = "string"%string /\ eattrs a = []).
    { destruct (value_empty (p_variable n)); [minv H0; subst; exact Z|]. minv H0. minv H0.
      assert (A : of b KString a1 /\ ename a1 = "string"%string /\ eattrs a1 = []).
      { destruct (def_empty _); [minv H1; subst; exact Z|]. minv H1. destruct a2; [|discriminate]. minv H1. subst. unfold set_element_type. unfold plain_key, symbol_of in P. rewrite P. exact Z. }
      minv H0. subst. destruct (vd_values (p_variable n)); [exact A|now apply St]. }
    assert (G2 : of b KString (if String.eqb (p_literal n) "" then a else eset a (DString (p_literal n))) /\ ename (if String.eqb (p_literal n) "" then a else eset a (DString (p_literal n))) = "string"%string /\ eattrs (if String.eqb (p_literal n) "" then a else eset a (DString (p_literal n))) = []).
    { destruct (String.eqb (p_literal n) ""); [exact G|now apply St]. }
    destruct G2 as (G1 & G2 & G3). split; [now apply of_attach|]. set (e := if String.eqb (p_literal n) "" then a else _) in *. clearbody e. destruct e as [en em ea eh ed]. cbn in G2, G3. subst. destruct (append_places [] (p_map n)); cbn; split; try reflexivity.
    - intros k v [].
    - intros k v [E|[]]. now injection E as <- _.
  Qed.
  Lemma valid_has : forall key, ename key = "string"%string -> (forall k v, In (k, v) (eattrs key) -> k = "sourceMap"%string) -> valid_key key = Some true -> ehas key = true.
  Proof.
    intros key N A H. unfold valid_key in H. rewrite N in H. change (is_reserved "string") with true in H. cbv iota in H. unfold find_value, find_first_sample, find_default in H.
    assert (X : forall k, k <> "sourceMap"%string -> ifind (eattrs key) k = None) by (intros k Nk; destruct (ifind (eattrs key) k) eqn:F; [apply ifind_In in F; apply A in F; contradiction|reflexivity]).
    rewrite !X in H by discriminate. destruct (ehas key); [reflexivity|discriminate].
  Qed.
  Lemma element_from_property_t : forall b k n m o w, value_kind k -> plain_key n -> typed k (vd_type (m_value m)) -> Forall plain (t_nested (td_spec (vd_type (m_value m)))) ->
    Forall (section_t (match k with KEnum => false | _ => b end)) (m_sections m) -> element_from_property fuel r k n m = ret (Some o, w) -> T b o.
  Proof.
    intros b k n m o w V Pk Ty P S H. unfold element_from_property in H. minv H. apply (property_key_t b) in H0; [|exact Pk]. destruct H0 as (K1 & K2 & K3). minv H. minv H0. minv H0.
    destruct a0; [|minv H; discriminate]. apply valid_has in H0; [|exact K2|exact K3]. minv H. apply (element_from_value_t b) in H1; [|assumption..]. minv H. injection H as <-.
    destruct K1 as [K1 K1'], H1 as [V1 V2]. assert (G : of b KMember (make_element (DMember (Some a) (Some (fst a0))))).
    { split; [|reflexivity]. apply t_make; [discriminate|cbn; constructor; [exact K1|constructor; [exact V1|constructor]]|]. cbn. rewrite K2. now split. }
    assert (R : of b KMember (set_description (set_type_attributes (if value_empty (p_variable n) then make_element (DMember (Some a) (Some (fst a0))) else set_attrs (make_element (DMember (Some a) (Some (fst a0)))) (iset (eattrs (make_element (DMember (Some a) (Some (fst a0))))) "variable" (make_element (DBoolean true)))) (td_attrs (vd_type (m_value m)))) (description_to_refract (property_descriptions m)))); [|apply R].
    apply of_description, of_type_attributes. destruct (value_empty _); [exact G|]. apply of_attr; [exact G|]. apply t_make; [discriminate|constructor|exact I].
  Qed.
  Lemma element_of_value_t : forall b k m o w, value_kind k -> typed k (vd_type (m_value m)) -> Forall plain (t_nested (td_spec (vd_type (m_value m)))) ->
    Forall (section_t (match k with KEnum => false | _ => b end)) (m_sections m) -> element_of_value fuel r k m = ret (Some o, w) -> T b o.
  Proof.
    intros b k m o w V Ty P S H. unfold element_of_value in H. minv H. minv H. injection H as <-. apply (element_from_value_t b) in H0; [|assumption..].
    apply (of_description b k). now apply of_type_attributes.
  Qed.

  Lemma type_typed : forall t b k, plain (t_name (td_spec t)) -> resolve_type fuel r (td_spec t) = ret b -> (b <> UndefinedTN -> k = kind_of b) -> typed k t.
  Proof.
    intros t b k P H K. unfold typed. destruct (type_fits _ _ P H) as [E|[F X]]; [now left|right]. intros R p Q. assert (N : b <> UndefinedTN) by (apply X; [exact R|now rewrite Q]). rewrite (K N). now apply F.
  Qed.
  Lemma enum_resolved : forall t, resolve_type fuel r (td_spec t) = ret EnumTN -> of_enumeration enu t.
  Proof.
    intros t H. unfold resolve_type in H. unfold of_enumeration, symbol_of. destruct (n_base (t_name (td_spec t))) eqn:B; try discriminate; [|now left].
    destruct (String.eqb _ ""); [discriminate|]. unfold root_ancestor in H. destruct (FindRootAncestor _ _ _) as [[e|]|] eqn:F; cbn in H; try discriminate. right. exists e. split; [exact F|]. injection H as H.
    destruct (ekind e); try discriminate. split; [reflexivity|cbn; auto 10].
  Qed.
  Definition holds_t (x : melement) : Prop := forall b, decent reg enu b x -> conv_t b (fst (convert fuel r x)) /\ forall o w, snd (convert fuel r x) = ret (o, w) -> T b o.
  Lemma conv_more : forall b c, conv_t false c -> conv_t b c.
  Proof. intros b c H d o w E. apply t_more. now apply (H d o w). Qed.
  Lemma sections_hold : forall b t k (l : list (msection melement)), (k = KEnum -> of_enumeration enu t \/ forall s, In s l -> sc_class s <> MemberTypeClass) ->
    all_sections holds_t l -> (forall s x, In s l -> In x (sc_elements s) -> exists b', decent reg enu b' x /\ (b' = true -> b = true /\ sc_class s = MemberTypeClass /\ ~ of_enumeration enu t)) ->
    Forall (section_t (match k with KEnum => false | _ => b end)) (map (section_map (fun x => fst (convert fuel r x))) l).
  Proof.
    intros b t k l HK HL HD. unfold all_sections in HL. rewrite Forall_forall in HL. apply Forall_map, Forall_forall. intros s Hs. unfold section_t, section_map. cbn [sc_class sc_elements]. apply Forall_map, Forall_forall. intros x Hx.
    destruct (HD s x Hs Hx) as (b' & D & Q). assert (HX := HL s Hs). rewrite Forall_forall in HX. specialize (HX x Hx b' D). destruct HX as [HX _].
    destruct b'; [|now apply conv_more]. destruct (Q eq_refl) as (-> & C & E). rewrite C. cbn [in_class]. destruct k; try exact HX. exfalso. destruct (HK eq_refl) as [G|G]; [now apply E|now apply (G s)].
  Qed.
  Lemma chosen : forall m name d t (l : list (msection melement)) f, resolve_type fuel r (td_spec t) = ret name -> m_sections m = map (section_map f) l -> choose_kind name d m = KEnum -> of_enumeration enu t \/ forall s, In s l -> sc_class s <> MemberTypeClass.
  Proof.
    intros m name d t l f H M C. unfold choose_kind in C. destruct name; try discriminate C; [right|left; now apply enum_resolved].
    destruct (1 <? _)%nat; [discriminate|]. destruct (_ || existsb _ _)%bool eqn:E; [discriminate|]. apply Bool.orb_false_iff in E as [_ E]. intros s Hs Q. rewrite M in E.
    assert (X : existsb (fun s : msection conv => match sc_class s with MemberTypeClass => true | _ => false end) (map (section_map f) l) = true); [|congruence].
    apply existsb_exists. exists (section_map f s). split; [now apply in_map|]. cbn. now rewrite Q.
  Qed.
  Lemma as_option_t : forall b (c : M (option element)), (forall o w, c = ret (Some o, w) -> T b o) -> forall o w, mbind c (fun o => mret (option_of o)) = ret (o, w) -> T b o.
  Proof.
    intros b c Hc o w H. minv H. minv H. subst. unfold option_of. apply t_make; [discriminate| |exact I]. destruct a as [e|]; [|constructor]. cbn. constructor; [now apply (Hc e w0)|constructor].
  Qed.
  Lemma member_t : forall b m d invoke o w, simple_type (vd_type (m_value m)) -> all_sections holds_t (m_sections m) ->
    (forall s x, In s (m_sections m) -> In x (sc_elements s) -> exists b', decent reg enu b' x /\ (b' = true -> b = true /\ sc_class s = MemberTypeClass /\ ~ of_enumeration enu (vd_type (m_value m)))) ->
    (forall k o w, value_kind k -> typed k (vd_type (m_value m)) -> Forall plain (t_nested (td_spec (vd_type (m_value m)))) ->
       Forall (section_t (match k with KEnum => false | _ => b end)) (m_sections (member_map (fun x => fst (convert fuel r x)) m)) -> invoke k = ret (Some o, w) -> T b o) ->
    member_to_refract fuel r d (member_map (fun x => fst (convert fuel r x)) m) invoke = ret (Some o, w) -> T b o.
  Proof.
    intros b m d invoke o w [P1 P2] L D K H. unfold member_to_refract in H. minv H. minv H. minv H0. cbn [m_value member_map] in *.
    apply K in H; [exact H|apply choose_kind_value| |exact P2|].
    - apply (type_typed _ a); [exact P1|exact H0|]. intros N. unfold choose_kind. destruct a; try reflexivity. contradiction.
    - cbn [m_sections member_map]. apply (sections_hold b (vd_type (m_value m))); [|exact L|exact D]. exact (chosen (member_map (fun x => fst (convert fuel r x)) m) a d (vd_type (m_value m)) (m_sections m) (fun x => fst (convert fuel r x)) H0 eq_refl).
  Qed.
  Lemma mixin_t : forall t o w, good_mixin reg (t_name (td_spec t)) -> mixin_to_apie t = ret (Some o, w) -> T true o.
  Proof.
    intros t o w D H. unfold good_mixin in D. unfold mixin_to_apie in H. minv H. minv H. minv H0. injection H as <-.
    assert (X : a <> ""%string /\ rfind r a <> None).
    { unfold apie_symbol in H0. destruct (name_empty _); [discriminate|]. destruct (symbol_empty _); [|injection H0 as <-; destruct D; [discriminate|assumption]].
      destruct Con as (C & _). destruct (n_base (t_name (td_spec t))); try discriminate; injection H0 as <-; (split; [discriminate|]); [apply (C BooleanTN)|apply (C StringTN)|apply (C NumberTN)|apply (C ArrayTN)|apply (C EnumTN)|apply (C ObjectTN)]; discriminate. }
    apply (t_attr true (make_element (DRef a)) "path" (str_elem "content")); [|apply t_str]. apply t_make; [discriminate|constructor|]. now split.
  Qed.
  Lemma select_t : forall b l es w, l <> [] -> Forall holds_t l -> Forall (decent reg enu b) l -> mapM (fun x => snd (convert fuel r x)) l = ret (es, w) -> T b (select_of es).
  Proof.
    intros b l es w N F D H. apply mapM_ret in H as (rs & R & -> & _).
    assert (G : Forall (T b) (map fst rs)).
    { clear N. induction R as [|x [e w'] l rs E R IH]; [constructor|]. inversion F as [|? ? Fx Fl]; inversion D as [|? ? Dx Dl]; subst. cbn. constructor; [now apply (Fx b Dx) in E|now apply IH]. }
    destruct R as [|x [e w'] l rs E R]; [contradiction|]. cbn [map select_of]. apply t_make; [discriminate|exact G|reflexivity].
  Qed.
  Theorem convert_t : forall x, holds_t x.
  Proof.
    apply melement_ind'.
    - intros b D. inversion D.
    - intros n m L b D. inversion D as [? ? ? Pk Pt Ps| | | |]; subst.
      assert (C : conv_t b (fst (convert fuel r (MProperty n m)))).
      { intros d o w H. cbn [convert fst] in H. apply (member_t b) in H; [exact H|exact Pt|exact L|exact Ps|]. intros k o' w' V Ty P S E. now apply (element_from_property_t b) in E. }
      split; [exact C|]. cbn [convert snd]. apply as_option_t. intros o w. apply (C StringTN).
    - intros m L b D. inversion D as [|? ? Pt Ps| | |]; subst.
      assert (C : conv_t b (fst (convert fuel r (MValue m)))).
      { intros d o w H. cbn [convert fst] in H. apply (member_t b) in H; [exact H|exact Pt|exact L|exact Ps|]. intros k o' w' V Ty P S E. now apply (element_of_value_t b) in E. }
      split; [exact C|]. cbn [convert snd]. apply as_option_t. intros o w. apply (C StringTN).
    - intros t b D. inversion D as [| |? Q| |]; subst.
      assert (C : conv_t true (fst (convert fuel r (MMixin t)))) by (intros d o w H; now apply mixin_t in H).
      split; [exact C|]. cbn [convert snd]. apply as_option_t. intros o w. apply (C StringTN).
    - intros l F b D. inversion D as [| | |? ? N Q|]; subst. cbn [convert]. cbv zeta. cbn [fst snd]. split.
      + intros d o w H. cbv beta in H. minv H. minv H0. minv H0. minv H. injection H as <-. subst. now apply (select_t b l a0 w2).
      + intros o w H. minv H. minv H0. minv H0. minv H. subst. unfold option_of. apply t_make; [discriminate| |exact I]. constructor; [|constructor]. now apply (select_t b l a0 w2).
    - intros l F b D. inversion D as [| | | |? ? Q]; subst. cbn [convert fst snd]. split; [intros d o w H; discriminate|].
      intros o w H. minv H. minv H. subst. apply (sections_t b) in H0.
      + apply t_make; [discriminate|exact H0|exact I].
      + apply Forall_map. rewrite Forall_forall in *. intros x Hx. exact (proj1 (F x Hx b (Q x Hx))).
  Qed.

  (** * Data structures *)
  Lemma start_t : forall b k s, value_kind k -> typed k (ds_type s) -> of b k (start_structure k s).
  Proof.
    intros b k s V Ty. unfold start_structure. apply of_type_attributes, of_attach.
    assert (G : of b k (set_element_type (make_empty k) (ds_type s))) by (apply of_type; [exact Ty|now apply of_empty]). destruct (String.eqb _ ""); [exact G|].
    destruct G as [S K]. split; [|now destruct (set_element_type _ _)]. apply t_meta; [exact S|apply t_attach, t_str].
  Qed.
  Theorem structure_t : forall s e w, decent_structure reg enu s -> structure_to_refract fuel r s = ret (Some e, w) -> T true e.
  Proof.
    intros s e w [[P1 P2] D] H. unfold structure_to_refract in H. destruct (structure_empty s); [discriminate|].
    minv H. minv H0. minv H. minv H. injection H as <-. rename a0 into e.
    assert (Ty : typed (kind_of a) (ds_type s)) by (apply (type_typed _ a); [exact P1|exact H0|reflexivity]).
    assert (V := kind_of_value a).
    assert (S : Forall (section_t (match kind_of a with KEnum => false | _ => true end)) (map (section_map (to_apie fuel r)) (ds_sections s))).
    { apply (sections_hold true (ds_type s)).
      - intros K. left. apply enum_resolved. destruct a; try discriminate K. exact H0.
      - unfold all_sections. apply Forall_forall. intros c _. apply Forall_forall. intros x _. apply convert_t.
      - intros c x Hc Hx. destruct (D c x Hc Hx) as (b & Db & Q). exists b. split; [exact Db|]. intros ->. now destruct (Q eq_refl). }
    assert (B : forall b k l, value_kind k -> typed k (ds_type s) -> of b k (set_description (start_structure k s) (description_to_refract l))).
    { intros b k l Hk Hy. apply of_description. now apply start_t. }
    assert (X : forall b fetch d d' w, fetches b fetch -> Forall (section_t b) (map (section_map (to_apie fuel r)) (ds_sections s)) ->
      forall d0 w0, extract_definition fuel r (ds_type s) (ds_type_map s) no_data = ret (d0, w0) -> d = d0 ->
      foldW (extract_section false fetch) d (map (section_map (to_apie fuel r)) (ds_sections s)) = ret (d', w) -> t_data b d').
    { intros b fetch d d' w' Hf Sb d0 w9 E9 -> G. apply (extract_sections_t b) in G; [exact G|exact Hf|exact Sb|].
      apply (extract_definition_t b) in E9; [exact E9|exact P2|apply no_data_t]. }
    destruct (kind_of a) eqn:K; try (destruct a; discriminate).
    all: unfold structure_of in H1; minv H1; minv H1.
    1,2,3: apply (finish_text_t true) in H1; [now destruct H1|reflexivity|now apply B].
    - apply (finish_list_t true) in H1; [now destruct H1|now left| |now apply B]. eapply (X true (fetch_elements _)); [apply fetch_elements_t|exact S|eassumption|reflexivity|eassumption].
    - apply (finish_list_t true) in H1; [now destruct H1|now right| |now apply B]. eapply (X true (fetch_elements _)); [apply fetch_elements_t|exact S|eassumption|reflexivity|eassumption].
    - apply finish_enum_t in H1; [apply t_more; now destruct H1| |now apply B]. eapply (X false (fetch_enum _)); [apply fetch_enum_t|exact S|eassumption|reflexivity|eassumption].
  Qed.
  Theorem structure_tame : forall s e w, decent_structure reg enu s -> structure_to_refract fuel r s = ret (Some e, w) -> everywhere (tame_piece r) e.
  Proof. intros s e w D H x Hx. now apply (structure_t s e w D H x Hx). Qed.
End Tame.
