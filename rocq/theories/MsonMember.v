(** What value members, property members and data structures become *)
From Verif Require Import Base Element ElementSpec ElementProofs InfoProofs Extend Registry RegistryProofs Expand ElementUtils SourceMap
  JsonSpec SerializeSpec TypeTables Mson MsonSpec MsonProofs MsonSane MsonShape MsonAlike MsonEnum.

(** * Sections of the tree and of the thunks *)
Lemma of_class_map : forall A B (f : A -> B) c l, of_class c (map (section_map f) l) = map (section_map f) (of_class c l).
Proof.
  intros A B f c l. unfold of_class. induction l as [|s l IH]; [reflexivity|]. cbn [map filter]. unfold section_map at 1. cbn [sc_class].
  destruct (same_class c (sc_class s)); cbn [map]; now rewrite IH.
Qed.
Lemma written_map : forall A B (f : A -> B) l, filter written (map (section_map f) l) = map (section_map f) (filter written l).
Proof.
  intros A B f l. induction l as [|s l IH]; [reflexivity|]. cbn [map filter].
  replace (written (section_map f s)) with (written s) by (unfold written, section_map; cbn; destruct (sc_value s), (sc_elements s); reflexivity).
  destruct (written s); cbn [map]; now rewrite IH.
Qed.
Lemma blocks_map : forall A B (f : A -> B) l, map fst (block_texts (map (section_map f) l)) = blocks l.
Proof. intros A B f l. unfold block_texts, blocks. rewrite of_class_map, !map_map. reflexivity. Qed.

Lemma fix_literal_version : forall e e', sane e -> fix_literal e = ret e' -> fixed_version e e'.
Proof.
  intros e e' S H. assert (G : fix_entry e = ret e'); [|now apply fix_entry_version].
  unfold fix_literal in H. unfold fix_entry. minv H. rewrite H0. cbn. destruct a; [|exact H]. minv H. 
  unfold set_fixed in H. unfold append_fixed. destruct (ifind (eattrs e) "typeAttributes") as [v|] eqn:E; [|injection H as <-; reflexivity].
  apply sane_ifind in E as [V O]; [|exact S]. apply type_attributes_ok in O as (Hh & l & Hd & F). destruct v as [n m a h d]. cbn in Hh, Hd. subst.
  replace (any_string "fixed" l) with (Some (existsb (type_entry "fixed") l)); [destruct (existsb _ l); injection H as <-; reflexivity|].
  clear -F. induction F as [|[n m a h d] l (Hh & s & Hs & _) F IH]; [reflexivity|]. cbn in Hh, Hs. subst. cbn [existsb type_entry any_string edata ehas].
  rewrite <- IH. now destruct (String.eqb s "fixed").
Qed.
Lemma mapR_fixed : forall l l', Forall sane l -> mapR fix_literal l = ret l' -> Forall2 fixed_version l l'.
Proof.
  intros l l' S H. apply mapR_ret in H. induction H as [|x y l l' E R IH]; [constructor|]. inversion S; subst. constructor; [now apply fix_literal_version|auto].
Qed.

Section Members.
  Context (fuel : nat) (r : registry).
  Notation thunk := (member_map (to_apie fuel r)).
  Notation secs := (map (section_map (to_apie fuel r))).

  Lemma sections_gives : forall d (l : list melement) es w, sections_to_apie d (map (to_apie fuel r) l) = ret (es, w) ->
    exists os, Forall2 (converts fuel r d) l os /\ es = somes os.
  Proof.
    intros d l es w H. unfold sections_to_apie in H. minv H. minv H. subst. apply mapM_ret in H0 as (rs & R & -> & _). exists (map fst rs). split; [|reflexivity].
    remember (map (to_apie fuel r) l) as L eqn:HL. revert l HL. induction R as [|c [o w'] L rs Ex R IH]; intros l HL.
    - destruct l; [constructor|discriminate].
    - destruct l as [|x l]; [discriminate|]. cbn in HL. injection HL as -> ->. constructor; [now exists w'|now apply IH].
  Qed.
  Lemma picked_elements : forall d l vs, picked (fetch_elements d) (secs l) vs -> Forall2 (section_gives fuel r d) l (map fst vs).
  Proof.
    intros d l vs H. remember (secs l) as L eqn:HL. revert l HL. induction H as [|s [v p] L vs [(w & Ex) _] R IH]; intros l HL.
    - destruct l; [constructor|discriminate].
    - destruct l as [|x l]; [discriminate|]. cbn in HL. injection HL as -> ->. cbn. constructor; [|now apply IH]. now apply sections_gives in Ex.
  Qed.
  Lemma picked_enum : forall d l vs, picked (fetch_enum d) (secs l) vs -> Forall2 (section_fixed fuel r d) l (map fst vs).
  Proof.
    intros d l vs H. remember (secs l) as L eqn:HL. revert l HL. induction H as [|s [v p] L vs [(w & Ex) _] R IH]; intros l HL.
    - destruct l; [constructor|discriminate].
    - destruct l as [|x l]; [discriminate|]. cbn in HL. injection HL as -> ->. cbn. constructor; [|now apply IH]. clear IH R.
      unfold fetch_enum in Ex. minv Ex. minv Ex. cbn [fst] in *. assert (G := H). apply sections_gives in G. exists a. split; [exact G|]. apply mapR_fixed; [|exact Ex].
      apply sections_sane in H; [exact H|]. apply Forall_map, Forall_forall. intros y _. apply convert_sane.
  Qed.
  (** the warnings of the sections *)
  Lemma elements_report : forall d (l : list melement) es w, sections_to_apie d (map (to_apie fuel r) l) = ret (es, w) ->
    exists ws, Forall2 (reports fuel r d) l ws /\ w = concat ws.
  Proof.
    intros d l es w H. unfold sections_to_apie in H. apply mbind_ret in H as (os & w0 & w1 & H0 & H & ->). apply mret_ret in H as [<- ->]. rewrite app_nil_r.
    apply mapM_ret in H0 as (rs & R & _ & ->). exists (map snd rs). split; [|reflexivity].
    remember (map (to_apie fuel r) l) as L eqn:HL. revert l HL. induction R as [|c [o w'] L rs Ex R IH]; intros l HL.
    - destruct l; [constructor|discriminate].
    - destruct l as [|x l]; [discriminate|]. cbn in HL. injection HL as -> ->. constructor; [now exists o|now apply IH].
  Qed.
  Lemma fold_reports : forall d fetch l (d0 d1 : data (list element)) w,
    (forall (s : msection melement) v w, fetch (section_map (to_apie fuel r) s) = ret (v, w) -> section_reports fuel r d s w) ->
    foldW (extract_section false fetch) d0 (secs l) = ret (d1, w) -> sections_report fuel r d l w.
  Proof.
    intros d fetch l d0 d1 w F. revert d0 w. unfold sections_report, read_sections. induction l as [|s l IH]; intros d0 w H; cbn [map foldW] in H.
    - apply mret_ret in H as [_ ->]. exists []. now split; [constructor|].
    - apply mbind_ret in H as (d2 & w0 & w1 & H0 & H & ->). apply IH in H as (ws & R & ->). cbn [filter]. unfold extract_section in H0. rewrite has_content_written in H0.
      replace (written (section_map (to_apie fuel r) s)) with (written s) in H0 by (unfold written, section_map; cbn; destruct (sc_value s), (sc_elements s); reflexivity).
      unfold section_map at 1 in H0. cbn [sc_class] in H0.
      assert (G : forall f, mbind (fetch (section_map (to_apie fuel r) s)) (fun v => mret (f v)) = ret (d2, w0) -> section_reports fuel r d s w0).
      { intros f G. apply mbind_ret in G as (v & w2 & w3 & G & X & ->). apply mret_ret in X as [_ ->]. rewrite app_nil_r. now apply F in G. }
      destruct (sc_class s).
      + discriminate.
      + apply mret_ret in H0 as [_ ->]. now exists ws.
      + apply G in H0. exists (w0 :: ws). now split; [constructor|].
      + destruct (written s); [apply G in H0; exists (w0 :: ws); now split; [constructor|]|]. apply mret_ret in H0 as [_ ->]. now exists ws.
      + destruct (written s); [apply G in H0; exists (w0 :: ws); now split; [constructor|]|]. apply mret_ret in H0 as [_ ->]. now exists ws.
  Qed.
  Lemma list_reports : forall d l (d0 d1 : data (list element)) w, foldW (extract_section false (fetch_elements d)) d0 (secs l) = ret (d1, w) -> sections_report fuel r d l w.
  Proof. intros d l d0 d1 w. apply fold_reports. intros s v w' H. now apply elements_report in H. Qed.
  Lemma enum_reports : forall d l (d0 d1 : data (list element)) w, foldW (extract_section false (fetch_enum d)) d0 (secs l) = ret (d1, w) -> sections_report fuel r d l w.
  Proof.
    intros d l d0 d1 w. apply fold_reports. intros s v w' H. unfold fetch_enum in H. apply mbind_ret in H as (es & w2 & w3 & H & X & ->). apply quiet_ret in X as [_ ->]. rewrite app_nil_r.
    now apply elements_report in H.
  Qed.
  Lemma picked_text : forall (l : list (msection melement)) vs, picked fetch_text (secs l) vs -> vs = section_texts l.
  Proof.
    intros l vs H. remember (secs l) as L eqn:HL. revert l HL. induction H as [|s [v p] L vs [(w & Ex) Hp] R IH]; intros l HL.
    - now destruct l.
    - destruct l as [|x l]; [discriminate|]. cbn in HL. injection HL as -> ->. cbn. rewrite (IH l eq_refl). unfold fetch_text in Ex. minv Ex. cbn in *. subst. reflexivity.
  Qed.
  Lemma secs_sane : forall l, Forall section_sane (secs l).
  Proof. intros l. apply Forall_map, Forall_forall. intros x _. unfold section_sane. cbn. apply Forall_map, Forall_forall. intros y _. apply convert_sane. Qed.

  (** * The element a value starts from *)
  Lemma start_value_shape : forall k (m : mmember conv), fresh_element (start_value k m) /\ ename (start_value k m) = label (vd_type (m_value m)) k /\
    emeta (start_value k m) = [] /\ (forall x, attr (start_value k m) x = if String.eqb "sourceMap" x then map_attribute (m_map m) else None).
  Proof.
    intros k m. unfold start_value, set_element_type, label, type_literal, fresh_element.
    set (e := if String.eqb _ "" then make_empty k else set_name (make_empty k) _).
    assert (E : ehas e = false /\ eattrs e = [] /\ emeta e = [] /\ ename e = (if String.eqb (s_literal (n_symbol (t_name (td_spec (vd_type (m_value m)))))) "" then kind_name k
      else s_literal (n_symbol (t_name (td_spec (vd_type (m_value m))))))).
    { unfold e. destruct (String.eqb _ ""); now destruct k. }
    clearbody e. destruct E as (E1 & E2 & E3 & E4).
    assert (A : forall x, attr (attach e (m_map m)) x = if String.eqb "sourceMap" x then map_attribute (m_map m) else None).
    { intros x. unfold attach, map_attribute. destruct (m_map m) as [|q p]; [unfold attr; rewrite E2; now destruct (String.eqb "sourceMap" x)|].
      rewrite attr_set. unfold attr. rewrite E2. reflexivity. }
    rewrite !A. split; [|split; [|split; [|exact A]]].
    - split; [|now repeat split]. destruct (m_map m); [exact E1|now destruct e].
    - destruct (m_map m); [exact E4|now destruct e].
    - destruct (m_map m); [exact E3|now destruct e].
  Qed.
  Lemma nested_of_default : forall (m : mmember conv), nested_of m = nested_default (vd_type (m_value m)).
  Proof. intros m. unfold nested_of, select_nested, nested_default, entry_kind. destruct (t_nested _) as [|n [|? ?]]; try reflexivity. now destruct (n_base n). Qed.

  (** * Values of lists *)
  Definition own_texts (m : mmember melement) : list (string * places) :=
    if object_base (m_value m) then [] else own_description (thunk m).
  Lemma list_data : forall vc fetch m d w, (forall x w, fetch (thunk m) = ret (x, w) -> w = []) ->
    extract_value vc fetch (extract_definition fuel r (vd_type (m_value m)) []) (thunk m) = ret (d, w) ->
    exists xs hs wh, member_hints fuel r (m_value m) hs wh /\ w = (missing_warnings m ++ wh)%list /\
      (match inline_values (m_value m) with [] => xs = [] | _ => exists x wf, fetch (thunk m) = ret (x, wf) /\ xs = [x] end) /\
      concat (map fst (hints d)) = hs /\ values d = [] /\ descriptions d = own_texts m /\
      (let u := use_of vc (m_value m) in
       map fst (inlines d) = if_use AsValue u xs /\ map fst (defaults d) = if_use AsDefault u xs /\ map fst (samples d) = if_use AsSample u xs).
  Proof.
    intros vc fetch m d w Q H. apply extract_value_data in H. unfold own_texts, member_hints, inline_values, missing_warnings. cbn [member_map m_value] in *.
    assert (Hi : object_base (m_value m) = true -> hinted (m_value m) = false) by (unfold hinted; now intros ->).
    destruct (object_base (m_value m)) eqn:O.
    - destruct H as [-> ->]. exists [], [], []. rewrite Hi by reflexivity. unfold use_of, inline_values. rewrite O. now repeat split.
    - destruct H as (xs & ws & wd & Hx & Hd & ->). cbv zeta in Hd. unfold missing_warnings in Hx. cbn [member_map m_value m_map] in Hx. rewrite O in Hx.
      set (d0 := Data _ _ _ _ _ _) in Hd.
      assert (G : exists hs, (if hinted (m_value m) then nested_hints fuel r (vd_type (m_value m)) [] hs wd else hs = [] /\ wd = []) /\
        concat (map fst (hints d)) = hs /\ inlines d = inlines d0 /\ values d = values d0 /\ defaults d = defaults d0 /\ samples d = samples d0 /\ descriptions d = descriptions d0).
      { destruct (hinted (m_value m)).
        - apply hints_of_definition in Hd as (hs & Hh & ->). exists hs. split; [exact Hh|]. cbn. rewrite app_nil_r. now repeat split.
        - destruct Hd as [-> ->]. exists []. now repeat split. }
      destruct G as (hs & G1 & G2 & G3 & G4 & G5 & G6 & G7). exists (map fst xs), hs, wd. split; [exact G1|]. split.
      { f_equal. destruct (vd_values (m_value m)); [now destruct Hx as [_ ->]|]. destruct Hx as (x & Ex & _). now apply Q in Ex. }
      split.
      { destruct (vd_values (m_value m)); [destruct Hx as [-> _]; reflexivity|]. destruct Hx as (x & Ex & ->). now exists x, ws. }
      split; [exact G2|]. split; [exact G4|]. split; [exact G7|]. cbv zeta. rewrite G3, G5, G6. unfold d0. cbn [inlines defaults samples].
      destruct (use_of vc (m_value m)); now repeat split.
  Qed.
  Lemma value_elements_items : forall m x w, value_elements (thunk m) = ret (x, w) -> x = map (item (entry_kind (vd_type (m_value m)))) (vd_values (m_value m)).
  Proof. intros m x w H. unfold value_elements in H. minv H. subst. cbn [member_map m_value]. apply map_ext. intros v. apply item_eq. Qed.
  Lemma value_of_list_shape : forall k m e ds w, value_of_list fuel r k (thunk m) = ret ((e, ds), w) ->
    exists hs vs ss dd wh ws, member_hints fuel r (m_value m) hs wh /\ w = (missing_warnings m ++ wh ++ ws)%list /\
      sections_report fuel r (nested_default (vd_type (m_value m))) (m_sections m) ws /\
      Forall2 (section_gives fuel r (nested_default (vd_type (m_value m)))) (members (m_sections m)) vs /\
      Forall2 (section_gives fuel r (nested_default (vd_type (m_value m)))) (sample_sections (m_sections m)) ss /\
      Forall2 (section_gives fuel r (nested_default (vd_type (m_value m)))) (default_sections (m_sections m)) dd /\
      (let u := use_of false (m_value m) in
       let items := map (item (entry_kind (vd_type (m_value m)))) (inline_values (m_value m)) in
       holds k (hs ++ if_use AsValue u items ++ concat vs) e /\
       attr e "samples" = list_attribute (map (collected k) (if_use AsSample u [items] ++ ss)) /\
       attr e "default" = option_map (collected k) (last_of (if_use AsDefault u [items] ++ dd))) /\
      attr e "enumerations" = None /\ kept (start_value k (thunk m)) e /\ attr e "sourceMap" = map_attribute (m_map m) /\
      ds = (own_texts m ++ block_texts (secs (m_sections m)))%list.
  Proof.
    intros k m e ds w H. unfold value_of_list in H. cbn [member_map m_value m_sections] in H. minv H. minv H. minv H. minv H.
    injection H as <- <-. apply list_data in H0 as (xs & hs & wh & L1 & Lw & L2 & L3 & L4 & L5 & L6 & L7 & L8); [|intros x wf Ex; now apply mret_ret in Ex as [_ ->]].
    assert (Wr := list_reports _ _ _ _ _ H1). rewrite nested_of_default in Wr. cbn [member_map m_value] in Wr. apply sections_data in H1 as (_ & vs & ss & dd & P1 & P2 & P3 & ->). rewrite nested_of_default in P1, P2, P3. cbn [member_map m_value] in P1, P2, P3.
    unfold members in P1. unfold sample_sections in P2. unfold default_sections in P3. rewrite of_class_map in P1, P2, P3. rewrite written_map in P2, P3.
    apply picked_elements in P1, P2, P3. destruct (start_value_shape k (thunk m)) as (F & N & Me & At).
    apply finish_list_shape in H2; [|exact F]. cbn [inlines values hints samples defaults descriptions] in H2. rewrite L4 in H2. cbn [app] in H2.
    destruct H2 as (Wf & K & Sm & Ho & Sa & De & En).
    exists hs, (map fst vs), (map fst ss), (map fst dd), wh, w2. split; [exact L1|]. split; [subst; now rewrite ?app_nil_r, <- ?app_assoc|]. split; [exact Wr|]. split; [exact P1|]. split; [exact P2|]. split; [exact P3|].
    split; [|split; [exact En|split; [exact K|split; [rewrite Sm, At; reflexivity|cbn [descriptions]; now rewrite L5]]]].
    cbv zeta. rewrite L3, L6 in Ho. rewrite map_app, L8 in Sa. rewrite map_app, L7 in De.
    assert (X : match inline_values (m_value m) with [] => xs = [] | _ => xs = [map (item (entry_kind (vd_type (m_value m)))) (inline_values (m_value m))] end).
    { destruct (inline_values (m_value m)) as [|v l] eqn:I; [exact L2|]. destruct L2 as (x & wf & Ex & ->). apply value_elements_items in Ex. rewrite Ex.
      unfold inline_values in I. destruct (object_base (m_value m)); [discriminate|]. now rewrite I. }
    unfold use_of in *. destruct (inline_values (m_value m)) as [|v l].
    - subst xs. cbn [if_use app map] in *. now repeat split.
    - subst xs. destruct (N.testbit _ DefaultTA); [|destruct (N.testbit _ SampleTA)]; cbn [if_use app map concat andb] in *; rewrite ?app_nil_r in *; now repeat split.
  Qed.

  (** * Values of primitives *)
  Lemma text_sections_quiet : forall l d d' w, foldW (extract_section true fetch_text) d l = ret (d', w) -> w = [].
  Proof.
    induction l as [|s l IH]; intros d d' w H; cbn [foldW] in H; [now minv H|]. minv H. apply IH in H. subst. rewrite app_nil_r.
    unfold extract_section, fetch_text in H0. destruct (sc_class s); [discriminate|now minv H0|now minv H0| |];
      (destruct (has_content s); [minv H0; minv H; minv H0; now subst|now minv H0]).
  Qed.
  Lemma value_of_text_shape : forall k m e ds w, is_primitive k = true -> value_of_text k (thunk m) = ret ((e, ds), w) ->
    (let u := use_of true (m_value m) in
     let ss := (if_use AsSample u (inline_texts m) ++ section_texts (sample_sections (m_sections m)))%list in
     let dd := (if_use AsDefault u (inline_texts m) ++ section_texts (default_sections (m_sections m)))%list in
     (match if_use AsValue u (inline_texts m) with
      | [] => ehas e = false /\ attr e "sourceMap" = map_attribute (m_map m)
      | (s, p) :: _ => ehas e = true /\ edata e = literal_or_default k s /\
          attr e "sourceMap" = match p with [] => map_attribute (m_map m) | _ => Some (SourceMapToRefract p) end
      end) /\
     attr e "samples" = list_attribute (map (fun i => literal_element k (fst i)) ss) /\
     attr e "default" = option_map (fun i => literal_element k (fst i)) (last_of dd) /\
     w = (missing_warnings m ++ literal_warnings k (if_use AsValue u (inline_texts m) ++ ss ++ dd))%list) /\
    attr e "enumerations" = None /\ kept (start_value k (thunk m)) e /\ (object_base (m_value m) = false -> List.length (vd_values (m_value m)) <= 1) /\
    ds = (own_texts m ++ block_texts (secs (m_sections m)))%list.
  Proof.
    intros k m e ds w P H. unfold value_of_text in H. cbn [member_map m_value m_sections] in H. minv H. minv H. minv H. minv H. injection H as <- <-.
    apply extract_value_data in H0. cbn [member_map m_value] in H0.
    assert (D : exists xs, (if object_base (m_value m) then xs = [] else match vd_values (m_value m) with [] => xs = [] | [v] => xs = [(v_literal v, m_value_map m)] | _ => False end) /\
      w0 = missing_warnings m /\ a = (let u := use_of true (m_value m) in Data (if_use AsValue u xs) [] (if_use AsDefault u xs) (if_use AsSample u xs) [] (own_texts m))).
    { unfold own_texts, missing_warnings, use_of, inline_values. destruct (object_base (m_value m)) eqn:O.
      - destruct H0 as [-> ->]. exists []. now repeat split.
      - destruct H0 as (xs & ws & wd & Hx & Hd & ->). exists xs. unfold missing_warnings in Hx. cbn [member_map m_value m_map] in Hx. rewrite O in Hx.
        assert (Dd : a = Data (if_use AsValue (use_of true (m_value m)) xs) [] (if_use AsDefault (use_of true (m_value m)) xs) (if_use AsSample (use_of true (m_value m)) xs) [] (own_description (thunk m)) /\ wd = []).
        { cbv zeta in Hd. destruct (hinted (m_value m)); [|exact Hd]. apply mret_ret in Hd as [<- ->]. now split. }
        destruct Dd as [-> ->]. unfold use_of, inline_values. rewrite O. destruct (vd_values (m_value m)) as [|v [|v' l]] eqn:V.
        + destruct Hx as [-> ->]. rewrite app_nil_r. now repeat split.
        + destruct Hx as (x & Ex & ->). unfold value_text in Ex. cbn [member_map m_value] in Ex. rewrite V in Ex. apply mret_ret in Ex as [<- ->]. now repeat split.
        + destruct Hx as (x & Ex & ->). unfold value_text in Ex. cbn [member_map m_value] in Ex. rewrite V in Ex. discriminate. }
    destruct D as (xs & Hx & -> & ->). clear H0. assert (WQ := text_sections_quiet _ _ _ _ H1). apply sections_data in H1 as (_ & vs & ss & dd & P1 & P2 & P3 & ->). inversion P1; subst vs. clear P1.
    unfold sample_sections in P2. unfold default_sections in P3. rewrite of_class_map, written_map in P2, P3. apply picked_text in P2, P3.
    destruct (start_value_shape k (thunk m)) as (F & N & Me & At).
    apply finish_text_shape in H2; [|exact P|exact F|reflexivity|reflexivity]. cbn [inlines values hints samples defaults descriptions] in H2.
    destruct H2 as (W & K & Ho & Sa & De & En). cbn [app] in *.
    assert (X : inline_texts m = xs /\ (object_base (m_value m) = false -> List.length (vd_values (m_value m)) <= 1)).
    { unfold inline_texts, inline_values. destruct (object_base (m_value m)); [now split|]. destruct (vd_values (m_value m)) as [|v [|v' l]]; [now split; [|cbn; lia]|now split; [|cbn; lia]|contradiction]. }
    destruct X as [-> Le]. split; [|split; [exact En|split; [exact K|split; [exact Le|reflexivity]]]]. cbv zeta. subst ss dd. split.
    - rewrite At in Ho. exact Ho.
    - split; [exact Sa|]. split; [exact De|]. subst. cbn [app]. now rewrite app_nil_r.
  Qed.

  (** * Values of enumerations *)
  Lemma value_enum_items : forall m x w, value_enum (thunk m) = ret (x, w) ->
    Forall2 fixed_version (map (fun v => literal_element (entry_kind (vd_type (m_value m))) (v_literal v)) (vd_values (m_value m))) x.
  Proof.
    intros m x w H. unfold value_enum in H. minv H. apply mapR_ret in H. cbn [member_map m_value] in H. unfold nested_of in H. cbn [m_value] in H.
    assert (Pr := select_nested_primitive (t_nested (td_spec (vd_type (m_value m))))).
    induction H as [|v e l x Ex R IH]; [constructor|]. cbn [map]. constructor; [|exact IH].
    rewrite <- entry_kind_eq. rewrite <- create_value_eq by exact Pr. apply fix_literal_version; [apply sane_create|exact Ex].
  Qed.
  Lemma if_use_map : forall A B (f : A -> B) u u' l, map f (if_use u u' l) = if_use u u' (map f l).
  Proof. intros A B f [] [] l; reflexivity. Qed.
  Lemma value_of_enum_shape : forall m e ds w, value_of_enum fuel r (thunk m) = ret ((e, ds), w) ->
    exists hs its vs ss dd es entries wh ws w1 w2, w = (missing_warnings m ++ wh ++ ws ++ w1 ++ w2)%list /\ member_hints fuel r (m_value m) hs wh /\
      sections_report fuel r (nested_default (vd_type (m_value m))) (m_sections m) ws /\
      Forall2 fixed_version (map (fun v => literal_element (entry_kind (vd_type (m_value m))) (v_literal v)) (inline_values (m_value m))) its /\
      Forall2 (section_fixed fuel r (nested_default (vd_type (m_value m)))) (members (m_sections m)) vs /\
      Forall2 (section_fixed fuel r (nested_default (vd_type (m_value m)))) (sample_sections (m_sections m)) ss /\
      Forall2 (section_fixed fuel r (nested_default (vd_type (m_value m)))) (default_sections (m_sections m)) dd /\
      (let u := use_of true (m_value m) in
       enumeration (if_use AsValue u its) (concat vs) (if_use AsSample u its ++ concat ss) (if_use AsDefault u its ++ concat dd) hs es (List.length w1) /\
       Forall (fun a => exists p, a = duplicate_warning p) w1 /\
       (w2 = [] \/ exists p, w2 = [mson_warning "multiple definitions of 'default' value" p]) /\
       (w2 = [] <-> match (if_use AsDefault u [its] ++ dd)%list with [] | [[]] | [[_]] => True | _ => False end) /\
       Forall2 fixed_version es entries /\ attr e "enumerations" = list_attribute entries /\
       (match (match single_entry (if_use AsValue u [its]) with Some x => Some x | None => single_entry vs end) with
        | Some x => ehas e = true /\ edata e = DEnum (Some x) | None => ehas e = false end) /\
       attr e "samples" = list_attribute (map enum_element (if_use AsSample u its ++ concat ss)) /\
       attr e "default" = match (if_use AsDefault u [its] ++ dd)%list with [] => None
         | _ => Some match last_of (if_use AsDefault u its ++ concat dd) with Some x => enum_element x | None => make_empty KEnum end end) /\
      kept (start_value KEnum (thunk m)) e /\ attr e "sourceMap" = map_attribute (m_map m) /\
      ds = (own_texts m ++ block_texts (secs (m_sections m)))%list.
  Proof.
    intros m e ds w H. unfold value_of_enum in H. cbn [member_map m_value m_sections] in H. minv H. minv H. minv H. minv H.
    injection H as <- <-. assert (Sd : sane_data a0).
    { apply extract_sections_sane in H1; [exact H1|apply secs_sane|intros; eapply fetch_enum_sane; eassumption|].
      apply extract_value_sane in H0; [exact H0|apply value_enum_sane|apply extract_definition_sane]. }
    apply list_data in H0 as (xs & hs & wh & L1 & Lw & L2 & L3 & L4 & L5 & L6 & L7 & L8); [|intros x wf Ex; now apply quiet_ret in Ex as [_ ->]].
    assert (Wr := enum_reports _ _ _ _ _ H1). rewrite nested_of_default in Wr. cbn [member_map m_value] in Wr. apply sections_data in H1 as (_ & vs & ss & dd & P1 & P2 & P3 & ->). rewrite nested_of_default in P1, P2, P3. cbn [member_map m_value] in P1, P2, P3.
    unfold members in P1. unfold sample_sections in P2. unfold default_sections in P3. rewrite of_class_map in P1, P2, P3. rewrite written_map in P2, P3.
    apply picked_enum in P1, P2, P3. destruct (start_value_shape KEnum (thunk m)) as (F & N & Me & At).
    apply finish_enum_shape in H2; [|exact Sd|exact F]. cbn [inlines values hints samples defaults descriptions] in H2. rewrite L4 in H2. cbn [app] in H2.
    rewrite L3, !map_app, L6, L7, L8 in H2.
    destruct H2 as (es & entries & w1' & w2' & Ew & Q1 & Q2 & Q3 & Q4 & Q5 & Q6 & Q7 & Q8 & Q9 & Q10 & Q11).
    assert (X : exists its, Forall2 fixed_version (map (fun v => literal_element (entry_kind (vd_type (m_value m))) (v_literal v)) (inline_values (m_value m))) its /\
      match inline_values (m_value m) with [] => xs = [] | _ => xs = [its] end).
    { destruct (inline_values (m_value m)) as [|v l] eqn:I; [exists []; split; [constructor|exact L2]|]. destruct L2 as (x & wf & Ex & ->). apply value_enum_items in Ex. exists x. split; [|reflexivity].
      unfold inline_values in I. destruct (object_base (m_value m)); [discriminate|]. now rewrite I in Ex. }
    destruct X as (its & I1 & I2).
    exists hs, its, (map fst vs), (map fst ss), (map fst dd), es, entries, wh, w2, w1', w2'.
    split; [subst; rewrite ?app_nil_r, <- ?app_assoc; reflexivity|]. split; [exact L1|]. split; [exact Wr|]. split; [exact I1|]. split; [exact P1|]. split; [exact P2|]. split; [exact P3|].
    split; [|split; [exact Q10|split; [rewrite Q11, At; reflexivity|cbn [descriptions]; now rewrite L5]]].
    cbv zeta. rewrite !concat_app in *.
    assert (Dn : forall b : list (list element * places), match map (fun i : list element * places => fst i) b with [] | [[]] | [[_]] => True | _ => False end <->
      match b with [] | [([], _)] | [([_], _)] => True | _ => False end).
    { intros [|[[|? [|? ?]] ?] [|? ?]]; cbn; tauto. }
    assert (Q4' : w2' = [] <-> match (if_use AsDefault (use_of true (m_value m)) xs ++ map fst dd)%list with [] | [[]] | [[_]] => True | _ => False end).
    { rewrite Q4. rewrite <- Dn. change (map (fun i : list element * places => fst i)) with (map (@fst (list element) places)). rewrite map_app, L7. reflexivity. }
    assert (Q9' : attr a1 "default" = match (if_use AsDefault (use_of true (m_value m)) xs ++ map fst dd)%list with [] => None
      | _ => Some match last_of (concat (if_use AsDefault (use_of true (m_value m)) xs) ++ concat (map fst dd)) with Some x => enum_element x | None => make_empty KEnum end end).
    { rewrite Q9, <- L7, <- map_app. now destruct (defaults a ++ dd)%list. }
    clear Q4 Q9. unfold use_of in *. destruct (inline_values (m_value m)) as [|v l].
    - inversion I1; subst its xs. cbn [if_use app map concat] in *. now repeat (split; [assumption|]).
    - subst xs. destruct (N.testbit _ DefaultTA); [|destruct (N.testbit _ SampleTA); [|destruct (true && v_variable v)%bool]]; cbn [if_use app map concat single_entry] in *; rewrite ?app_nil_r in *;
        now repeat (split; [assumption|]).
  Qed.
End Members.
