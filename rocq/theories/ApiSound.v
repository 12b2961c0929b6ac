(** The API Elements of a document are sound *)
From Verif Require Import Base SoValue JsonIo JsonSpec SourceMap Capi Element ElementSpec SerializeSpec Extend Registry Expand JsonValue JsonSchema GenSpec Peg MediaType TypeTables Mson MsonSpec
  MsonSane MsonAlike Blueprint ApiSpec.
Local Open Scope string_scope.
Local Open Scope list_scope.

Lemma sound_intro : forall e, sound_piece e -> (forall c, In c (children e) -> sound c) -> sound e.
Proof. intros e P C x Hx. inversion Hx as [|y c e' Hc Hs]; subst; [exact P|]. now apply (C c Hc). Qed.
Lemma sane_sound : forall e, sane e -> sound e.
Proof.
  intros e S x Hx. assert (N := sane_no_null e S x Hx). destruct (S x Hx) as ((A & _) & B & C & _ & _ & D). unfold sound_piece. repeat (split; [assumption|]).
  unfold head_ok in N. destruct (edata x) as [|d|s|s|s|l|k v|l|o|s|l|l|l]; auto; try contradiction.
  - destruct D as (_ & H & (key & -> & _) & (v' & ->)). repeat split; try discriminate. exact H.
  - intros H. destruct (D H) as (v & ->). discriminate.
Qed.
(** plain elements: no meta data and no attributes beyond some sound ones *)
Lemma sound_elem : forall n m a h d, n <> "" -> NoDup (map fst m) -> NoDup (map fst a) ->
  match d with
  | DNumber s => json_number s = true
  | DObject l => NoDup (member_keys l)
  | DMember k v => h = true /\ k <> None /\ v <> None
  | DEnum o | DHolder o => h = true -> o <> None
  | _ => True
  end -> Forall sound (map snd m) -> Forall sound (map snd a) -> Forall sound (dsd_children d) -> sound (Elem n m a h d).
Proof.
  intros n m a h d N M A D Cm Ca Cd. apply sound_intro; [repeat split; assumption|]. unfold children. cbn [emeta eattrs edata].
  rewrite Forall_forall in Cm, Ca, Cd. intros c Hc. apply in_app_or in Hc as [Hc|Hc]; [now apply Cm|]. apply in_app_or in Hc as [Hc|Hc]; [now apply Ca|now apply Cd].
Qed.
Lemma placed_keys : forall p, incl (map fst (placed p)) ["sourceMap"] /\ NoDup (map fst (placed p)).
Proof. intros [|x p]; (split; [try (intros y []; fail); apply incl_refl|repeat constructor; now intros []]). Qed.
Lemma placed_sound : forall p, Forall sound (map snd (placed p)).
Proof. intros [|x p]; constructor; [|constructor]. apply sane_sound, sane_map. Qed.
Lemma plain_sound : forall s, sound (plain s).
Proof. intros s. apply sound_elem; cbn; try constructor; auto; discriminate. Qed.
Lemma array_sound : forall n l, n <> "" -> Forall sound l -> sound (Elem n [] [] true (DArray l)).
Proof. intros n l N H. apply sound_elem; cbn; try constructor; auto. Qed.
Lemma texts_sound : forall l, sound (texts l).
Proof. intros l. apply array_sound; [discriminate|]. apply Forall_map, Forall_forall. intros s _. apply plain_sound. Qed.
Lemma text_sound : forall n t h, n <> "" -> sound (Elem n [] (placed (snd t)) h (DString (fst t))).
Proof. intros n t h N. apply sound_elem; [exact N|constructor|apply placed_keys|exact I|constructor|apply placed_sound|constructor]. Qed.
Lemma text_at_sound : forall t, sound (text_at t).
Proof. intros t. now apply text_sound. Qed.
Lemma value_at_sound : forall t, sound (value_at t).
Proof. intros t. now apply text_sound. Qed.
Lemma copies_sound : forall t, Forall sound (copies t).
Proof. intros t. unfold copies. destruct (blank t); constructor; [|constructor]. now apply text_sound. Qed.
Lemma entry_sound : forall k t, Forall sound (map snd (entry_unless_blank k t)).
Proof. intros k t. unfold entry_unless_blank. destruct (blank t); constructor; [|constructor]. apply text_at_sound. Qed.
Lemma entry_keys : forall k t, incl (map fst (entry_unless_blank k t)) [k].
Proof. intros k t. unfold entry_unless_blank. destruct (blank t); cbn; [apply incl_nil_l|apply incl_refl]. Qed.

(** keys given in disjoint groups *)
Ltac nd := repeat (first [apply NoDup_nil | apply NoDup_cons]); cbn; intuition discriminate.
Lemma nodup_app : forall A (l l' : list A), NoDup l -> NoDup l' -> (forall x, In x l -> ~ In x l') -> NoDup (l ++ l').
Proof.
  intros A l l' H. induction H as [|x l N H IH]; intros H' D; [exact H'|]. cbn. constructor.
  - intros K. apply in_app_or in K as [K|K]; [contradiction|]. apply (D x); [now left|exact K].
  - apply IH; [exact H'|]. intros y Hy. apply D. now right.
Qed.
Lemma entry_nodup : forall k t, NoDup (map fst (entry_unless_blank k t)).
Proof. intros k t. unfold entry_unless_blank. destruct (blank t); cbn; nd. Qed.
Lemma variables_nodup : forall l, NoDup (map fst (variables l)) /\ incl (map fst (variables l)) ["hrefVariables"].
Proof. intros [|p l]; (split; [cbn; nd|intros y Hy; cbn in Hy |- *; tauto]). Qed.
Lemma headers_nodup : forall l, NoDup (map fst (headers l)) /\ incl (map fst (headers l)) ["headers"].
Proof. intros [|p l]; (split; [cbn; nd|intros y Hy; cbn in Hy |- *; tauto]). Qed.

Lemma variable_value_sound : forall p, sound (variable_value p).
Proof.
  intros p. unfold variable_value. destruct (pa_values p) as [|v vs].
  - apply sound_elem; cbn; auto; try constructor; try discriminate.
    + rewrite map_app. apply nodup_app; [|apply entry_nodup|].
      * destruct (blank (pa_example p)); [constructor|apply placed_keys].
      * intros x Hx K. apply entry_keys in K as [<-|[]]. destruct (blank (pa_example p)); [destruct Hx|]. apply (proj1 (placed_keys _)) in Hx as [E|[]]. discriminate.
    + rewrite map_app, Forall_app. split; [|apply entry_sound]. destruct (blank (pa_example p)); [constructor|apply placed_sound].
  - apply sound_elem; cbn [map]; auto; try constructor; try discriminate.
    + destruct (blank (pa_default p)); cbn; repeat constructor; cbn; intuition discriminate.
    + destruct (blank (pa_example p)); discriminate.
    + rewrite map_app, Forall_app. split.
      * destruct (blank (pa_default p)); constructor; [|constructor]. apply sound_elem; cbn; try constructor; auto; try discriminate. apply text_at_sound.
      * constructor; [|constructor]. apply array_sound; [discriminate|]. apply (Forall_map value_at sound (v :: vs)), Forall_forall. intros x _. apply value_at_sound.
    + destruct (blank (pa_example p)); cbn; constructor; [|constructor]. apply text_at_sound.
Qed.
Lemma variable_sound : forall p, sound (variable p).
Proof.
  intros p. apply sound_elem; try discriminate.
  - rewrite map_app. apply nodup_app; try apply entry_nodup. intros x Hx K. apply entry_keys in K as [<-|[]]. apply entry_keys in Hx as [E|[]]. discriminate.
  - repeat constructor. now intros [].
  - repeat split; discriminate.
  - rewrite map_app, Forall_app. split; apply entry_sound.
  - constructor; [|constructor]. apply texts_sound.
  - cbn. constructor; [apply text_at_sound|]. constructor; [apply variable_value_sound|constructor].
Qed.
Lemma effective_names : forall l, NoDup (map (fun p => fst (pa_name p)) (effective l)) /\ forall p, In p (effective l) -> In p l.
Proof.
  induction l as [|p l [IH1 IH2]]; [split; [constructor|intros p []]|]. cbn [effective].
  destruct (existsb _ l) eqn:E; [split; [exact IH1|intros q Hq; right; auto]|]. split.
  - cbn. constructor; [|exact IH1]. intros H. apply in_map_iff in H as (q & Hq & H). apply IH2 in H.
    assert (X : existsb (fun q => String.eqb (fst (pa_name p)) (fst (pa_name q))) l = true) by (apply existsb_exists; exists q; split; [exact H|apply String.eqb_eq; now symmetry]). congruence.
  - intros q [<-|Hq]; [now left|right; auto].
Qed.
Lemma variables_sound : forall l, Forall sound (map snd (variables l)).
Proof.
  intros l. unfold variables. destruct l as [|p l]; constructor; [|constructor]. cbn [snd]. apply sound_elem; cbn [map]; try constructor; try discriminate.
  - assert (K : forall ps, member_keys (map variable ps) = map (fun p => fst (pa_name p)) ps).
    { induction ps as [|q ps IH]; [reflexivity|]. unfold member_keys in *. cbn [map flat_map]. rewrite IH. reflexivity. }
    rewrite K. apply effective_names.
  - cbn [dsd_children]. apply Forall_map, Forall_forall. intros q _. apply variable_sound.
Qed.
Lemma pair_sound : forall m h, NoDup (map fst m) -> Forall sound (map snd m) -> sound (pair_element m h).
Proof.
  intros m [[k v] p] N S. apply sound_elem; auto; try discriminate; [apply placed_keys|repeat split; discriminate|apply placed_sound|].
  cbn. constructor; [apply plain_sound|]. constructor; [apply plain_sound|constructor].
Qed.
Lemma headers_sound : forall l, Forall sound (map snd (headers l)).
Proof.
  intros [|h l]; constructor; [|constructor]. apply array_sound; [discriminate|]. apply (Forall_map (pair_element []) sound (h :: l)), Forall_forall. intros x _. apply pair_sound; constructor.
Qed.
Lemma metadata_sound : forall l, Forall sound (map snd (metadata l)).
Proof.
  intros [|h l]; constructor; [|constructor]. apply array_sound; [discriminate|]. apply (Forall_map (pair_element _) sound (h :: l)), Forall_forall. intros x _.
  apply pair_sound; [repeat constructor; now intros []|]. constructor; [apply texts_sound|constructor].
Qed.
Lemma asset_sound : forall c k t p, sound (asset_element c k t p).
Proof.
  intros c k t p. apply sound_elem; auto; try discriminate.
  - repeat constructor. now intros [].
  - rewrite map_app. apply nodup_app; [apply placed_keys|destruct t; repeat constructor; now intros []|]. intros x Hx K. apply (proj1 (placed_keys _)) in Hx as [<-|[]].
    destruct t; [destruct K|]. destruct K as [E|[]]. discriminate.
  - constructor; [apply texts_sound|constructor].
  - rewrite map_app, Forall_app. split; [apply placed_sound|]. destruct t; constructor; [apply plain_sound|constructor].
  - constructor.
Qed.
Section Document.
  Context (fuel : nat) (r : registry) (o : option parse_options).
  Lemma shape_sound : forall s d w, shape fuel r s (Some d) w -> sound d.
  Proof. intros s d w H. inversion H as [|d' w' E H']; subst. apply sane_sound. now apply (structure_sane fuel r s d w). Qed.
  Lemma entry_of_sound : forall s d w, shape fuel r s d w -> Forall sound (structure_entry d).
  Proof.
    intros s [d|] w H; constructor; [|constructor]. apply sound_elem; cbn; try constructor; auto; try discriminate. now apply (shape_sound s d w).
  Qed.
  Lemma message_sound : forall y a l w, message fuel r o y a l w -> Forall sound l.
  Proof.
    intros y a l w [own w1 from w2 full type m body schema H1 H2 H3 H4 H5 H6 H7]. rewrite !Forall_app. split; [apply copies_sound|]. split; [now apply (entry_of_sound _ _ _ H1)|].
    split; [destruct H6|destruct H7]; first [apply Forall_nil|apply Forall_cons; [apply asset_sound|apply Forall_nil]].
  Qed.
  Lemma details_sound : forall y, Forall sound (map snd (details y)).
  Proof. intros y. unfold details. rewrite !map_app, !Forall_app. split; [apply placed_sound|]. split; [apply variables_sound|apply headers_sound]. Qed.
  Lemma details_keys : forall y, NoDup (map fst (details y)) /\ incl (map fst (details y)) ["sourceMap"; "hrefVariables"; "headers"].
  Proof.
    intros y. unfold details. rewrite !map_app. destruct (placed_keys (py_map y)) as [P1 P2]. destruct (variables_nodup (py_parameters y)) as [V1 V2]. destruct (headers_nodup (py_headers y)) as [H1 H2]. split.
    - apply nodup_app; [exact P2| |].
      + apply nodup_app; [exact V1|exact H1|]. intros x Hx K. apply V2 in Hx as [<-|[]]. apply H2 in K as [E|[]]. discriminate.
      + intros x Hx K. apply P1 in Hx as [<-|[]]. apply in_app_or in K as [K|K]; [apply V2 in K as [E|[]]|apply H2 in K as [E|[]]]; discriminate.
    - intros x Hx. apply in_app_or in Hx as [Hx|Hx]; [apply P1 in Hx as [<-|[]]; cbn; auto|]. apply in_app_or in Hx as [Hx|Hx]; [apply V2 in Hx as [<-|[]]|apply H2 in Hx as [<-|[]]]; cbn; auto.
  Qed.
  Lemma with_details : forall y k v, ~ In k ["sourceMap"; "hrefVariables"; "headers"] -> sound v ->
    NoDup (map fst ((k, v) :: details y)) /\ Forall sound (map snd ((k, v) :: details y)).
  Proof.
    intros y k v N S. destruct (details_keys y) as [D1 D2]. cbn [map fst snd]. split; constructor; auto using details_sound.
  Qed.
  Lemma transaction_sound : forall a t q s e w, transaction fuel r o a t q s e w -> sound e.
  Proof.
    intros a t q s e w [eq es wq ws Q S]. apply array_sound; [discriminate|]. apply Forall_app. split; [apply copies_sound|]. constructor; [|constructor; [|constructor]].
    - destruct Q as [|y l w' Hm].
      + apply sound_elem; cbn; [discriminate|nd|nd|exact I|constructor|constructor; [apply text_at_sound|constructor]|constructor].
      + destruct (with_details y "method" (text_at (ac_method a)) ltac:(cbn; intuition discriminate) (text_at_sound _)) as [D1 D2].
        apply sound_elem; auto; try discriminate; [apply entry_nodup|apply entry_sound|]. exact (message_sound _ _ _ _ Hm).
    - destruct S as [|y l w' Hm].
      + apply array_sound; [discriminate|constructor].
      + destruct (with_details y "statusCode" (text_at (py_name y)) ltac:(cbn; intuition discriminate) (text_at_sound _)) as [D1 D2].
        apply sound_elem; auto; try discriminate; try constructor. exact (message_sound _ _ _ _ Hm).
  Qed.
  Lemma each_Forall : forall A B (P : A -> B -> list annotation -> Prop) (Q : B -> Prop) l es w, each P l es w -> (forall a b w, In a l -> P a b w -> Q b) -> Forall Q es.
  Proof.
    intros A B P Q l es w (rs & F & -> & _) H. induction F as [|a b l rs Hab F IH]; cbn; constructor; [apply (H a (fst b) (snd b)); [now left|exact Hab]|]. apply IH. intros x y z Hx. apply H. now right.
  Qed.
  Lemma transition_sound : forall a e w, transition fuel r o a e w -> sound e.
  Proof.
    intros a e w [d w1 ts w2 D T]. apply sound_elem; auto; try discriminate.
    - repeat constructor. now intros [].
    - rewrite !map_app. destruct (variables_nodup (ac_parameters a)) as [V1 V2].
      assert (Kd : forall l : list element, NoDup (map fst (match l with [] => [] | e :: _ => [("data", e)] end)) /\ incl (map fst (match l with [] => [] | e :: _ => [("data", e)] end)) ["data"]).
      { intros [|x l]; (split; [cbn; nd|intros y Hy; cbn in Hy |- *; tauto]). }
      destruct (Kd (structure_entry d)) as [K1 K2]. apply nodup_app; [apply entry_nodup| |].
      + apply nodup_app; [apply entry_nodup| |].
        * apply nodup_app; [exact V1|exact K1|]. intros x Hx K. apply V2 in Hx as [<-|[]]. apply K2 in K as [E|[]]. discriminate.
        * intros x Hx K. apply entry_keys in Hx as [<-|[]]. apply in_app_or in K as [K|K]; [apply V2 in K as [E|[]]|apply K2 in K as [E|[]]]; discriminate.
      + intros x Hx K. apply entry_keys in Hx as [<-|[]]. apply in_app_or in K as [K|K]; [apply entry_keys in K as [E|[]]; discriminate|].
        apply in_app_or in K as [K|K]; [apply V2 in K as [E|[]]|apply K2 in K as [E|[]]]; discriminate.
    - constructor; [apply text_at_sound|constructor].
    - rewrite !map_app, !Forall_app. split; [apply entry_sound|]. split; [apply entry_sound|]. split; [apply variables_sound|].
      assert (E := entry_of_sound _ _ _ D). destruct E as [|x l Hx]; constructor; [exact Hx|constructor].
    - cbn [dsd_children]. apply Forall_app. split; [apply copies_sound|]. assert (F : Forall (Forall sound) ts).
      { apply (each_Forall _ _ _ _ _ _ _ T). intros x b w' _ E. apply (each_Forall _ _ _ _ _ _ _ E). intros p e2 w'' _. apply transaction_sound. }
      clear -F. induction F as [|l ls Hl F IH]; cbn; [constructor|]. apply Forall_app. now split.
  Qed.
  Lemma resource_sound : forall s e w, resource_element fuel r o s e w -> sound e.
  Proof.
    intros s e w [d w1 l w2 D T]. destruct (variables_nodup (re_parameters s)) as [V1 V2]. apply sound_elem; auto; try discriminate.
    - repeat constructor. now intros [].
    - cbn [map fst]. constructor; [|exact V1]. intros H. apply V2 in H as [E|[]]. discriminate.
    - constructor; [apply text_at_sound|constructor].
    - cbn [map snd]. constructor; [apply text_at_sound|apply variables_sound].
    - cbn [dsd_children]. rewrite !Forall_app. split; [apply copies_sound|]. split; [now apply (entry_of_sound _ _ _ D)|].
      apply (each_Forall _ _ _ _ _ _ _ T). intros a b w' _. apply transition_sound.
  Qed.
  Lemma category_sound : forall b l, Forall sound l -> sound (Elem "category" (category_meta b) [] true (DArray l)).
  Proof.
    intros b l H. assert (T := texts_sound). assert (U := text_at_sound). apply sound_elem; [discriminate| |constructor|exact I| |constructor|exact H]; unfold category_meta; destruct (b_category b); cbn [map fst snd]; try nd; repeat (first [apply Forall_nil|apply Forall_cons; [auto|]]).
  Qed.
  Lemma gives_sound : forall b l w, gives fuel r o b l w -> Forall sound l.
  Proof.
    apply (belement_ind' (fun b => forall l w, gives fuel r o b l w -> Forall sound l)). intros b IH l w H. destruct H as [b e w C R|b d w C S|b C|b rs C F].
    - constructor; [now apply (resource_sound _ _ _ R)|constructor].
    - now apply (entry_of_sound _ _ _ S).
    - apply copies_sound.
    - constructor; [|constructor]. apply category_sound. clear C. induction F as [|c x l rs Hc F IHF]; cbn; [constructor|]. apply Forall_app. split.
      + apply (IH c (or_introl eq_refl) (fst x) (snd x) Hc).
      + apply IHF. intros c' Hc'. apply IH. now right.
  Qed.
  Lemma document_sound : forall b e w, document_element fuel r o b e w -> sound e.
  Proof.
    intros b e w [ls w' E]. apply sound_elem; auto; try discriminate.
    - cbn. nd.
    - unfold metadata. destruct (bp_metadata b); cbn; nd.
    - cbn; constructor; [apply texts_sound|constructor; [apply text_at_sound|constructor]].
    - apply metadata_sound.
    - cbn [dsd_children]. apply Forall_app. split; [apply copies_sound|]. assert (F : Forall (Forall sound) ls).
      { apply (each_Forall _ _ _ _ _ _ _ E). intros c l w'' _. apply gives_sound. }
      clear -F. induction F as [|l ls Hl F IH]; cbn; [constructor|]. apply Forall_app. now split.
  Qed.
End Document.
(** sound elements can be written and read back *)
Lemma sound_no_null : forall e, sound e -> no_null e.
Proof.
  intros e S x Hx H. destruct (S x Hx) as (_ & _ & _ & D). destruct (edata x) as [|d|s|s|s|l|k v|l|d|s|l|l|l]; auto.
  - destruct d; [exact I|now destruct (D H)].
  - destruct k; [exact I|now destruct D as (_ & D & _)].
  - destruct d; [exact I|now destruct (D H)].
Qed.
Lemma sound_keys : forall e, sound e -> keys_unique e.
Proof. intros e S x Hx. destruct (S x Hx) as (_ & A & B & _). now split. Qed.
Lemma sound_numbers : forall e, sound e -> forall x, sub x e -> Forall (fun s => json_number s = true) (own_numbers x).
Proof. intros e S x Hx. destruct (S x Hx) as (_ & _ & _ & D). unfold own_numbers. destruct (ehas x); [|constructor]. destruct (edata x); constructor; auto. Qed.
