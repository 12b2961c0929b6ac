(** Lemmas for C78: what references stand for when all is read *)
From Verif Require Import Base StringSpec ByteBuffer ByteSpec Markdown MarkdownSpec KeywordsSpec Source Headers HeadersSpec Keywords Sections SectionsSpec SectionsLoop Payloads PayloadsSpec Transactions TransactionsSpec TransactionsBase TransactionsResource.
Local Open Scope string_scope.
Local Open Scope list_scope.

(** the parts of a model a payload has *)
Definition like_model (m p : payload) : Prop :=
  q_description p = q_description m /\ q_parameters p = q_parameters m /\ q_schema p = q_schema m /\ (exists more, q_body p = (q_body m +++ more)%string) /\ (exists hs, q_headers p = hs ++ q_headers m).
Definition near (T : table) (p : payload) : Prop :=
  r_id (q_reference p) = "" \/ waits p \/ (r_state (q_reference p) = Resolved /\ exists m, T (r_id (q_reference p)) = Some m /\ like_model m p).
Definition no_fails (ev : list event) : Prop := forall text m, ~ In (Fails text m) ev.
Definition keeps (T T' : table) : Prop := forall i m, T i = Some m -> T' i = Some m.
Definition payloads_in (ex : list (list payload * list payload)) (p : payload) : Prop := exists e, In e ex /\ In p (fst e ++ snd e).

Lemma no_fails_app : forall a b, no_fails (a ++ b) <-> no_fails a /\ no_fails b.
Proof.
  intros a b. unfold no_fails. split.
  - intros H. split; intros text m I; apply (H text m), in_app_iff; auto.
  - intros [A B] text m I. apply in_app_iff in I as [I|I]; [exact (A text m I)|exact (B text m I)].
Qed.
Lemma from_like : forall what t id m p p' w, from_model what t id m p p' w -> like_model m p' /\ q_reference p' = Ref id Resolved (place t).
Proof.
  intros what t id m p p' w (hs & -> & H). split; [|reflexivity]. repeat (split; [reflexivity|]). cbn. split; [exists ""; now rewrite append_nil_r|]. destruct H as [(_ & -> & _)|[(_ & _ & -> & _)|(_ & _ & -> & _)]]; [now exists []|now exists (q_headers p)|now exists []].
Qed.
Lemma referred_near : forall T k t id p p' w, referred T k t id p p' w -> near T p'.
Proof.
  intros T k t id p p' w [(M & -> & _)|(m & M & H)].
  - destruct (String.eqb_spec id "") as [->|N]; [now left|right; left]. now split.
  - apply from_like in H as [L E]. right. right. rewrite E. split; [reflexivity|]. now exists m.
Qed.
Lemma tells_reference : forall source index nested k p gs p' cs, tells source index nested k p gs p' cs -> q_reference p' = q_reference p.
Proof. intros source index nested k p gs p' cs H. induction H as [|p t n gs p1 p2 w1 w2 S1 S2 IH]; [reflexivity|]. rewrite IH. destruct S1; reflexivity. Qed.
Lemma says_near : forall source index T nested found_none k sh t p w, says source index T nested found_none k sh t p w -> near T p.
Proof.
  intros source index T nested found_none k sh t p w H. destruct sh; cbn in H.
  - destruct H as (t0 & r & d & x & first & rest & name0 & name & hs & w1 & w2 & w3 & w4 & w5 & _ & _ & _ & _ & _ & Sh & _).
    destruct Sh as [(id & v & _ & H & _)|(_ & own & v & _ & [(e & q & z & es & id & v2 & v3 & _ & _ & _ & _ & _ & _ & H & _)|(_ & c & v2 & _ & -> & _)])]; [exact (referred_near _ _ _ _ _ _ _ H)|exact (referred_near _ _ _ _ _ _ _ H)|now left].
  - destruct H as (t0 & r & d & x & gs & first & rest & text & name0 & name & hs & w1 & w2 & w3 & w4 & _ & _ & _ & _ & _ & _ & _ & Te & _). left. now rewrite (tells_reference _ _ _ _ _ _ _ _ Te).
Qed.
Lemma near_more : forall T p more hs, near T p -> near T (set_headers (hs ++ q_headers p) (set_body (q_body p +++ more) p)).
Proof.
  intros T p more hs [H|[H|(H & m & M & A & B & C & (s & D) & (g & E))]]; [now left|now right; left|right; right]. split; [exact H|]. exists m. split; [exact M|]. split; [exact A|]. split; [exact B|]. split; [exact C|]. cbn. split.
  - exists (s +++ more)%string. now rewrite D, append_assoc.
  - exists (hs ++ g). now rewrite E, app_assoc.
Qed.
Lemma near_headed : forall T p hs, near T p -> near T (headed hs p).
Proof. intros T p hs H. apply (near_more T p "" hs) in H. rewrite append_nil_r in H. destruct p; exact H. Qed.
Lemma near_complete : forall T y, near T (l_payload y) -> near T (complete y).
Proof. intros T y H. apply (near_more T _ (sconcat (map snd (l_texts y))) []) in H. exact H. Qed.
Lemma near_keeps : forall T T' p, keeps T T' -> near T p -> near T' p.
Proof. intros T T' p K [H|[H|(H & m & M & L)]]; [now left|now right; left|right; right]. split; [exact H|]. exists m. split; [now apply K|exact L]. Qed.

Section Refs.
Context (source : string) (index : list N).
Context (nested : section_type -> list tree -> tree -> outcome (list annotation)) (found_none : section_type -> list tree -> bool).
Notation action_says := (action_says source index nested found_none).
Notation action_reads := (action_reads source index nested found_none).
Notation go_through := (go_through source index nested found_none).
Notation resource_says := (resource_says source index nested found_none).
Notation resources_say := (resources_say source index nested found_none).

Lemma through_in : forall step l rest w x r, read_through step l rest w -> In (x, r) rest -> exists l0 w0, step l0 x r w0.
Proof.
  intros step l rest w x r H. induction H as [|l y q rest w v S1 _ IH]; intros I; [destruct I|]. destruct I as [E|I]; [|now apply IH]. injection E as -> ->. now exists l, w.
Qed.
Lemma action_near : forall T ps a w p, action_says T ps a w -> payloads_in (a_examples a) p -> near T p.
Proof.
  intros T ps a w p (h & d & l & ex & hs & name & method & uri & w1 & w2 & _ & _ & Rt & _ & Ex & _ & -> & _) (e & I1 & I2). cbn in I1. apply in_map_iff in I1 as (e0 & <- & I1). cbn in I2. rewrite <- map_app in I2. apply in_map_iff in I2 as (y & <- & I2).
  apply near_headed, near_complete. destruct Ex as (Ef & _). assert (In (Listed (l_type y) (l_node y), Loads (l_payload y)) (filter of_payload l)) as I3.
  { rewrite Ef. apply in_flat_map. exists y. split; [apply in_flat_map; now exists e0|now left]. }
  apply filter_In in I3 as [I3 _]. destruct (through_in _ _ _ _ _ _ Rt I3) as (l0 & w0 & S1). destruct S1 as [(_ & p & E & H)|[(_ & hs' & E & _)|(_ & _ & E & _)]]; try discriminate E. injection E as <-. destruct H as (k & sh & v1 & v2 & v3 & _ & _ & H & _). exact (says_near _ _ _ _ _ _ _ _ _ _ H).
Qed.

(** the model a text would be added to *)
Definition open_model (l : listing) (i : string) : Prop := exists ty m, behind_item l ty /\ a_model ty /\ model_so_far l m /\ q_name m = i.
Lemma behind_snoc : forall l x r ty, behind_item (l ++ [(x, r)]) ty -> (exists t, x = Listed ty t) \/ (((exists u, x = Ignored u) \/ exists u, x = Dangling u) /\ behind_item l ty).
Proof.
  intros l x r ty (a & t & q & b & E & H). apply snoc_split in E as [(-> & -> & E)|(c & -> & ->)].
  - left. exists t. now injection E.
  - right. split; [apply (H x r), in_app_iff; right; now left|]. exists a, t, q, c. split; [reflexivity|]. intros y p I. apply (H y p), in_app_iff. now left.
Qed.
Lemma open_nil : forall i, ~ open_model [] i.
Proof. intros i (ty & m & (a & t & r & b & E & _) & _). now destruct a. Qed.
Lemma go_keeps : forall name uri T l rest T' ev, go_through name uri T l rest T' ev -> no_fails ev -> forall i m, T i = Some m -> ~ open_model l i -> T' i = Some m.
Proof.
  intros name uri T l rest T' ev H. induction H as [|T l x r T1 rest T2 e f S1 _ IH]; intros Nf i m Ti No; [exact Ti|]. apply no_fails_app in Nf as [N1 N2]. specialize (IH N2 i m). assert (X : T1 i = Some m /\ ~ open_model (l ++ [(x, r)]) i); [|now apply IH].
  destruct x as [t|t|t|ty t|t|t|s]; cbn in S1; try contradiction.
  - destruct S1 as [(Am & p & -> & Md)|[(-> & hs & w & -> & -> & _)|(Na & _ & -> & -> & _)]].
    + destruct Md as (sh & p0 & w & e1 & e2 & e3 & _ & _ & _ & _ & _ & Df & ->). destruct Df as [(_ & _ & ->)|(Tn & _ & To & _)].
      * exfalso. apply (N1 ("symbol '" +++ q_name p +++ "' already defined")%string (place t)). rewrite !in_app_iff. right. right. right. now left.
      * assert (Ni : i <> q_name p) by (intros ->; congruence). split; [now rewrite To|]. intros (ty' & m' & _ & _ & M & <-). apply model_loads in M as ->. now apply Ni.
    + split; [exact Ti|]. intros (ty' & m' & B & Am & _). apply behind_snoc in B as [(t' & E)|([(u & E)|(u & E)] & _)]; try discriminate E. injection E as <- _. destruct Am as [X|[X|[]]]; discriminate.
    + split; [exact Ti|]. intros (ty' & m' & B & Am & _). apply behind_snoc in B as [(t' & E)|([(u & E)|(u & E)] & _)]; try discriminate E. injection E as <- _. contradiction.
  - destruct S1 as (s & m0 & w & -> & (ty & k & sh & B & Am & _) & Ms & _ & _ & To). assert (Ni : i <> q_name m0) by (intros ->; apply No; now exists ty, m0). split; [now rewrite To|].
    intros (ty' & m' & _ & _ & M & <-). apply model_adds in M as (m1 & M & ->). rewrite (model_unique _ _ _ M Ms) in Ni. now apply Ni.
  - destruct S1 as (w & -> & -> & _ & _). split; [exact Ti|]. intros (ty' & m' & B & Am & M & Q). apply No. apply behind_snoc in B as [(t' & E)|(_ & B)]; [discriminate E|]. exists ty', m'. split; [exact B|]. split; [exact Am|]. split; [|exact Q]. apply model_idle in M; [exact M|exact I].
  - destruct s as [k ps ex]. destruct S1 as (h & a & w1 & w2 & -> & -> & _). split; [exact Ti|]. intros (ty' & m' & B & _). apply behind_snoc in B as [(t' & E)|([(u & E)|(u & E)] & _)]; discriminate E.
Qed.
Lemma go_actions : forall name uri T l rest T' ev, go_through name uri T l rest T' ev -> no_fails ev -> forall a p, In a (actions_of rest) -> payloads_in (a_examples a) p -> near T' p.
Proof.
  intros name uri T l rest T' ev H. induction H as [|T l x r T1 rest T2 e f S1 G IH]; intros Nf a p I1 I2; [destruct I1|]. apply no_fails_app in Nf as [N1 N2]. unfold actions_of in I1. cbn [flat_map snd] in I1. apply in_app_iff in I1 as [I1|I1]; [|now apply (IH N2 a p)].
  destruct r as [| | |b|]; try destruct I1. subst b. destruct x as [t|t|t|ty t|t|t|s]; cbn in S1; try contradiction.
  - destruct S1 as [(_ & q & E & _)|[(_ & hs & w & E & _)|(_ & _ & E & _)]]; discriminate E.
  - destruct S1 as (s & m & w & E & _). discriminate E.
  - destruct S1 as (w & E & _). discriminate E.
  - destruct s as [k ps ex]. destruct S1 as (h & b & w1 & w2 & E & -> & _ & Sy & _). injection E as <-. apply (near_keeps T); [|exact (action_near _ _ _ _ _ Sy I2)]. intros i m Ti. apply (go_keeps _ _ _ _ _ _ _ G N2 i m Ti).
    intros (ty' & m' & B & _). apply behind_snoc in B as [(t' & E)|([(u & E)|(u & E)] & _)]; discriminate E.
  - contradiction.
Qed.
Definition near_resource (T : table) (r : resource) : Prop := forall a p, In a (e_actions r) -> payloads_in (a_examples a) p -> near T p.
Lemma warns_only : forall w, no_fails (map Warns w).
Proof. intros w text m I. apply in_map_iff in I as (c & E & _). discriminate E. Qed.
Lemma resource_near : forall T ps r T' ev, resource_says T ps r T' ev -> no_fails ev -> keeps T T' /\ near_resource T' r.
Proof.
  intros T ps r T' ev [(k & qs & ex & h & a & w & name & uri & _ & _ & _ & Sy & -> & -> & _)|(h & d & l & hs & name & uri & m & _ & _ & G & _ & _ & ->)] Nf.
  - split; [intros i m Ti; exact Ti|]. intros b p [<-|[]] I. exact (action_near _ _ _ _ _ Sy I).
  - split; [intros i m' Ti; apply (go_keeps _ _ _ _ _ _ _ G Nf i m' Ti), open_nil|]. intros b p I1 (e & I2 & I3). cbn in I1. apply in_map_iff in I1 as (a & <- & I1). cbn in I2. apply in_map_iff in I2 as (e0 & <- & I2). cbn in I3. rewrite <- map_app in I3. apply in_map_iff in I3 as (q & <- & I3).
    apply near_headed. apply (go_actions _ _ _ _ _ _ _ G Nf a q I1). now exists e0.
Qed.
Lemma resources_near : forall b T l rs T' ev, resources_say b T l rs T' ev -> no_fails ev -> keeps T T' /\ Forall (near_resource T') rs.
Proof.
  intros b T l rs T' ev H. induction H as [|b T ps l r rs h T1 T2 e w f S1 _ _ _ IH]; intros Nf; [split; [intros i m Ti; exact Ti|constructor]|]. apply no_fails_app in Nf as [N1 Nf]. apply no_fails_app in Nf as [_ N2]. destruct (IH N2) as [K F]. destruct (resource_near _ _ _ _ _ S1 N1) as [K1 R].
  split; [intros i m Ti; now apply K, K1|]. constructor; [|exact F]. intros a p I1 I2. apply (near_keeps T1 _ _ K). exact (R a p I1 I2).
Qed.

(** ** when all is read *)
Definition full_reference (T : table) (p : payload) : Prop :=
  r_id (q_reference p) <> "" -> r_state (q_reference p) = Resolved /\ exists m, T (r_id (q_reference p)) = Some m /\ like_model m p.
Lemma settled_full : forall T k p p' ev, settled found_none T k p p' ev -> no_fails ev -> near T p -> full_reference T p'.
Proof.
  intros T k p p' ev [(Nw & -> & _)|(W & q & id & c & Pq & -> & _ & [(_ & _ & ->)|(m & w & Ti & H & _)])] Nf Nr Ne.
  - destruct Nr as [E|[W|H]]; [contradiction|contradiction|exact H].
  - exfalso. eapply Nf. now left.
  - apply from_like in H as [L E]. rewrite E. split; [reflexivity|]. now exists m.
Qed.
Lemma each_in : forall A (step : A -> A -> list event -> Prop) l r ev y, each_of step l r ev -> no_fails ev -> In y r -> exists x e, In x l /\ step x y e /\ no_fails e.
Proof.
  intros A step l r ev y H. induction H as [|x z l r e f S1 _ IH]; intros Nf I1; [destruct I1|]. apply no_fails_app in Nf as [N1 N2]. destruct I1 as [<-|I1]; [exists x, e; split; [now left|now split]|]. destruct (IH N2 I1) as (x' & e' & I2 & H). exists x', e'. split; [now right|exact H].
Qed.
Lemma settled_references : forall T r q ev a p, settled_resource found_none T r q ev -> no_fails ev -> near_resource T r -> In a (e_actions q) -> payloads_in (a_examples a) p -> full_reference T p.
Proof.
  intros T r q ev b p (l & H & ->) Nf Nr I1 (e & I2 & I3). cbn in I1. destruct (each_in _ _ _ _ _ _ H Nf I1) as (a & e1 & Ia & (l' & Ha & ->) & N1). cbn in I2. destruct (each_in _ _ _ _ _ _ Ha N1 I2) as (e0 & e2 & Ie & (f & g & Hf & Hg & ->) & N2). apply no_fails_app in N2 as [Nf' Ng].
  apply in_app_iff in I3 as [I3|I3].
  - destruct (each_in _ _ _ _ _ _ Hf Nf' I3) as (p0 & e3 & Ip & Sp & N3). apply (settled_full _ _ _ _ _ Sp N3). apply (Nr a p0 Ia). exists e0. split; [exact Ie|]. apply in_app_iff. now left.
  - destruct (each_in _ _ _ _ _ _ Hg Ng I3) as (p0 & e3 & Ip & Sp & N3). apply (settled_full _ _ _ _ _ Sp N3). apply (Nr a p0 Ia). exists e0. split; [exact Ie|]. apply in_app_iff. now right.
Qed.
Lemma document_references : forall ps rs T ev r a p, document_says source index nested found_none ps rs T ev -> no_fails ev -> In r rs -> In a (e_actions r) -> payloads_in (a_examples a) p -> full_reference T p.
Proof.
  intros ps rs T ev r a p (rs0 & e & f & H & S1 & ->) Nf I1 I2 I3. apply no_fails_app in Nf as [N1 N2]. destruct (resources_near _ _ _ _ _ _ H N1) as [_ F]. destruct (each_in _ _ _ _ _ _ S1 N2 I1) as (r0 & e0 & I0 & S0 & N0). rewrite Forall_forall in F.
  exact (settled_references _ _ _ _ _ _ S0 N0 (F r0 I0) I2 I3).
Qed.
(** ** the models *)
Lemma go_model : forall name uri T l rest T' ev, go_through name uri T l rest T' ev -> no_fails ev -> (forall m, model_so_far l m -> q_name m <> "" /\ T (q_name m) = Some m) ->
  forall m, model_so_far (l ++ rest) m -> q_name m <> "" /\ T' (q_name m) = Some m.
Proof.
  intros name uri T l rest T' ev H. induction H as [|T l x r T1 rest T2 e f S1 _ IH]; intros Nf Hl m Ms; [rewrite app_nil_r in Ms; now apply Hl|]. apply no_fails_app in Nf as [N1 N2]. specialize (IH N2). rewrite <- app_assoc in IH. apply IH; [|exact Ms]. clear IH Ms m. intros m Ms.
  destruct x as [t|t|t|ty t|t|t|s]; cbn in S1; try contradiction.
  - destruct S1 as [(Am & p & -> & Md)|[(-> & hs & w & -> & -> & _)|(Na & _ & -> & -> & _)]].
    + apply model_loads in Ms as ->. destruct Md as (sh & p0 & w & e1 & e2 & e3 & _ & _ & _ & _ & Nl & Df & ->). split.
      * destruct Nl as [(_ & ->)|(N & _)]; [|exact N]. exfalso. eapply N1. rewrite !in_app_iff. right. right. left. now left.
      * destruct Df as [(_ & _ & ->)|(_ & Tp & _)]; [|exact Tp]. exfalso. eapply N1. rewrite !in_app_iff. right. right. right. now left.
    + apply model_idle in Ms; [now apply Hl|exact I].
    + apply model_idle in Ms; [now apply Hl|exact I].
  - destruct S1 as (s & m0 & w & -> & _ & M0 & _ & Tm & _). apply model_adds in Ms as (m1 & M1 & ->). rewrite (model_unique _ _ _ M1 M0) in *. destruct (Hl m0 M0) as [N0 T0]. split; [exact N0|]. rewrite T0 in Tm. exact Tm.
  - destruct S1 as (w & -> & -> & _ & _). apply model_idle in Ms; [now apply Hl|exact I].
  - destruct s as [k ps ex]. destruct S1 as (h & a & w1 & w2 & -> & -> & _). apply model_idle in Ms; [now apply Hl|exact I].
Qed.
Definition grows (T T' : table) : Prop := forall i, T i <> None -> T' i <> None.
Lemma step_grows : forall name uri T l x r T' ev, resource_reads source index nested found_none name uri T l x r T' ev -> grows T T'.
Proof.
  intros name uri T l x r T' ev S1 i Ti. destruct x as [t|t|t|ty t|t|t|s]; cbn in S1; try contradiction.
  - destruct S1 as [(Am & p & -> & Md)|[(-> & hs & w & -> & -> & _)|(Na & _ & -> & -> & _)]]; try exact Ti. destruct Md as (sh & p0 & w & e1 & e2 & e3 & _ & _ & _ & _ & _ & Df & _). destruct Df as [(_ & -> & _)|(Tn & _ & To & _)]; [exact Ti|]. rewrite To; [exact Ti|]. intros ->. contradiction.
  - destruct S1 as (s & m0 & w & _ & _ & _ & _ & Tm & To). destruct (String.eqb_spec i (q_name m0)) as [->|N]; [|now rewrite To]. rewrite Tm. destruct (T (q_name m0)); [discriminate|contradiction].
  - destruct S1 as (w & _ & -> & _). exact Ti.
  - destruct s as [k ps ex]. destruct S1 as (h & a & w1 & w2 & _ & -> & _). exact Ti.
Qed.
Lemma go_new : forall name uri T l rest T' ev, go_through name uri T l rest T' ev -> no_fails ev -> forall x p, In (x, Loads p) rest -> T (q_name p) = None.
Proof.
  intros name uri T l rest T' ev H. induction H as [|T l y r T1 rest T2 e f S1 _ IH]; intros Nf x p I1; [destruct I1|]. apply no_fails_app in Nf as [N1 N2]. destruct I1 as [E|I1].
  - injection E as -> ->. destruct x as [t|t|t|ty t|t|t|s]; cbn in S1; try contradiction.
    + destruct S1 as [(_ & q & E & Md)|[(_ & hs & w & E & _)|(_ & _ & E & _)]]; try discriminate E. injection E as <-. destruct Md as (sh & p0 & w & e1 & e2 & e3 & _ & _ & _ & _ & _ & Df & ->). destruct Df as [(_ & _ & ->)|(Tn & _)]; [|exact Tn]. exfalso. eapply N1. rewrite !in_app_iff. right. right. right. now left.
    + destruct S1 as (s & m & w & E & _). discriminate E.
    + destruct S1 as (w & E & _). discriminate E.
    + destruct s as [k ps ex]. destruct S1 as (h & a & w1 & w2 & E & _). discriminate E.
  - specialize (IH N2 x p I1). destruct (T (q_name p)) eqn:Tp; [|reflexivity]. exfalso. now apply (step_grows _ _ _ _ _ _ _ _ S1 (q_name p)); [congruence|].
Qed.
(** the model of a resource, if it has one *)
Definition has_model (r : resource) : bool := negb (String.eqb (q_name (e_model r)) "").
Lemma resource_model : forall T ps r T' ev, resource_says T ps r T' ev -> no_fails ev -> has_model r = true -> T (q_name (e_model r)) = None /\ T' (q_name (e_model r)) = Some (e_model r).
Proof.
  intros T ps r T' ev [(k & qs & ex & h & a & w & name & uri & _ & _ & _ & Sy & -> & -> & _)|(h & d & l & hs & name & uri & m & _ & _ & G & _ & Mo & ->)] Nf Hm; [discriminate Hm|]. cbn [e_model] in *. destruct Mo as [Mo|[_ ->]]; [|discriminate Hm]. split.
  - pose proof Mo as (a & x & p & b & -> & _ & ->). apply (go_new _ _ _ _ _ _ _ G Nf x p). apply in_app_iff. right. now left.
  - apply (go_model _ _ _ _ _ _ _ G Nf); [|exact Mo]. intros m' (a & x & p & b & E & _). now destruct a.
Qed.
Lemma resources_models : forall b T l rs T' ev, resources_say b T l rs T' ev -> no_fails ev ->
  (forall r, In r rs -> has_model r = true -> T (q_name (e_model r)) = None /\ T' (q_name (e_model r)) = Some (e_model r)) /\ NoDup (map (fun r => q_name (e_model r)) (filter has_model rs)).
Proof.
  intros b T l rs T' ev H. induction H as [|b T ps l r rs h T1 T2 e w f S1 _ _ H IH]; intros Nf; [split; [intros r []|constructor]|]. apply no_fails_app in Nf as [N1 Nf]. apply no_fails_app in Nf as [_ N2]. destruct (IH N2) as [A B]. destruct (resources_near _ _ _ _ _ _ H N2) as [K _]. destruct (resource_near _ _ _ _ _ S1 N1) as [K1 _].
  pose proof (resource_model _ _ _ _ _ S1 N1) as M. split.
  - intros q [<-|I1] Hm; [destruct (M Hm) as [M1 M2]; split; [exact M1|now apply K]|]. destruct (A q I1 Hm) as [A1 A2]. split; [|exact A2]. destruct (T (q_name (e_model q))) eqn:Tq; [|reflexivity]. apply K1 in Tq. congruence.
  - cbn [filter]. destruct (has_model r) eqn:Hm; [|exact B]. cbn [map]. constructor; [|exact B]. intros I1. apply in_map_iff in I1 as (q & E & I1). apply filter_In in I1 as [I1 Hq]. destruct (M eq_refl) as [_ M2]. destruct (A q I1 Hq) as [A1 _]. rewrite E in A1. congruence.
Qed.
Lemma settled_models : forall T rs qs f, each_of (settled_resource found_none T) rs qs f -> map e_model qs = map e_model rs.
Proof. intros T rs qs f H. induction H as [|x y l r e f (k & _ & ->) _ IH]; [reflexivity|]. cbn. now rewrite IH. Qed.
Definition model_names (rs : list resource) : list string := filter (fun s => negb (String.eqb s "")) (map q_name (map e_model rs)).
Lemma model_names_is : forall rs, model_names rs = map (fun r => q_name (e_model r)) (filter has_model rs).
Proof. induction rs as [|r rs IH]; [reflexivity|]. unfold model_names in *. cbn [map filter]. unfold has_model at 1. destruct (negb (String.eqb (q_name (e_model r)) "")); cbn [map]; now rewrite IH. Qed.
Lemma document_models : forall ps rs T ev, document_says source index nested found_none ps rs T ev -> no_fails ev -> NoDup (model_names rs) /\ forall r, In r rs -> q_name (e_model r) <> "" -> T (q_name (e_model r)) = Some (e_model r).
Proof.
  intros ps rs T ev (rs0 & e & f & H & S1 & ->) Nf. apply no_fails_app in Nf as [N1 N2]. destruct (resources_models _ _ _ _ _ _ H N1) as [A B]. pose proof (settled_models _ _ _ _ S1) as Em. split.
  - unfold model_names. rewrite Em. fold (model_names rs0). now rewrite model_names_is.
  - intros r I1 N. apply (in_map e_model) in I1. rewrite Em in I1. apply in_map_iff in I1 as (q & E & I1). rewrite <- E in *. apply (A q I1). unfold has_model. apply String.eqb_neq in N. now rewrite N.
Qed.
Lemma errors_none : forall ev, last_error index ev = None <-> no_fails ev.
Proof.
  intros ev. unfold last_error. split.
  - intros H text m I1. assert (I2 : In (An (characters index m) 3 text) (errors index ev)) by (apply in_flat_map; exists (Fails text m); split; [exact I1|now left]). destruct (snoc_cases _ (errors index ev)) as [E|(b & y & E)]; rewrite E in *; [destruct I2|]. rewrite map_app in H. cbn in H. rewrite last_last in H. discriminate.
  - intros H. assert (E : errors index ev = []); [|now rewrite E]. destruct (errors index ev) as [|y l] eqn:E; [reflexivity|]. exfalso. assert (I1 : In y (errors index ev)) by (rewrite E; now left). apply in_flat_map in I1 as (x & I1 & I2). destruct x as [c|text m]; [destruct I2|]. exact (H text m I1).
Qed.
End Refs.
