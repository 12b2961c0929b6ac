(** Lemmas for C78: resources and references *)
From Verif Require Import Base StringUtility StringSpec StringProofs SignatureProofs Regex RegexSpec RegexProofs ByteBuffer ByteSpec ByteProofs Markdown MarkdownSpec MarkdownTree Keywords KeywordsSpec KeywordsProofs KeywordsOrder Prop_Keywords TypeTables Sections SectionsSpec SectionsKeys SectionsLoop SectionsUnique.
From Verif Require Import Source Headers HeadersSpec HeadersProofs Prop_Headers Payloads PayloadsSpec PayloadsText PayloadsLine PayloadsNodes PayloadsParts PayloadsLoop PayloadsShort PayloadsWhole Prop_Payloads Transactions TransactionsSpec TransactionsBase TransactionsAction.
Local Open Scope string_scope.
Local Open Scope list_scope.

(** ** events *)
Lemma last_app : forall A (a b : list A) d, last (a ++ b) d = last b (last a d).
Proof.
  intros A a b d. induction a as [|x a IH]; [reflexivity|]. cbn [app]. destruct b as [|y b]; [now rewrite app_nil_r|]. assert (X : last (x :: a ++ y :: b) d = last (a ++ y :: b) d) by (destruct a; reflexivity).
  rewrite X, IH. clear. revert y. induction b as [|z b IH]; intros y; [reflexivity|]. change (last (y :: z :: b) (last a d)) with (last (z :: b) (last a d)). change (last (y :: z :: b) (last (x :: a) d)) with (last (z :: b) (last (x :: a) d)). apply IH.
Qed.
Definition after (index : list N) (st : state) (ms : list (string * payload)) (ev : list event) : state :=
  State ms (last (map Some (errors index ev)) (s_error st)) (s_warnings st ++ warnings index ev).
Lemma after_app : forall index st ms ms' e f, after index (after index st ms e) ms' f = after index st ms' (e ++ f).
Proof. intros. unfold after, errors, warnings. cbn. now rewrite !flat_map_app, map_app, last_app, app_assoc. Qed.
Lemma after_nil : forall index st, after index st (s_models st) [] = st.
Proof. intros index [m e w]. unfold after. cbn. now rewrite app_nil_r. Qed.
Lemma plus_after : forall index st w, plus index st w = after index st (s_models st) (map Warns w).
Proof.
  intros index [m e w] v. unfold plus, after, with_warnings. cbn [s_models s_error s_warnings]. assert (X : errors index (map Warns v) = [] /\ warnings index (map Warns v) = map (shown index) v).
  { induction v as [|c v [A B]]; [now split|]. split; [exact A|]. change (shown index c :: warnings index (map Warns v) = map (shown index) (c :: v)). rewrite B. reflexivity. }
  destruct X as [X Y]. rewrite X, Y. reflexivity.
Qed.
Lemma after_models : forall index st ms ev, s_models (after index st ms ev) = ms.
Proof. reflexivity. Qed.

(** ** tables *)
Lemma find_more : forall l id p i, find_model (l ++ [(id, p)]) i = match find_model l i with Some m => Some m | None => if String.eqb id i then Some p else None end.
Proof. intros l id p i. unfold find_model. induction l as [|[n m] l IH]; cbn [app find fst snd]; [destruct (String.eqb id i); reflexivity|]. destruct (String.eqb n i); [reflexivity|exact IH]. Qed.
Lemma find_update : forall l id body i, find_model (update_model id body l) i = if String.eqb id i then option_map (set_body body) (find_model l i) else find_model l i.
Proof.
  intros l id body i. unfold find_model. induction l as [|[n m] l IH]; cbn [update_model map find fst snd]; [now destruct (String.eqb id i)|]. destruct (String.eqb_spec n id) as [->|N]; cbn [fst].
  - destruct (String.eqb id i) eqn:E; [reflexivity|exact IH].
  - destruct (String.eqb_spec n i) as [->|N']; [|exact IH]. destruct (String.eqb_spec id i) as [->|]; [contradiction|reflexivity].
Qed.

(** ** the model of a resource *)
Lemma no_model_snoc : forall l x r, no_model (l ++ [(x, r)]) <-> no_model l /\ forall p, r <> Loads p.
Proof.
  intros l x r. split.
  - intros H. split; [intros y p I; apply (H y p), in_app_iff; now left|]. intros p ->. apply (H x p), in_app_iff. right. now left.
  - intros [H N] y p I. apply in_app_iff in I as [I|[E|[]]]; [exact (H y p I)|]. injection E as _ E. exact (N p E).
Qed.
Lemma snoc_split : forall A (l a b : list A) x y, l ++ [x] = a ++ y :: b -> (b = [] /\ l = a /\ x = y) \/ exists c, b = c ++ [x] /\ l = a ++ y :: c.
Proof.
  intros A l a b x y E. destruct (snoc_cases _ b) as [->|(c & z & ->)].
  - left. apply app_inj_tail in E as [-> ->]. now repeat split.
  - right. exists c. change (a ++ y :: c ++ [z]) with (a ++ (y :: c) ++ [z]) in E. rewrite app_assoc in E. apply app_inj_tail in E as [-> ->]. now split.
Qed.
Lemma model_loads : forall l x p m, model_so_far (l ++ [(x, Loads p)]) m <-> m = p.
Proof.
  intros l x p m. split.
  - intros (a & y & q & b & E & N & ->). apply snoc_split in E as [(-> & _ & E)|(c & -> & _)].
    + injection E as _ <-. cbn. rewrite append_nil_r. now destruct p.
    + apply no_model_snoc in N as [_ N]. now elim (N p).
  - intros ->. exists l, x, p, []. split; [reflexivity|]. split; [intros y q []|]. cbn. rewrite append_nil_r. now destruct p.
Qed.
Lemma added_snoc : forall l x s, added (l ++ [(x, Adds s)]) = (added l +++ s)%string.
Proof. intros l x s. unfold added. rewrite flat_map_app, sconcat_app. cbn. now rewrite append_nil_r. Qed.
Lemma model_adds : forall l x s m, model_so_far (l ++ [(x, Adds s)]) m <-> exists m0, model_so_far l m0 /\ m = add_text s m0.
Proof.
  intros l x s m. split.
  - intros (a & y & q & b & E & N & ->). apply snoc_split in E as [(_ & _ & E)|(c & -> & ->)]; [discriminate|]. apply no_model_snoc in N as [N _]. exists (set_body (q_body q +++ added c) q).
    split; [exists a, y, q, c; now repeat split|]. rewrite added_snoc. unfold add_text, set_body. cbn. now rewrite append_assoc.
  - intros (m0 & (a & y & q & b & -> & N & ->) & ->). exists a, y, q, (b ++ [(x, Adds s)]). split; [now rewrite <- app_assoc|]. split; [apply no_model_snoc; split; [exact N|discriminate]|].
    rewrite added_snoc. unfold add_text, set_body. cbn. now rewrite append_assoc.
Qed.
Definition idle (r : reading) : Prop := match r with Loads _ | Adds _ => False | _ => True end.
Lemma model_idle : forall l x r m, idle r -> (model_so_far (l ++ [(x, r)]) m <-> model_so_far l m).
Proof.
  intros l x r m I. assert (X : forall b, added (b ++ [(x, r)]) = added b). { intros b. unfold added. rewrite flat_map_app. destruct r; try contradiction; cbn; now rewrite app_nil_r. }
  split.
  - intros (a & y & q & b & E & N & ->). apply snoc_split in E as [(_ & _ & E)|(c & -> & ->)]; [injection E as _ ->; contradiction|]. apply no_model_snoc in N as [N _]. exists a, y, q, c. rewrite X. now repeat split.
  - intros (a & y & q & b & -> & N & ->). exists a, y, q, (b ++ [(x, r)]). split; [now rewrite <- app_assoc|]. split; [apply no_model_snoc; split; [exact N|intros p ->; contradiction]|]. now rewrite X.
Qed.
Lemma model_unique : forall l m n, model_so_far l m -> model_so_far l n -> m = n.
Proof.
  induction l as [|[x r] l IH] using rev_ind; intros m n A B; [destruct A as (a & y & q & b & E & _); now destruct a|]. destruct r as [p|s|hs|a|].
  - apply model_loads in A, B. congruence.
  - apply model_adds in A as (m0 & A & ->), B as (n0 & B & ->). now rewrite (IH _ _ A B).
  - apply model_idle in A, B; [now apply IH|exact I..].
  - apply model_idle in A, B; [now apply IH|exact I..].
  - apply model_idle in A, B; [now apply IH|exact I..].
Qed.

Section Resources.
Context (source : string) (index : list N).
Context (nested : section_type -> list tree -> tree -> outcome (list annotation)) (found_none : section_type -> list tree -> bool).
Hypothesis Small : (slen source < 2 ^ 63)%N.
Hypothesis Indexed : List.length index = String.length source.
Hypothesis Nul : ~ StringSpec.has NUL source.
Hypothesis Nest : answers nested.
Notation fine := (PayloadsNodes.fine source).
Notation sound := (sound source).
Notation sound_examples := (sound_examples source).
Notation plus := (plus index).
Notation after := (after index).
Notation warned_ok := (warned_ok source index Small Indexed).
Notation resource_reads := (resource_reads source index nested found_none).
Notation resource_part := (resource_part source index nested found_none).
Notation resource_parts := (resource_parts source index nested found_none).

Lemma failed_ok : forall t text st, fine t -> failed index text (t_map t) st = Val (after st (s_models st) [Fails text (place t)]).
Proof. intros t text st [_ F]. unfold failed. change (t_map t) with (place t). rewrite (set_fine source index Small Indexed (place t) F). unfold after. cbn. now rewrite app_nil_r. Qed.

Definition inv_r (l : listing) (last : section_type) (r : resource) : Prop :=
  headers_so_far l (e_headers r) /\ tracks a_model l last /\ (model_so_far l (e_model r) \/ (no_model l /\ e_model r = empty_payload)) /\
  (a_model last -> model_so_far l (e_model r)) /\ e_actions r = actions_of l /\ Forall (fun a => sound_examples (a_examples a)) (e_actions r).
Definition same_header (r r' : resource) : Prop := e_name r' = e_name r /\ e_uri r' = e_uri r.
Lemma actions_snoc : forall l x r, actions_of (l ++ [(x, r)]) = actions_of l ++ match r with Acts a => [a] | _ => [] end.
Proof. intros l x r. unfold actions_of. rewrite flat_map_app. cbn. now rewrite app_nil_r. Qed.

Lemma model_step : forall l last r ty t st, inv_r l last r -> model_item ty t -> node_fits source t ->
  exists p ev r' ms, model_reads source index nested found_none (find_model (s_models st)) (e_name r) (e_uri r) l ty t p (find_model ms) ev /\
    read_model source index nested found_none ty t r st = Val (r', after st ms ev) /\ r' = set_model p r.
Proof.
  intros l last r ty t st (Hd & Tr & Mo & Ml & Ac & So) It Fit. destruct (model_typed _ _ It) as (Ty & sh & Fo). destruct (fits_payload _ _ _ Fit (or_intror (or_intror It))) as (In_ & Rest).
  destruct (item_reads source index nested found_none Small Indexed (find_model (s_models st)) ty Model_ sh t Nul Nest In_ Rest Fo Ty) as (p0 & cs & Sy & _ & Pa). destruct (inside_parts source t In_) as (Ft & _).
  unfold read_model, read_payload. rewrite Pa. cbn [andthen]. change (with_warnings (s_warnings st ++ map (shown index) cs) st) with (plus st cs).
  assert (S1 : exists ev1, second_model (e_name r) (e_uri r) l t ev1 /\ forall st, (if String.eqb (q_name (e_model r)) "" then Val st
           else warned index DuplicateWarning ("overshadowing previous model definition for '" +++ (if String.eqb (e_name r) "" then e_uri r else e_name r +++ "(" +++ e_uri r +++ ")") +++
                  "' resource, a resource can be represented by a single model only") (t_map t) st) = Val (after st (s_models st) ev1)).
  { destruct (String.eqb_spec (q_name (e_model r)) "") as [E|E].
    - exists []. split; [right; split; [|reflexivity]|intros s; now rewrite after_nil]. intros m M. destruct Mo as [Mo|[Mo _]]; [now rewrite (model_unique _ _ _ M Mo)|]. destruct M as (a & x & p & b & -> & _). elim (Mo x p). apply in_app_iff. right. now left.
    - eexists. split; [left; exists (e_model r); split; [destruct Mo as [Mo|[_ Mo]]; [exact Mo|rewrite Mo in E; now elim E]|]; split; [exact E|]; eexists; split; [|reflexivity]|].
      + instantiate (1 := if String.eqb (e_name r) "" then e_uri r else (e_name r +++ "(" +++ e_uri r +++ ")")%string). destruct (String.eqb_spec (e_name r) "") as [N|N]; [left|right]; now split.
      + intros s. rewrite (warned_ok t DuplicateWarning _ s Ft), plus_after. reflexivity. }
  destruct S1 as (ev1 & S1 & E1). rewrite E1. cbn [andthen]. clear E1.
  set (p := if negb (String.eqb (q_name p0) "") then p0 else set_name (e_name r) p0).
  assert (Nm : model_named (e_name r) p0 p). { unfold p. destruct (String.eqb_spec (q_name p0) "") as [N|N]; [right|left]; now split. }
  assert (S2 : exists ev2, nameless (e_uri r) t p ev2 /\ forall st, (if (negb (String.eqb (q_name p0) "") || negb (String.eqb (e_name r) ""))%bool then Val st
           else failed index ("resource model can be specified only for a named resource, name your resource, e.g. '# <resource name> [" +++ e_uri r +++ "]'") (t_map t) st) = Val (after st (s_models st) ev2)).
  { unfold p. destruct (String.eqb_spec (q_name p0) "") as [N|N]; cbn [negb orb].
    - destruct (String.eqb_spec (e_name r) "") as [N'|N']; cbn [negb].
      + eexists. split; [left; split; [exact N'|reflexivity]|]. intros s. now apply failed_ok.
      + exists []. split; [right; split; [exact N'|reflexivity]|]. intros s. now rewrite after_nil.
    - exists []. split; [right; split; [exact N|reflexivity]|]. intros s. now rewrite after_nil. }
  destruct S2 as (ev2 & S2 & E2). rewrite E2. cbn [andthen]. clear E2. rewrite plus_after, !after_app, !after_models.
  set (st1 := after st (s_models st) (map Warns cs ++ ev1 ++ ev2)).
  assert (S3 : exists ev3 ms, defines (find_model (s_models st)) t p (find_model ms) ev3 /\ match find_model (s_models st) (q_name p) with
           | None => Val (State (s_models st ++ [(q_name p, p)]) (s_error st1) (s_warnings st1))
           | Some _ => failed index ("symbol '" +++ q_name p +++ "' already defined") (t_map t) st1
           end = Val (after st1 ms ev3)).
  { destruct (find_model (s_models st) (q_name p)) as [m|] eqn:F.
    - eexists. exists (s_models st). split; [left; split; [congruence|]; split; [reflexivity|reflexivity]|]. rewrite (failed_ok t _ st1 Ft). reflexivity.
    - exists [], (s_models st ++ [(q_name p, p)]). split; [right; split; [exact F|]; split; [rewrite find_more, F, String.eqb_refl; reflexivity|]; split; [|reflexivity]|].
      + intros i N. rewrite find_more. destruct (find_model (s_models st) i); [reflexivity|]. destruct (String.eqb_spec (q_name p) i) as [E|]; [now elim N|reflexivity].
      + unfold after. cbn. now rewrite app_nil_r. }
  destruct S3 as (ev3 & ms & S3 & E3). exists p, (map Warns cs ++ ev1 ++ ev2 ++ ev3). eexists. exists ms. split; [|split; [|reflexivity]].
  - exists sh, p0, cs, ev1, ev2, ev3. repeat (split; [assumption|]). reflexivity.
  - refine (eq_trans (f_equal (fun z => andthen z (fun st => Val (set_model p r, st))) E3) _). cbn [andthen]. unfold st1. rewrite after_app, <- !app_assoc. reflexivity.
Qed.
Lemma state_after : forall st w ms, State ms (s_error (plus st w)) (s_warnings (plus st w)) = after st ms (map Warns w).
Proof. intros st w ms. rewrite plus_after. reflexivity. Qed.
Lemma forms_model : forall ty, a_model ty -> exists k sh, form ty k sh.
Proof. intros ty [<-|[<-|[]]]; [now exists Model_, false|now exists Model_, true]. Qed.
Lemma same_resource : forall r, Resource (e_name r) (e_uri r) (e_model r) (e_headers r) (e_actions r) = r.
Proof. now intros []. Qed.
Lemma idle_step : forall l last last' r x y hs, inv_r l last r -> idle y -> (forall a, y <> Acts a) -> headers_so_far (l ++ [(x, y)]) hs -> tracks a_model (l ++ [(x, y)]) last' -> (last' = last \/ ~ a_model last') ->
  inv_r (l ++ [(x, y)]) last' (Resource (e_name r) (e_uri r) (e_model r) hs (e_actions r)).
Proof.
  intros l last last' r x y hs (Hd & Tr & Mo & Ml & Ac & So) Id Na Hs T D. split; [exact Hs|]. split; [exact T|]. cbn [e_model e_actions]. split; [|split; [|split; [|exact So]]].
  - destruct Mo as [Mo|[Mo E]]; [left; now apply model_idle|right]. split; [|exact E]. apply no_model_snoc. split; [exact Mo|]. intros p ->. contradiction.
  - intros K. apply model_idle; [exact Id|]. destruct D as [->|D]; [now apply Ml|contradiction].
  - rewrite actions_snoc, Ac. destruct y; try (now rewrite app_nil_r). now elim (Na a).
Qed.
Lemma resource_step : forall l last r x rest st, inv_r l last r -> resource_rule (map fst l) x rest -> Forall (node_fits source) (part_nodes x) ->
  exists y ms ev last' r', resource_reads (e_name r) (e_uri r) (find_model (s_models st)) l x y (find_model ms) ev /\ resource_part last x r st = Val (last', r', after st ms ev) /\
    inv_r (l ++ [(x, y)]) last' r' /\ same_header r r'.
Proof.
  intros l last r x rest st Iv Rule Fit. destruct x as [t|t|t|ty t|t|t|s]; cbn in Rule; try contradiction; [| | |]; try (cbn [part_nodes] in Fit; apply Forall_inv in Fit).
  - assert (D : model_item ty t \/ (ty = HeadersSection /\ item_says reads_headers t) \/ (In ty [ParametersSection; AttributesSection])).
    { destruct Rule as [[[-> _]|[[-> H]|[-> _]]]|H]; cbn; tauto. }
    destruct D as [D|[(-> & D)|D]].
    + destruct (model_step l last r ty t st Iv D Fit) as (p & ev & r' & ms & Md & E & Er). destruct (model_typed _ _ D) as (_ & sh & Fo). assert (Am : a_model ty) by (destruct sh; cbn in Fo; rewrite Fo; cbn; auto).
      exists (Loads p), ms, ev, ty, r'. split; [left; split; [exact Am|]; now exists p|]. split; [|split].
      * assert (Step : resource_part last (Listed ty t) r st = andthen (read_model source index nested found_none ty t r st) (fun '(r, st) => Val (ty, r, st))) by (destruct Am as [<-|[<-|[]]]; reflexivity). rewrite Step, E. reflexivity.
      * rewrite Er. destruct Iv as (Hd & Tr & Mo & Ml & Ac & So). split; [cbn; apply heads_other; [exact Hd|discriminate]|]. split; [apply tracks_listed|]. cbn [e_model set_model e_actions].
        split; [left; now apply model_loads|]. split; [intros _; now apply model_loads|]. split; [rewrite actions_snoc, app_nil_r; exact Ac|exact So].
      * rewrite Er. now split.
    + pose proof Iv as (Hd & _). destruct (headers_of source index Small Indexed Nul ResourceSection l t (e_headers r) st eq_refl Hd D Fit) as (hs & w & Hr & E).
      exists (Heads hs), (s_models st), (map Warns w), HeadersSection. eexists. split; [right; left; split; [reflexivity|]; exists hs, w; now repeat split|]. split; [cbn [Transactions.resource_part]; rewrite E; cbn [andthen]; rewrite plus_after; reflexivity|].
      split; [|now split]. apply (idle_step l last); [exact Iv|exact I|discriminate|apply heads_more|apply tracks_listed|]. right. intros [X|[X|[]]]; discriminate.
    + assert (Np : ~ a_model ty /\ ty <> HeadersSection) by (destruct D as [<-|[<-|[]]]; (split; [intros [X|[X|[]]]; discriminate|discriminate])). destruct Np as [Np Nh].
      exists Nothing_, (s_models st), [], ty, r. split; [right; right; now repeat split|]. split; [rewrite after_nil; destruct D as [<-|[<-|[]]]; reflexivity|]. split; [|now split]. rewrite <- (same_resource r).
      apply (idle_step l last); [exact Iv|exact I|discriminate| |apply tracks_listed|now right]. apply heads_other; [now apply Iv|discriminate].
  - destruct Rule as [Tx Ra]. destruct Iv as (Hd & Tr & Mo & Ml & Ac & So). destruct (text_of source index Small Indexed a_model l last t st Tr Ra forms_model Tx Fit) as (s & w & Rd & E). pose proof (Ml (proj2 (Tr Ra))) as Ms.
    exists (Adds s), (update_model (q_name (e_model r)) (q_body (e_model r) +++ s) (s_models st)), (map Warns w), last, (set_model (add_text s (e_model r)) r). split; [|split; [|split]].
    + exists s, (e_model r), w. split; [reflexivity|]. split; [exact Rd|]. split; [exact Ms|]. split; [reflexivity|]. split.
      * rewrite find_update, String.eqb_refl. destruct (find_model (s_models st) (q_name (e_model r))); reflexivity.
      * intros i N. rewrite find_update. destruct (String.eqb_spec (q_name (e_model r)) i) as [K|K]; [now elim N|reflexivity].
    + cbn [Transactions.resource_part]. unfold model_text. rewrite E. cbn [andthen]. cbv zeta. rewrite state_after. reflexivity.
    + split; [cbn; apply heads_other; [exact Hd|discriminate]|]. split; [now apply tracks_dangling|]. cbn [e_model set_model e_actions]. assert (M' : model_so_far (l ++ [(Dangling t, Adds s)]) (add_text s (e_model r))) by (apply model_adds; now exists (e_model r)).
      split; [now left|]. split; [intros _; exact M'|]. split; [rewrite actions_snoc, app_nil_r; exact Ac|exact So].
    + now split.
  - destruct (inside_parts source t (proj1 Fit)) as (Ft & _). destruct (ignored_total t) as (w & H). exists Nothing_, (s_models st), (map Warns w), last, r. split; [now exists w|]. split; [|split].
    + cbn [Transactions.resource_part]. unfold ignoring. rewrite (ignored_of source index Small Indexed t w _ Ft H). cbn [andthen]. change (with_warnings (s_warnings st ++ map (shown index) w) st) with (plus st w). now rewrite plus_after.
    + rewrite <- (same_resource r). apply (idle_step l last); [exact Iv|exact I|discriminate| | |now left]; [apply heads_other; [now apply Iv|discriminate]|]. apply tracks_ignored. now apply Iv.
    + now split.
  - destruct Rule as [_ Ok]. cbn [part_nodes] in Fit. pose proof (action_ok_reads source index nested found_none Small Indexed Nul Nest s _ st Ok Fit) as X. destruct s as [k ps ex]. destruct X as (a & w1 & Sy & E & Sa).
    pose proof Sy as (h & d & m & _ & _ & _ & _ & _ & _ & _ & Ep & _). assert (Ft : fine h). { rewrite Ep in Fit. apply Forall_inv in Fit. now destruct (inside_parts source h (proj1 Fit)). }
    assert (R : exists w2, repeated_action (e_uri r) l h a w2 /\ forall st, (if existsb (fun x => match_action x a) (e_actions r)
           then warned index DuplicateWarning ("action with method '" +++ a_method a +++ "' already defined for resource '" +++ e_uri r +++ "'") (t_map h) st else Val st) = Val (plus st w2)).
    { assert (X : existsb (fun x => match_action x a) (e_actions r) = true <-> exists x b, In (x, Acts b) l /\ a_uri b = a_uri a /\ a_method b = a_method a).
      { destruct Iv as (_ & _ & _ & _ & Ac & _). rewrite existsb_exists, Ac. unfold actions_of. split.
        - intros (b & I1 & M). apply in_flat_map in I1 as ((x & y) & I1 & I2). destruct y; cbn in I2; try contradiction. destruct I2 as [->|[]]. exists x, b. split; [exact I1|]. unfold match_action in M. now rewrite andb_true_iff, !String.eqb_eq in M.
        - intros (x & b & I1 & M). exists b. split; [apply in_flat_map; exists (x, Acts b); split; [exact I1|now left]|]. unfold match_action. now rewrite andb_true_iff, !String.eqb_eq. }
      destruct (existsb (fun x => match_action x a) (e_actions r)).
      - eexists. split; [left; split; [now apply X|reflexivity]|]. intros st'. now apply warned_ok.
      - exists []. split; [right; split; [|reflexivity]|intros; now rewrite plus_nil]. intros K. apply X in K. discriminate. }
    destruct R as (w2 & R & E2). exists (Acts a), (s_models st), (map Warns (w1 ++ w2)), ActionSection, (add_action a r). split; [|split; [|split]].
    + exists h, a, w1, w2. split; [reflexivity|]. split; [reflexivity|]. split; [rewrite Ep; reflexivity|]. now repeat split.
    + cbn [Transactions.resource_part]. unfold Transactions.take_action. rewrite E. cbn [andthen]. rewrite Ep. cbn [head_of]. rewrite E2. cbn [andthen]. now rewrite plus_app, plus_after.
    + destruct Iv as (Hd & Tr & Mo & Ml & Ac & So). split; [cbn; apply heads_other; [exact Hd|discriminate]|]. split; [apply tracks_sub|]. cbn [e_model add_action e_actions]. split; [|split; [|split]].
      * destruct Mo as [Mo|[Mo K]]; [left; now apply model_idle|right]. split; [|exact K]. apply no_model_snoc. split; [exact Mo|discriminate].
      * intros [X|[X|[]]]; discriminate.
      * now rewrite actions_snoc, Ac.
      * apply Forall_app. split; [exact So|]. constructor; [exact Sa|constructor].
    + now split.
Qed.
Lemma resource_run : forall ps l last r rest st, inv_r l last r -> in_order resource_rule (map fst l) ps rest -> Forall (node_fits source) (nodes_of ps) ->
  exists m ms ev r' last', map fst m = ps /\ go_through source index nested found_none (e_name r) (e_uri r) (find_model (s_models st)) l m (find_model ms) ev /\
    resource_parts last ps r st = Val (r', after st ms ev) /\ inv_r (l ++ m) last' r' /\ same_header r r'.
Proof.
  induction ps as [|x ps IH]; intros l last r rest st Iv Or Fit.
  - exists [], (s_models st), [], r, last. split; [reflexivity|]. split; [constructor|]. split; [cbn; now rewrite after_nil|]. rewrite app_nil_r. now split.
  - inversion Or as [|done p qs rest' Rule Or']; subst. cbn [nodes_of flat_map] in Fit. apply Forall_app in Fit as [F1 F2].
    destruct (resource_step l last r x _ st Iv Rule F1) as (y & ms1 & e & last1 & r1 & Rd & E & Iv1 & (K1 & K2)).
    destruct (IH (l ++ [(x, y)]) last1 r1 rest (after st ms1 e) Iv1) as (m & ms2 & f & r2 & last2 & Em & Rt & E2 & Iv2 & (K3 & K4)); [rewrite map_app; exact Or'|exact F2|].
    rewrite after_models, K1, K2 in Rt. exists ((x, y) :: m), ms2, (e ++ f), r2, last2. split; [cbn; now rewrite Em|]. split; [econstructor; [exact Rd|exact Rt]|].
    split; [cbn [Transactions.resource_parts]; rewrite E; cbn [andthen]; rewrite E2; now rewrite after_app|]. split; [now rewrite <- app_assoc in Iv2|]. split; congruence.
Qed.
Lemma resource_texts : forall d ps last r st, resource_parts last (map Text d ++ ps) r st = resource_parts last ps r st.
Proof. induction d as [|t d IH]; intros; [reflexivity|]. cbn [map app Transactions.resource_parts Transactions.resource_part andthen]. apply IH. Qed.
Definition sound_resource (r : resource) : Prop := Forall (fun a => sound_examples (a_examples a)) (e_actions r).
Lemma sound_headed : forall hs ex, sound_examples ex -> sound_examples (on_payloads (headed hs) ex).
Proof. intros hs ex H. unfold TransactionsAction.sound_examples, on_payloads. rewrite Forall_map. refine (Forall_impl _ _ H). intros [q r] [A B]. cbn [fst snd] in *. rewrite !Forall_map. split; [exact A|exact B]. Qed.
Lemma headed_none : forall a, headed_action [] a = a.
Proof.
  intros [n m u hs ex]. unfold headed_action. cbn. f_equal. unfold on_payloads. rewrite <- (map_id ex) at 2. apply map_ext. intros [q r]. cbn. f_equal; (rewrite <- map_id; apply map_ext; intros []; reflexivity).
Qed.
Lemma finalized : forall r, resource_finalize r = Resource (e_name r) (e_uri r) (e_model r) [] (map (headed_action (e_headers r)) (e_actions r)).
Proof.
  intros [n u m hs acts]. unfold resource_finalize. cbn. destruct hs as [|h hs]; [|reflexivity]. f_equal. rewrite <- (map_id acts) at 1. apply map_ext. intros a. symmetry. apply headed_none.
Qed.
Lemma resource_ok_reads : forall s rest st, resource_ok s rest -> Forall (node_fits source) (section_nodes s) -> match s with Sec _ ps _ =>
  exists r ms ev, resource_says source index nested found_none (find_model (s_models st)) ps r (find_model ms) ev /\ read_resource source index nested found_none ps st = Val (r, after st ms ev) /\ sound_resource r /\
    (exists h, fine h /\ first_is (fun u => u = h) (nodes_of ps) /\ (match ps with Head t :: _ => t_map t | Sub (Sec _ (Head t :: _) _) :: _ => t_map t | _ => [] end) = place h) end.
Proof.
  intros s rest st [(a & h & -> & Hh & _ & Ok)|(h & d & ps & -> & Hh & _ & _ & Or & _)] Fit.
  - cbn [section_nodes part_nodes flat_map] in Fit. assert (Fa : Forall (node_fits source) (section_nodes a)) by (revert Fit; cbn; now rewrite app_nil_r).
    pose proof (action_ok_reads source index nested found_none Small Indexed Nul Nest a _ st Ok Fa) as X. destruct a as [k qs ex]. destruct X as (a & w & Sy & E & Sa). pose proof Sy as (h' & d & m & _ & _ & _ & _ & _ & _ & _ & Ep & _).
    destruct (resource_header h') as [name uri] eqn:Rh. exists (Resource name uri empty_payload [] [a]), (s_models st), (map Warns w). split; [|split; [|split]].
    + left. exists k, qs, ex, h', a, w, name, uri. split; [reflexivity|]. split; [rewrite Ep; reflexivity|]. now repeat split.
    + unfold read_resource. rewrite Ep at 1. cbn [head_of]. rewrite Rh, E. cbn [andthen]. rewrite finalized. cbn. now rewrite headed_none, plus_after.
    + constructor; [exact Sa|constructor].
    + exists h'. rewrite Ep in Fa |- *. apply Forall_inv in Fa. split; [now destruct (inside_parts source h' (proj1 Fa))|]. now split.
  - rewrite head_text in Fit. inversion Fit as [|? ? Fh Fit']; subst. apply Forall_app in Fit' as [_ Fp]. destruct (resource_header h) as [name uri] eqn:Rh.
    assert (Iv0 : inv_r [] UndefinedSection (Resource name uri empty_payload [] [])).
    { split; [exact heads_nil|]. split; [apply tracks_nil|]. cbn. split; [right; split; [intros x p []|reflexivity]|]. split; [intros [X|[X|[]]]; discriminate|]. split; [reflexivity|constructor]. }
    destruct (resource_run ps [] UndefinedSection _ rest st Iv0 Or Fp) as (l & ms & ev & r & last & El & Gt & E & (Hd & _ & Mo & _ & Ac & So) & (K1 & K2)). cbn [e_name e_uri app] in *.
    exists (resource_finalize r), ms, ev. split; [|split; [|split]].
    + right. exists h, d, l, (e_headers r), name, uri, (e_model r). split; [now rewrite El|]. repeat (split; [assumption|]). rewrite finalized, Ac, K1, K2. reflexivity.
    + assert (X : read_resource source index nested found_none (Head h :: map Text d ++ ps) st = andthen (resource_parts UndefinedSection (Head h :: map Text d ++ ps) new_resource st) (fun '(r, st) => Val (resource_finalize r, st))) by reflexivity.
      rewrite X. cbn [Transactions.resource_parts Transactions.resource_part]. rewrite Rh. cbn [andthen new_resource e_model e_headers e_actions]. rewrite resource_texts, E. reflexivity.
    + rewrite finalized. unfold sound_resource. cbn. rewrite Forall_map. refine (Forall_impl _ _ So). intros a. apply sound_headed.
    + exists h. split; [now destruct (inside_parts source h (proj1 Fh))|]. now split.
Qed.
End Resources.
