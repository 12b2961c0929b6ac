(** Lemmas for C78: actions *)
From Verif Require Import Base StringUtility StringSpec StringProofs SignatureProofs Regex RegexSpec RegexProofs ByteBuffer ByteSpec ByteProofs Markdown MarkdownSpec MarkdownTree Keywords KeywordsSpec KeywordsProofs KeywordsOrder Prop_Keywords TypeTables Sections SectionsSpec SectionsKeys SectionsLoop SectionsUnique.
From Verif Require Import Source Headers HeadersSpec HeadersProofs Prop_Headers Payloads PayloadsSpec PayloadsText PayloadsLine PayloadsNodes PayloadsParts PayloadsLoop PayloadsShort PayloadsWhole Prop_Payloads Transactions TransactionsSpec TransactionsBase.
Local Open Scope string_scope.
Local Open Scope list_scope.

Lemma back_snoc : forall l e, back (l ++ [e]) = e.
Proof. intros. apply last_last. Qed.
Lemma on_back_snoc : forall f l e, on_back f (l ++ [e]) = l ++ [f e].
Proof. intros f l e. unfold on_back. rewrite back_snoc, removelast_last. destruct l; reflexivity. Qed.
Lemma on_last_payload_snoc : forall f l p, on_last_payload f (l ++ [p]) = l ++ [f p].
Proof. intros f l p. unfold on_last_payload. rewrite last_last, removelast_last. destruct l; reflexivity. Qed.
Lemma open_request_snoc : forall l e, open_request (l ++ [e]) = match snd e with [] => l ++ [e] | _ => (l ++ [e]) ++ [([], [])] end.
Proof. intros l e. unfold open_request. rewrite back_snoc. destruct l; destruct (snd e); reflexivity. Qed.
Lemma open_response_snoc : forall l e, open_response (l ++ [e]) = l ++ [e].
Proof. intros [|x l] e; reflexivity. Qed.
Lemma on_payloads_app : forall A B (f : A -> B) a b, on_payloads f (a ++ b) = on_payloads f a ++ on_payloads f b.
Proof. intros. apply map_app. Qed.
Lemma allows_iff : forall method, method_allows_body method = false <-> method = "HEAD" \/ method = "CONNECT".
Proof. intros method. unfold method_allows_body. rewrite negb_false_iff, orb_true_iff, !String.eqb_eq. tauto. Qed.
Lemma hundreds : forall n, (n / 100 =? 2)%N = true <-> (200 <= n < 300)%N.
Proof.
  intros n. rewrite N.eqb_eq. split; intros H.
  - pose proof (N.div_mod n 100 ltac:(discriminate)) as D. pose proof (N.mod_lt n 100 ltac:(discriminate)). rewrite H in D. remember (n mod 100)%N as m. lia.
  - symmetry. apply (N.div_unique n 100 2 (n - 200)); lia.
Qed.

Section Actions.
Context (source : string) (index : list N).
Context (nested : section_type -> list tree -> tree -> outcome (list annotation)) (found_none : section_type -> list tree -> bool).
Hypothesis Small : (slen source < 2 ^ 63)%N.
Hypothesis Indexed : List.length index = String.length source.
Notation fine := (PayloadsNodes.fine source).
Notation sound := (sound source).
Notation plus := (plus index).

Lemma warned_ok : forall t code text st, fine t -> warned index code text (t_map t) st = Val (plus st [About code text (place t)]).
Proof. intros t code text st F. unfold warned. rewrite (warn_ok source index Small Indexed t code text _ F). reflexivity. Qed.
Lemma body_ok : forall method k t p, tidy_name (q_name p) -> exists w, body_check method k t p w.
Proof.
  intros method k t p Td. assert (D : (exists what, unwelcome method k p what) \/ ~ exists what, unwelcome method k p what).
  { destruct k; try (right; intros (what & H & _); discriminate). destruct (String.eqb_spec (q_body p) "") as [E|E]; [right; intros (what & _ & H & _); contradiction|].
    destruct (String.eqb_spec method "HEAD") as [->|N]; [left; exists "HEAD"; split; [reflexivity|]; split; [exact E|now left]|]. destruct (String.eqb_spec method "CONNECT") as [->|N'].
    - destruct (read_code (q_name p) / 100 =? 2)%N eqn:C.
      + left. exists (decimal (read_code (q_name p)) +++ " CONNECT")%string. split; [reflexivity|]. split; [exact E|]. right. split; [reflexivity|]. exists (read_code (q_name p)). split; [now apply status_iff|]. split; [now apply hundreds|reflexivity].
      + right. intros (what & _ & _ & [[H _]|(_ & n & S1 & H & _)]); [discriminate|]. apply (status_iff _ _ Td) in S1. subst n. apply hundreds in H. congruence.
    - right. intros (what & _ & _ & [[H _]|[H _]]); contradiction. }
  destruct D as [(what & D)|D]; eexists; [left; exists what; split; [exact D|reflexivity]|right; split; [|reflexivity]; intros what H; apply D; now exists what].
Qed.
Lemma check_ok : forall ty k sh t p method e l st, form ty k sh -> k <> Model_ -> tidy_name (q_name p) -> fine t -> (duplicate_payload ty p e = true <-> sh = false /\ repeated l k p) ->
  exists w2 w3, repetition method l k sh t p w2 /\ body_check method k t p w3 /\ check_payload index ty t p method e st = Val (plus st (w2 ++ w3)).
Proof.
  intros ty k sh t p method e l st Fo Nm Td F D. unfold check_payload.
  assert (X : exists w2, repetition method l k sh t p w2 /\ (if duplicate_payload ty p e
           then warned index DuplicateWarning (section_name ty +++ " payload `" +++ q_name p +++ "` already defined for `" +++ method +++ "` method") (t_map t) st
           else Val st) = Val (plus st w2)).
  { destruct (duplicate_payload ty p e) eqn:E.
    - destruct (proj1 D eq_refl) as [E1 E2]. eexists. split; [left; split; [exact E1|]; split; [exact E2|reflexivity]|]. rewrite (form_name _ _ _ Fo). now apply warned_ok.
    - exists []. split; [right; split; [|reflexivity]|now rewrite plus_nil]. intros H. apply D in H. discriminate. }
  destruct X as (w2 & R & ->). cbn [andthen]. destruct (body_ok method k t p Td) as (w3 & B). exists w2, w3. split; [exact R|]. split; [exact B|]. rewrite <- plus_app. generalize (plus st w2) as st'. intros st'. clear R D st.
  destruct k; try contradiction.
  - assert (Q : Payloads.is_response ty = false) by (destruct sh; cbn in Fo; subst ty; reflexivity). rewrite Q. destruct B as [(what & (K & _) & _)|(_ & ->)]; [discriminate|]. now rewrite plus_nil.
  - assert (Q : Payloads.is_response ty = true) by (destruct sh; cbn in Fo; subst ty; reflexivity). rewrite Q. cbv zeta. clear Q.
    assert (Silent : (forall what, ~ unwelcome method Response_ p what) -> w3 = []) by (intros H; destruct B as [(what & B & _)|(_ & ->)]; [elim (H what B)|reflexivity]).
    assert (Says : forall what, unwelcome method Response_ p what -> w3 = [About 6 ("the response for " +++ what +++ " request MUST NOT include a message-body") (place t)]).
    { intros what H. destruct B as [(what' & B & ->)|(B & _)]; [|elim (B what H)]. destruct B as (_ & _ & B), H as (_ & _ & H). destruct B as [(-> & ->)|(-> & n & S1 & _ & ->)], H as [(E & ->)|(E & n' & S2 & _ & ->)]; try discriminate E; [reflexivity|].
      apply (status_iff _ _ Td) in S1, S2. now rewrite <- S1, <- S2. }
    clear B. destruct (method_allows_body method) eqn:Al; cbn [negb andb].
    + rewrite Silent; [now rewrite plus_nil|]. intros what (_ & _ & H). assert (method = "HEAD" \/ method = "CONNECT") as H' by tauto. apply allows_iff in H'. congruence.
    + destruct (String.eqb_spec (q_body p) "") as [E|E]; cbn [negb andb].
      * rewrite Silent; [now rewrite plus_nil|]. intros what (_ & H & _). contradiction.
      * apply allows_iff in Al as [-> | ->].
        -- change (String.eqb "HEAD" "CONNECT") with false. cbn [negb andb]. rewrite (Says "HEAD"); [now apply warned_ok|]. split; [reflexivity|]. split; [exact E|]. left. now split.
        -- change (String.eqb "CONNECT" "CONNECT") with true. cbn [negb andb]. destruct (read_code (q_name p) / 100 =? 2)%N eqn:C.
           ++ rewrite (Says (decimal (read_code (q_name p)) +++ " CONNECT")%string).
              ** change (fun (x : string) => x) with (@id string). rewrite (append_assoc _ " CONNECT"). now apply warned_ok.
              ** split; [reflexivity|]. split; [exact E|]. right. split; [reflexivity|]. exists (read_code (q_name p)). split; [now apply status_iff|]. split; [now apply hundreds|reflexivity].
           ++ rewrite Silent; [now rewrite plus_nil|]. intros what (_ & _ & [[H _]|(_ & n & S1 & H & _)]); [discriminate|]. apply (status_iff _ _ Td) in S1. subst n. apply hundreds in H. congruence.
Qed.

(** ** the state of an action *)
Definition sound_pairs (ex : pairs) : Prop := Forall (fun e => Forall (fun y => sound Request_ (l_payload y)) (fst e) /\ Forall (fun y => sound Response_ (l_payload y)) (snd e)) ex.
Definition inv (l : listing) (last : section_type) (a : action) (ex : pairs) : Prop :=
  exchanges l ex /\ a_examples a = on_payloads complete ex /\ headers_so_far l (a_headers a) /\ tracks a_payload l last /\
  (In last [RequestSection; RequestBodySection] -> exists b q y, ex = b ++ [(q ++ [y], [])]) /\
  (In last [ResponseSection; ResponseBodySection] -> exists b q r y, ex = b ++ [(q, r ++ [y])]) /\ sound_pairs ex.
Lemma alike_complete : forall y p, alike (complete y) p <-> alike (l_payload y) p.
Proof. reflexivity. Qed.
Lemma exists_alike : forall ys p, existsb (fun x => match_payload x p) (map complete ys) = true <-> exists y, In y ys /\ alike (l_payload y) p.
Proof.
  intros ys p. rewrite existsb_exists. split.
  - intros (x & I & M). apply in_map_iff in I as (y & <- & I). exists y. split; [exact I|]. now apply alike_iff in M.
  - intros (y & I & A). exists (complete y). split; [now apply in_map|now apply alike_iff].
Qed.
Hypothesis Nul : ~ StringSpec.has NUL source.
Hypothesis Nest : answers nested.
Notation action_part := (action_part source index nested found_none).
Notation action_reads := (action_reads source index nested found_none).
Notation action_parts := (action_parts source index nested found_none).
Definition kept (a b : action) : Prop := a_name b = a_name a /\ a_method b = a_method a /\ a_uri b = a_uri a.

(** a request *)
Lemma request_step : forall l last a ex ty t st, inv l last a ex -> request_item ty t -> node_fits source t ->
  exists r w a' ex', action_reads (find_model (s_models st)) (a_method a) l (Listed ty t) r w /\ action_part last (Listed ty t) a st = Val (ty, a', plus st w) /\ inv (l ++ [(Listed ty t, r)]) ty a' ex' /\ kept a a'.
Proof.
  intros l last a ex ty t st (Ex & Ea & Hd & Tr & Rq & Rs & So) It Fit. destruct (request_typed _ _ It) as (Ty & sh & Fo). destruct (fits_payload _ _ _ Fit (or_introl It)) as (In_ & Rest).
  destruct (item_reads source index nested found_none Small Indexed (find_model (s_models st)) ty Request_ sh t Nul Nest In_ Rest Fo Ty) as (p & cs & Sy & Sp & Pa). destruct (inside_parts source t In_) as (Ft & _).
  assert (Pt : In ty [RequestSection; RequestBodySection]) by (destruct sh; cbn in Fo; subst ty; cbn; auto). set (y := Loaded ty t p []). assert (Ay : asks y) by exact Pt.
  assert (Step : forall e, action_part last (Listed ty t) a st = andthen (read_payload source index nested found_none ty t st) (fun '(p, st) =>
      let l := open_request (a_examples a) in
      andthen (check_payload index ty t p (a_method a) (back l) st) (fun st => Val (ty, set_examples (on_back (fun e => (fst e ++ [p], snd e)) l) a, st))) \/ e = false).
  { intros e. left. destruct Pt as [<-|[<-|[]]]; reflexivity. }
  destruct (Step true) as [Step'|]; [|discriminate]. clear Step. unfold read_payload in Step'. rewrite Pa in Step'. cbn [andthen] in Step'. cbv zeta in Step'.
  assert (Dup : duplicate_payload ty p (back (open_request (a_examples a))) = true <-> sh = false /\ repeated l Request_ p).
  { destruct sh; cbn in Fo; rewrite Fo; cbn [duplicate_payload]; [split; [discriminate|intros [H _]; discriminate]|]. destruct (snoc_cases _ ex) as [->|(b & [q r] & ->)].
    - rewrite Ea. cbn. split; [discriminate|]. intros [_ R]. now apply (repeated_nil _ _ _ Ex) in R.
    - rewrite (repeated_request _ _ _ _ _ Ex). rewrite Ea, on_payloads_app. cbn [on_payloads map fst snd]. rewrite open_request_snoc. cbn [snd]. destruct r as [|z r]; cbn [map].
      + rewrite back_snoc. cbn [fst]. rewrite exists_alike. tauto.
      + rewrite back_snoc. cbn. split; [discriminate|]. intros [_ [H _]]. discriminate. }
  destruct (check_ok ty Request_ sh t p (a_method a) (back (open_request (a_examples a))) l (plus st cs) Fo ltac:(discriminate) (proj1 Sp) Ft Dup) as (w2 & w3 & R1 & R2 & Ck).
  change (with_warnings (s_warnings st ++ map (shown index) cs) st) with (plus st cs) in Step'. rewrite Ck in Step'. cbn [andthen] in Step'. rewrite plus_app in Step'.
  assert (Rd : action_reads (find_model (s_models st)) (a_method a) l (Listed ty t) (Loads p) (cs ++ w2 ++ w3)).
  { left. split; [destruct Pt as [<-|[<-|[]]]; cbn; auto|]. exists p. split; [reflexivity|]. exists Request_, sh, cs, w2, w3. split; [exact Fo|]. split; [discriminate|]. split; [exact Sy|]. split; [exact R1|]. split; [exact R2|reflexivity]. }
  enough (X : exists ex', inv (l ++ [(Listed ty t, Loads p)]) ty (set_examples (on_back (fun e => (fst e ++ [p], snd e)) (open_request (a_examples a))) a) ex').
  { destruct X as (ex' & X). exists (Loads p), (cs ++ w2 ++ w3). eexists. exists ex'. split; [exact Rd|]. split; [exact Step'|]. split; [exact X|repeat split; reflexivity]. }
  assert (Fin : forall ex', exchanges (l ++ [(Listed ty t, Loads p)]) ex' -> on_back (fun e => (fst e ++ [p], snd e)) (open_request (a_examples a)) = on_payloads complete ex' -> (exists b q, ex' = b ++ [(q ++ [y], [])]) -> sound_pairs ex' ->
    inv (l ++ [(Listed ty t, Loads p)]) ty (set_examples (on_back (fun e => (fst e ++ [p], snd e)) (open_request (a_examples a))) a) ex').
  { intros ex' H1 H2 (b & q & H3) H4. split; [exact H1|]. split; [exact H2|]. split; [cbn; apply heads_other; [exact Hd|discriminate]|]. split; [apply tracks_listed|]. split; [|split; [|exact H4]].
    - intros _. now exists b, q, y.
    - intros K. exfalso. exact (asks_replies y Pt K). }
  assert (Cy : complete y = p). { unfold complete, y. cbn. rewrite append_nil_r. destruct p; reflexivity. }
  destruct (snoc_cases _ ex) as [E|(b & [q r] & E)]; [|destruct r as [|z r]].
  - subst ex. eexists; apply (Fin ([] ++ [([y], [])])).
    + apply (exchanges_new l [] [y] [] ty t p Ex); [now left|]. left. now repeat split.
    + rewrite Ea. cbn. now rewrite Cy.
    + now exists [], [].
    + constructor; [|constructor]. split; [|constructor]. constructor; [exact Sp|constructor].
  - subst ex. eexists; apply (Fin (b ++ [(q ++ [y], [])])).
    + now apply exchanges_request.
    + rewrite Ea, !on_payloads_app. cbn [on_payloads map fst snd]. rewrite open_request_snoc. cbn [snd]. rewrite on_back_snoc. cbn [fst snd]. rewrite map_app. cbn [map]. now rewrite Cy.
    + now exists b, q.
    + apply Forall_app in So as [So1 So2]. apply Forall_inv in So2 as [So2 _]. apply Forall_app. split; [exact So1|]. constructor; [|constructor]. split; [|constructor]. apply Forall_app. split; [exact So2|]. constructor; [exact Sp|constructor].
  - subst ex. eexists; apply (Fin ((b ++ [(q, z :: r)]) ++ [([y], [])])).
    + apply (exchanges_new l _ [y] [] ty t p Ex); [|left; now repeat split]. right. exists b, (q, z :: r). repeat split; discriminate.
    + rewrite Ea, !on_payloads_app. cbn [on_payloads map fst snd]. rewrite open_request_snoc. cbn [snd]. rewrite on_back_snoc. cbn. now rewrite Cy.
    + now exists (b ++ [(q, z :: r)]), [].
    + apply Forall_app. split; [exact So|]. constructor; [|constructor]. split; [|constructor]. constructor; [exact Sp|constructor].
Qed.
Lemma response_step : forall l last a ex ty t st, inv l last a ex -> SectionsSpec.response_item ty t -> node_fits source t ->
  exists r w a' ex', action_reads (find_model (s_models st)) (a_method a) l (Listed ty t) r w /\ action_part last (Listed ty t) a st = Val (ty, a', plus st w) /\ inv (l ++ [(Listed ty t, r)]) ty a' ex' /\ kept a a'.
Proof.
  intros l last a ex ty t st (Ex & Ea & Hd & Tr & Rq & Rs & So) It Fit. destruct (response_typed _ _ It) as (Ty & sh & Fo). destruct (fits_payload _ _ _ Fit (or_intror (or_introl It))) as (In_ & Rest).
  destruct (item_reads source index nested found_none Small Indexed (find_model (s_models st)) ty Response_ sh t Nul Nest In_ Rest Fo Ty) as (p & cs & Sy & Sp & Pa). destruct (inside_parts source t In_) as (Ft & _).
  assert (Pt : In ty [ResponseSection; ResponseBodySection]) by (destruct sh; cbn in Fo; subst ty; cbn; auto). set (y := Loaded ty t p []). assert (Ay : replies y) by exact Pt.
  assert (Step : action_part last (Listed ty t) a st = andthen (read_payload source index nested found_none ty t st) (fun '(p, st) =>
      let l := open_response (a_examples a) in
      andthen (check_payload index ty t p (a_method a) (back l) st) (fun st => Val (ty, set_examples (on_back (fun e => (fst e, snd e ++ [p])) l) a, st)))) by (destruct Pt as [<-|[<-|[]]]; reflexivity).
  unfold read_payload in Step. rewrite Pa in Step. cbn [andthen] in Step. cbv zeta in Step.
  assert (Dup : duplicate_payload ty p (back (open_response (a_examples a))) = true <-> sh = false /\ repeated l Response_ p).
  { destruct sh; cbn in Fo; rewrite Fo; cbn [duplicate_payload]; [split; [discriminate|intros [H _]; discriminate]|]. destruct (snoc_cases _ ex) as [->|(b & [q r] & ->)].
    - rewrite Ea. cbn. split; [discriminate|]. intros [_ R]. now apply (repeated_nil _ _ _ Ex) in R.
    - rewrite (repeated_response _ _ _ _ _ Ex). rewrite Ea, on_payloads_app. cbn [on_payloads map fst snd]. rewrite open_response_snoc, back_snoc. cbn [snd]. rewrite exists_alike. tauto. }
  destruct (check_ok ty Response_ sh t p (a_method a) (back (open_response (a_examples a))) l (plus st cs) Fo ltac:(discriminate) (proj1 Sp) Ft Dup) as (w2 & w3 & R1 & R2 & Ck).
  change (with_warnings (s_warnings st ++ map (shown index) cs) st) with (plus st cs) in Step. rewrite Ck in Step. cbn [andthen] in Step. rewrite plus_app in Step.
  assert (Rd : action_reads (find_model (s_models st)) (a_method a) l (Listed ty t) (Loads p) (cs ++ w2 ++ w3)).
  { left. split; [destruct Pt as [<-|[<-|[]]]; cbn; auto|]. exists p. split; [reflexivity|]. exists Response_, sh, cs, w2, w3. split; [exact Fo|]. split; [discriminate|]. split; [exact Sy|]. split; [exact R1|]. split; [exact R2|reflexivity]. }
  enough (X : exists ex', inv (l ++ [(Listed ty t, Loads p)]) ty (set_examples (on_back (fun e => (fst e, snd e ++ [p])) (open_response (a_examples a))) a) ex').
  { destruct X as (ex' & X). exists (Loads p), (cs ++ w2 ++ w3). eexists. exists ex'. split; [exact Rd|]. split; [exact Step|]. split; [exact X|repeat split; reflexivity]. }
  assert (Fin : forall ex', exchanges (l ++ [(Listed ty t, Loads p)]) ex' -> on_back (fun e => (fst e, snd e ++ [p])) (open_response (a_examples a)) = on_payloads complete ex' -> (exists b q r, ex' = b ++ [(q, r ++ [y])]) -> sound_pairs ex' ->
    inv (l ++ [(Listed ty t, Loads p)]) ty (set_examples (on_back (fun e => (fst e, snd e ++ [p])) (open_response (a_examples a))) a) ex').
  { intros ex' H1 H2 (b & q & r & H3) H4. split; [exact H1|]. split; [exact H2|]. split; [cbn; apply heads_other; [exact Hd|discriminate]|]. split; [apply tracks_listed|]. split; [|split; [|exact H4]].
    - intros K. exfalso. exact (asks_replies y K Pt).
    - intros _. now exists b, q, r, y. }
  assert (Cy : complete y = p). { unfold complete, y. cbn. rewrite append_nil_r. destruct p; reflexivity. }
  destruct (snoc_cases _ ex) as [E|(b & [q r] & E)].
  - subst ex. eexists; apply (Fin ([] ++ [([], [y])])).
    + apply (exchanges_new l [] [] [y] ty t p Ex); [now left|]. right. now repeat split.
    + rewrite Ea. cbn. now rewrite Cy.
    + now exists [], [], [].
    + constructor; [|constructor]. split; [constructor|]. constructor; [exact Sp|constructor].
  - subst ex. eexists; apply (Fin (b ++ [(q, r ++ [y])])).
    + now apply exchanges_response.
    + rewrite Ea, !on_payloads_app. cbn [on_payloads map fst snd]. rewrite open_response_snoc, on_back_snoc. cbn [fst snd]. rewrite map_app. cbn [map]. now rewrite Cy.
    + now exists b, q, r.
    + apply Forall_app in So as [So1 So2]. apply Forall_inv in So2 as [So0 So2]. apply Forall_app. split; [exact So1|]. constructor; [|constructor]. split; [exact So0|]. apply Forall_app. split; [exact So2|]. constructor; [exact Sp|constructor].
Qed.
(** headers *)
Lemma headers_of : forall parent l t hs st, parent_form parent Top_ -> headers_so_far l hs -> item_says reads_headers t -> node_fits source t ->
  exists hs' w, headers_read source index l t hs' w /\ read_headers source index parent t hs st = Val (hs', plus st w).
Proof.
  intros parent l t hs st Pf Hd It (In_ & _ & Hl & _). destruct (inside_parts source t In_) as (Ft & Wt & _). destruct (headers_total source index Small Indexed Nul Top_ reads_headers t hs It Wt (Hl It)) as (hs' & cs & H).
  exists hs', (cs ++ [deprecated t]). split; [exists hs, cs; now repeat split|]. unfold read_headers. rewrite (headers_ok source index Small Indexed Top_ parent t hs hs' cs _ Ft Wt Pf H). cbn [andthen].
  change (with_warnings (s_warnings st ++ map (shown index) cs) st) with (plus st cs). unfold deprecated. rewrite (warned_ok t DeprecatedWarning _ _ Ft). cbn [andthen]. now rewrite plus_app.
Qed.
Lemma text_of : forall K l last t st, tracks K l last -> right_after K (map fst l) -> (forall ty, K ty -> exists k sh, form ty k sh) -> a_text t -> node_fits source t ->
  exists s w, text_read source K l t s w /\ read_dangling source index last t st = Val (s, plus st w).
Proof.
  intros K l last t st Tr Ra Kf Tx (In_ & _ & _ & Ok). destruct (Ok Tx) as [N0 N1]. destruct (inside_parts source t In_) as (Ft & _). destruct (Tr Ra) as [B Kl]. destruct (Kf _ Kl) as (k & sh & Fo).
  destruct (dangling_total source (if sh then Short_ else Deep_) t N0 N1) as (s & w & D). exists s, w. split; [exists last, k, sh; now repeat split|]. unfold read_dangling.
  rewrite (dangling_ok source index Small Indexed (if sh then Short_ else Deep_) last t s w _ (form_level _ _ _ Fo) ltac:(destruct sh; discriminate) Ft N0 N1 D). reflexivity.
Qed.
Lemma request_open_text : forall l last a ex t st, inv l last a ex -> a_text t -> right_after a_payload (map fst l) -> node_fits source t ->
  exists r w a' ex', action_reads (find_model (s_models st)) (a_method a) l (Dangling t) r w /\ action_part last (Dangling t) a st = Val (last, a', plus st w) /\ inv (l ++ [(Dangling t, r)]) last a' ex' /\ kept a a'.
Proof.
  intros l last a ex t st (Ex & Ea & Hd & Tr & Rq & Rs & So) Tx Ra Fit.
  assert (Kf : forall ty, a_payload ty -> exists k sh, form ty k sh).
  { intros ty [<-|[<-|[<-|[<-|[]]]]]; [now exists Request_, false|now exists Request_, true|now exists Response_, false|now exists Response_, true]. }
  destruct (text_of a_payload l last t st Tr Ra Kf Tx Fit) as (s & w & Tr' & D). pose proof (Tr Ra) as [_ Kl].
  enough (X : exists a' ex', action_part last (Dangling t) a st = Val (last, a', plus st w) /\ inv (l ++ [(Dangling t, Adds s)]) last a' ex' /\ kept a a').
  { destruct X as (a' & ex' & X1 & X2 & X3). exists (Adds s), w, a', ex'. split; [exists s; now split|]. now split. }
  cbn [Transactions.action_part]. rewrite D. cbn [andthen]. destruct (Payloads.is_response last) eqn:Q.
  - assert (Pl : In last [ResponseSection; ResponseBodySection]) by (destruct Kl as [<-|[<-|[<-|[<-|[]]]]]; cbn in *; auto; discriminate). destruct (Rs Pl) as (b & q & r & y & ->).
    eexists. exists (b ++ [(q, r ++ [more_text t s y])]). split; [reflexivity|]. split; [|repeat split; reflexivity]. split; [now apply text_response|]. split; [|split; [|split; [|split; [|split]]]].
    + cbn. rewrite Ea, !on_payloads_app. cbn [on_payloads map fst snd]. rewrite on_back_snoc. cbn [fst snd]. rewrite !map_app. cbn [map]. rewrite on_last_payload_snoc, complete_more. reflexivity.
    + cbn. apply heads_other; [exact Hd|discriminate].
    + now apply tracks_dangling.
    + intros X. exfalso. exact (asks_replies (Loaded last t (l_payload y) []) X Pl).
    + intros _. do 4 eexists. reflexivity.
    + apply Forall_app in So as [So1 So2]. apply Forall_inv in So2 as [So0 So2]. apply Forall_app. split; [exact So1|]. constructor; [|constructor]. split; [exact So0|]. cbn [snd] in *. apply Forall_app in So2 as [So2 So3]. apply Forall_app. split; [exact So2|].
      constructor; [exact (Forall_inv So3)|constructor].
  - assert (Pl : In last [RequestSection; RequestBodySection]) by (destruct Kl as [<-|[<-|[<-|[<-|[]]]]]; cbn in *; auto; discriminate). destruct (Rq Pl) as (b & q & y & ->).
    eexists. exists (b ++ [(q ++ [more_text t s y], [])]). split; [reflexivity|]. split; [|repeat split; reflexivity]. split; [now apply text_request|]. split; [|split; [|split; [|split; [|split]]]].
    + cbn. rewrite Ea, !on_payloads_app. cbn [on_payloads map fst snd]. rewrite on_back_snoc. cbn [fst snd]. rewrite !map_app. cbn [map]. rewrite on_last_payload_snoc, complete_more. reflexivity.
    + cbn. apply heads_other; [exact Hd|discriminate].
    + now apply tracks_dangling.
    + intros _. do 3 eexists. reflexivity.
    + intros X. exfalso. exact (asks_replies (Loaded last t (l_payload y) []) Pl X).
    + apply Forall_app in So as [So1 So2]. apply Forall_inv in So2 as [So2 So0]. apply Forall_app. split; [exact So1|]. constructor; [|constructor]. split; [|exact So0]. cbn [fst] in *. apply Forall_app in So2 as [So2 So3]. apply Forall_app. split; [exact So2|].
      constructor; [exact (Forall_inv So3)|constructor].
Qed.
Lemma inv_other : forall l last last' a x r ex hs, inv l last a ex -> of_payload (x, r) = false -> headers_so_far (l ++ [(x, r)]) hs -> tracks a_payload (l ++ [(x, r)]) last' -> (last' = last \/ ~ a_payload last') ->
  inv (l ++ [(x, r)]) last' (Action (a_name a) (a_method a) (a_uri a) hs (a_examples a)) ex.
Proof.
  intros l last last' a x r ex hs (Ex & Ea & Hd & Tr & Rq & Rs & So) N Hs T D. split; [now apply exchanges_other|]. split; [exact Ea|]. split; [exact Hs|]. split; [exact T|].
  destruct D as [->|D]; [split; [exact Rq|split; [exact Rs|exact So]]|]. split; [|split; [|exact So]]; intros X; exfalso; apply D; cbn in *; tauto.
Qed.
Lemma misplaced_ok : forall t last a st, node_fits source t -> exists w, misplaced t w /\ action_part last (Ignored t) a st = Val (last, a, plus st w).
Proof.
  intros t last a st (In_ & _). destruct (inside_parts source t In_) as (Ft & _). cbn [Transactions.action_part]. assert (A : asset_type t = BodySection <-> item_says reads_body t) by apply C75_items. assert (B : asset_type t = SchemaSection <-> item_says reads_schema t) by apply C75_items. pose proof (asset_none t) as C.
  assert (D : asset_type t = BodySection \/ asset_type t = SchemaSection \/ asset_type t = UndefinedSection).
  { unfold asset_type, if_. destruct (regex_match (item_line t) BodyRegex); auto. destruct (regex_match (item_line t) SchemaRegex); auto. }
  destruct D as [D|[D|D]]; rewrite D.
  - eexists. split; [left; split; [now apply A|reflexivity]|]. cbn [section_name]. rewrite (warned_ok t IgnoringWarning _ st Ft). reflexivity.
  - eexists. split; [right; left; split; [now apply B|reflexivity]|]. cbn [section_name]. rewrite (warned_ok t IgnoringWarning _ st Ft). reflexivity.
  - destruct (ignored_total t) as (w & H). exists w. apply C in D. split; [right; right; split; [tauto|split; [tauto|exact H]]|]. unfold ignoring. rewrite (ignored_of source index Small Indexed t w _ Ft H). reflexivity.
Qed.
Lemma same_action : forall a, Action (a_name a) (a_method a) (a_uri a) (a_headers a) (a_examples a) = a.
Proof. now intros []. Qed.
Lemma action_step : forall l last a ex x rest st, inv l last a ex -> action_rule (map fst l) x rest -> Forall (node_fits source) (part_nodes x) ->
  exists r w last' a' ex', action_reads (find_model (s_models st)) (a_method a) l x r w /\ action_part last x a st = Val (last', a', plus st w) /\ inv (l ++ [(x, r)]) last' a' ex' /\ kept a a'.
Proof.
  intros l last a ex x rest st Iv Rule Fit. destruct x as [t|t|t|ty t|t|t|s]; cbn in Rule; try contradiction; cbn [part_nodes] in Fit; apply Forall_inv in Fit.
  - assert (D : request_item ty t \/ SectionsSpec.response_item ty t \/ (ty = HeadersSection /\ item_says reads_headers t) \/ (In ty [RelationSection; ParametersSection; AttributesSection])).
    { destruct Rule as [[-> _]|[[[-> _]|[[-> H]|[-> _]]]|[H|H]]]; cbn; tauto. }
    destruct D as [D|[D|[(-> & D)|D]]].
    + destruct (request_step l last a ex ty t st Iv D Fit) as (r & w & a' & ex' & H). exists r, w, ty, a', ex'. exact H.
    + destruct (response_step l last a ex ty t st Iv D Fit) as (r & w & a' & ex' & H). exists r, w, ty, a', ex'. exact H.
    + pose proof Iv as (_ & _ & Hd & _). destruct (headers_of ActionSection l t (a_headers a) st eq_refl Hd D Fit) as (hs & w & Hr & E). exists (Heads hs), w, HeadersSection. eexists. exists ex.
      split; [right; left; split; [reflexivity|]; exists hs; now split|]. cbn [Transactions.action_part]. rewrite E. cbn [andthen]. split; [reflexivity|]. split; [|repeat split; reflexivity].
      apply (inv_other l last); [exact Iv|reflexivity|apply heads_more|apply tracks_listed|]. right. intros [X|[X|[X|[X|[]]]]]; discriminate.
    + assert (Np : ~ a_payload ty /\ ty <> HeadersSection) by (destruct D as [<-|[<-|[<-|[]]]]; (split; [intros [X|[X|[X|[X|[]]]]]; discriminate|discriminate])). destruct Np as [Np Nh].
      exists Nothing_, [], ty, a, ex. split; [right; right; now repeat split|]. split; [rewrite plus_nil; destruct D as [<-|[<-|[<-|[]]]]; reflexivity|]. split; [|repeat split; reflexivity]. rewrite <- (same_action a).
      apply (inv_other l last); [exact Iv|reflexivity| |apply tracks_listed|now right]. apply heads_other; [now apply Iv|discriminate].
  - destruct Rule as [Tx Ra]. destruct (request_open_text l last a ex t st Iv Tx Ra Fit) as (r & w & a' & ex' & H). exists r, w, last, a', ex'. exact H.
  - destruct (misplaced_ok t last a st Fit) as (w & M & E). exists Nothing_, w, last, a, ex. split; [now split|]. split; [exact E|]. split; [|repeat split; reflexivity]. rewrite <- (same_action a).
    apply (inv_other l last); [exact Iv|reflexivity| | |now left]; [apply heads_other; [now apply Iv|discriminate]|]. apply tracks_ignored. now apply Iv.
Qed.
Lemma action_run : forall ps l last a ex rest st, inv l last a ex -> in_order action_rule (map fst l) ps rest -> Forall (node_fits source) (nodes_of ps) ->
  exists m w a' last' ex', map fst m = ps /\ read_through (action_reads (find_model (s_models st)) (a_method a)) l m w /\ action_parts last ps a st = Val (a', plus st w) /\ inv (l ++ m) last' a' ex' /\ kept a a'.
Proof.
  induction ps as [|x ps IH]; intros l last a ex rest st Iv Or Fit.
  - exists [], [], a, last, ex. split; [reflexivity|]. split; [constructor|]. split; [cbn; now rewrite plus_nil|]. rewrite app_nil_r. split; [exact Iv|repeat split; reflexivity].
  - inversion Or as [|done p qs rest' Rule Or']; subst. cbn [nodes_of flat_map] in Fit. apply Forall_app in Fit as [F1 F2].
    destruct (action_step l last a ex x _ st Iv Rule F1) as (r & w & last1 & a1 & ex1 & Rd & E & Iv1 & (K1 & K2 & K3)).
    destruct (IH (l ++ [(x, r)]) last1 a1 ex1 rest (plus st w) Iv1) as (m & v & a2 & last2 & ex2 & Em & Rt & E2 & Iv2 & (K4 & K5 & K6)); [rewrite map_app; exact Or'|exact F2|].
    rewrite plus_models, K2 in Rt. exists ((x, r) :: m), (w ++ v), a2, last2, ex2. split; [cbn; now rewrite Em|]. split; [now constructor|]. split; [cbn [Transactions.action_parts]; rewrite E; cbn [andthen]; rewrite E2; now rewrite plus_app|].
    split; [now rewrite <- app_assoc in Iv2|]. repeat split; congruence.
Qed.
Lemma action_texts : forall d ps last a st, action_parts last (map Text d ++ ps) a st = action_parts last ps a st.
Proof. induction d as [|t d IH]; intros; [reflexivity|]. cbn [map app Transactions.action_parts Transactions.action_part andthen]. apply IH. Qed.
Lemma inject_on : forall hs ex, inject hs (on_payloads complete ex) = on_payloads (fun y => headed hs (complete y)) ex.
Proof. intros hs ex. unfold inject, on_payloads. rewrite map_map. apply map_ext. intros [q r]. cbn. now rewrite !map_map. Qed.
Lemma headed_nil : forall p, headed [] p = p.
Proof. now intros []. Qed.
Lemma on_ext : forall A B (f g : A -> B) ex, (forall x, f x = g x) -> on_payloads f ex = on_payloads g ex.
Proof. intros A B f g ex H. unfold on_payloads. apply map_ext. intros [q r]. cbn. f_equal; apply map_ext; exact H. Qed.
(** sound payloads *)
Definition sound_examples (ex : list (list payload * list payload)) : Prop := Forall (fun e => Forall (sound Request_) (fst e) /\ Forall (sound Response_) (snd e)) ex.
Lemma sound_set : forall k hs body p, sound k p -> sound k (set_headers hs (set_body body p)).
Proof. intros k hs body p H. exact H. Qed.
Lemma sound_pairs_on : forall hs ex, sound_pairs ex -> sound_examples (on_payloads (fun y => headed hs (complete y)) ex).
Proof.
  intros hs ex H. unfold sound_examples, on_payloads. rewrite Forall_map. refine (Forall_impl _ _ H). intros [q r] [A B]. cbn [fst snd] in *. rewrite !Forall_map. split; [exact A|exact B].
Qed.
Lemma action_ok_reads : forall s rest st, action_ok s rest -> Forall (node_fits source) (section_nodes s) -> match s with Sec _ ps _ =>
  exists a w, action_says source index nested found_none (find_model (s_models st)) ps a w /\ read_action source index nested found_none ps st = Val (a, plus st w) /\ sound_examples (a_examples a) end.
Proof.
  intros s rest st (h & d & ps & ex0 & -> & Hh & _ & Or & _ & _) Fit. rewrite head_text in Fit. inversion Fit as [|? ? Fh Fit']; subst. apply Forall_app in Fit' as [_ Fp]. destruct (action_signature h) as [[name method] uri] eqn:Sg.
  assert (Iv0 : inv [] UndefinedSection (Action name method uri [] []) []).
  { split; [exact exchanges_nil|]. split; [reflexivity|]. split; [exact heads_nil|]. split; [apply tracks_nil|]. split; [intros [X|[X|[]]]; discriminate|]. split; [intros [X|[X|[]]]; discriminate|constructor]. }
  destruct (action_run ps [] UndefinedSection (Action name method uri [] []) [] rest st Iv0 Or Fp) as (l & w1 & a & last & ex & El & Rt & E & (Ex & Ea & Hd & _ & _ & _ & So) & (K1 & K2 & K3)). cbn [a_name a_method a_uri app] in *.
  destruct (inside_parts source h (proj1 Fh)) as (Ft & _).
  unfold read_action. cbn [head_of]. cbn [Transactions.action_parts Transactions.action_part]. rewrite Sg. cbn [andthen new_action a_headers a_examples]. rewrite action_texts, E. cbn [andthen].
  set (f := fun y => headed (a_headers a) (complete y)). assert (Fn : forall y, q_name (f y) = q_name (l_payload y)) by reflexivity.
  assert (M : exists w2, missing_response h ex w2 /\ (match on_payloads f ex with
           | [] => warned index EmptyDefinitionWarning "action is missing a response" (t_map h) (plus st w1)
           | _ => match back (on_payloads f ex) with
             | ((_ :: _) as rs, []) =>
               let name := q_name (List.last rs empty_payload) in
               warned index EmptyDefinitionWarning ("action is missing a response for " +++ (if String.eqb name "" then "a request" else "the '" +++ name +++ "' request")) (t_map h) (plus st w1)
             | _ => Val (plus st w1)
             end
           end) = Val (plus (plus st w1) w2)).
  { destruct (snoc_cases _ ex) as [->|(b & [q r] & ->)].
    - eexists. split; [left; split; reflexivity|]. now apply warned_ok.
    - rewrite on_payloads_app. assert (X : forall A (x y : A), match on_payloads f b ++ on_payloads f [(q, r)] with [] => x | _ => y end = y) by (intros; destruct b; reflexivity). rewrite X. clear X.
      change (on_payloads f [(q, r)]) with [(map f q, map f r)]. rewrite back_snoc. destruct (snoc_cases _ r) as [->|(r' & y & ->)].
      + destruct (snoc_cases _ q) as [->|(q' & y & ->)].
        * exfalso. apply exchanges_iff in Ex as (_ & _ & S1). apply formed_snoc in S1 as (_ & _ & _ & S1). now apply S1.
        * rewrite map_app. cbn [map].
          eexists. split; [right; left; exists b, q', y; split; [reflexivity|]; eexists; split; [|reflexivity]|].
          { instantiate (1 := if String.eqb (q_name (l_payload y)) "" then "a request" else ("the '" +++ q_name (l_payload y) +++ "' request")%string). destruct (String.eqb_spec (q_name (l_payload y)) "") as [N|N]; [left|right]; now split. }
          { destruct q' as [|z q']; cbn [map app]; cbv zeta; [now apply (warned_ok h EmptyDefinitionWarning)|]. rewrite app_comm_cons, last_last. now apply (warned_ok h EmptyDefinitionWarning). }
      + exists []. split; [right; right; now exists b, q, r', y|]. rewrite map_app, plus_nil. cbn [map]. destruct (map f q); [reflexivity|]. destruct r'; reflexivity. }
  destruct M as (w2 & Ms & M). exists (Action name method uri [] (on_payloads (fun y => headed (a_headers a) (complete y)) ex)), (w1 ++ w2). split; [|split].
  - exists h, d, l, ex, (a_headers a), name, method, uri, w1, w2. split; [now rewrite El|]. repeat (split; [first [assumption|reflexivity]|]). reflexivity.
  - unfold action_finalize. assert (E1 : (match a_headers a with [] => a | hs => Action (a_name a) (a_method a) (a_uri a) [] (inject hs (a_examples a)) end) = Action name method uri [] (on_payloads (fun y => headed (a_headers a) (complete y)) ex)).
    { rewrite Ea, K1, K2, K3. destruct (a_headers a) as [|h0 hs] eqn:Eh.
      - rewrite (on_ext _ _ (fun y => headed [] (complete y)) complete ex (fun y => headed_nil _)), <- Ea, <- Eh, <- K1, <- K2, <- K3. symmetry. apply same_action.
      - now rewrite inject_on. }
    rewrite E1. cbn [a_examples]. refine (eq_trans (f_equal (fun z => andthen z (fun st => Val (Action name method uri [] (on_payloads f ex), st))) M) _). cbn [andthen]. now rewrite plus_app.
  - cbn. now apply sound_pairs_on.
Qed.
End Actions.
