(** Lemmas for C81: items, values and parameters as wholes *)
From Verif Require Import Base StringUtility StringSpec StringProofs ByteBuffer ByteSpec Markdown MarkdownSpec Regex RegexSpec RegexProofs RegexCaps Keywords KeywordsSpec KeywordsProofs Prop_Keywords
  Signature SignatureSpec SignatureProofs SignatureWhole Prop_Signature TypeTables SourceMap Mson Prop_Bytes Prop_Strings TypeDefs TypeDefsSpec TypeDefsProofs MembersTree MembersSpec MembersRead MembersLeaves MembersParts
  MembersSections MembersWhole Params ParamsSpec ParamsText ParamsLine ParamsTraits.
From Verif Require SectionsSpec Payloads PayloadsSpec PayloadsText PayloadsNodes Blueprint.
Import SectionsSpec(a_header, an_item).
Import PayloadsSpec(the_text, place, opens, row, lines).
Import Blueprint(text, blank, parameter_use, UndefinedUse, OptionalUse, RequiredUse, parameter, Param, pa_name, pa_description, pa_type, pa_use, pa_default, pa_example, pa_values).
Local Open Scope string_scope.

(** ** which items are parameters *)
Lemma new_iff : forall t, (regex_match (item_line t) MSONDefaultTypeSectionRegex || regex_match (item_line t) MSONSampleTypeSectionRegex || regex_match (item_line t) MSONValueMembersTypeSectionRegex)%bool = true <-> tells_new t.
Proof.
  intros t. unfold tells_new. rewrite <- (check_item MSONDefaultTypeSectionRegex _ ltac:(discriminate) default_text), <- (check_item MSONSampleTypeSectionRegex _ ltac:(discriminate) sample_text),
    <- (check_item MSONValueMembersTypeSectionRegex _ ltac:(discriminate) members_text). rewrite !orb_true_iff. tauto.
Qed.
Definition section_of (f : form) : section_type := match f with OldForm => ParameterSection | NewForm => MSONParameterSection end.
Inductive looked (l : list tree) : form -> Prop :=
| looked_new : forall a t b, l = (a ++ t :: b)%list -> Forall (fun t => ~ tells_new t /\ ~ tells_old t) a -> tells_new t -> looked l NewForm
| looked_old : forall a t b, l = (a ++ t :: b)%list -> Forall (fun t => ~ tells_new t /\ ~ tells_old t) a -> tells_old t -> looked l OldForm.
Lemma looked_unique : forall l f f', looked l f -> looked l f' -> f = f'.
Proof.
  assert (U : forall (P : tree -> Prop) a t b a' t' b', (a ++ t :: b)%list = (a' ++ t' :: b')%list -> Forall (fun t => ~ P t) a -> P t -> Forall (fun t => ~ P t) a' -> P t' -> t = t').
  { intros P. induction a as [|x a IH]; intros t b [|y a'] t' b' E A T A' T'; cbn in E.
    - now injection E.
    - injection E as -> _. inversion A'; contradiction.
    - injection E as -> _. inversion A; contradiction.
    - injection E as -> E. inversion A; inversion A'; subst. now apply (IH t b a' t' b'). }
  assert (V : forall a t b a' t' b', (a ++ t :: b)%list = (a' ++ t' :: b')%list -> Forall (fun t => ~ tells_new t /\ ~ tells_old t) a -> Forall (fun t => ~ tells_new t /\ ~ tells_old t) a' ->
    tells_new t \/ tells_old t -> tells_new t' \/ tells_old t' -> t = t').
  { intros a t b a' t' b' E A A' T T'. apply (U (fun t => tells_new t \/ tells_old t) a t b a' t' b' E); try assumption; eapply Forall_impl; try eassumption; cbn; tauto. }
  intros l f f' [a t b E A T|a t b E A T] [a' t' b' E' A' T'|a' t' b' E' A' T']; try reflexivity; rewrite E in E'; pose proof (V _ _ _ _ _ _ E' A A' ltac:(auto) ltac:(auto)); subst t'.
  - now destruct T' as [_ N].
  - now destruct T as [_ N].
Qed.
Lemma look_none : forall l, look_ahead l = UndefinedSection <-> Forall (fun t => ~ tells_new t /\ ~ tells_old t) l.
Proof.
  assert (V : forall t, regex_match (item_line t) ValuesRegex = true <-> item_says reads_values t) by exact (check_item ValuesRegex _ ltac:(discriminate) values_text).
  induction l as [|t r IH]; [split; [constructor|reflexivity]|]. cbn [look_ahead]. rewrite Forall_cons_iff, <- IH. rewrite <- new_iff. unfold tells_old. rewrite <- new_iff, <- V.
  destruct (_ || _)%bool; [split; [discriminate|intros [[N _] _]; now elim N]|]. destruct (regex_match (item_line t) ValuesRegex); [split; [discriminate|intros [[_ N] _]; elim N; now split]|].
  split; [intros H|intros [_ H]; exact H]. repeat split; try exact H; [discriminate|intros [N _]; discriminate].
Qed.
Lemma look_iff : forall l f, look_ahead l = section_of f <-> looked l f.
Proof.
  assert (V : forall t, regex_match (item_line t) ValuesRegex = true <-> item_says reads_values t) by exact (check_item ValuesRegex _ ltac:(discriminate) values_text).
  assert (F : forall l f, look_ahead l = section_of f -> looked l f).
  { induction l as [|t r IH]; intros f; cbn [look_ahead]; [now destruct f|].
    destruct (_ || _)%bool eqn:N.
    - apply new_iff in N. intros H. assert (f = NewForm) as -> by now destruct f. now apply (looked_new _ [] t r).
    - assert (N' : ~ tells_new t) by (rewrite <- new_iff, N; discriminate). destruct (regex_match (item_line t) ValuesRegex) eqn:W.
      + apply V in W. intros H. assert (f = OldForm) as -> by now destruct f. now apply (looked_old _ [] t r).
      + assert (W' : ~ tells_old t) by (intros [W' _]; apply V in W'; congruence). intros H. apply IH in H as [a u b -> A T|a u b -> A T].
        * apply (looked_new _ (t :: a) u b); [reflexivity|now constructor|exact T].
        * apply (looked_old _ (t :: a) u b); [reflexivity|now constructor|exact T]. }
  intros l f. split; [apply F|]. intros H. assert (C : look_ahead l = UndefinedSection \/ exists f', look_ahead l = section_of f').
  { clear. induction l as [|t r IH]; [now left|]. cbn [look_ahead]. destruct (_ || _)%bool; [right; now exists NewForm|]. destruct (regex_match (item_line t) ValuesRegex); [right; now exists OldForm|exact IH]. }
  destruct C as [C|[f' C]].
  - apply look_none in C. destruct H as [a t b -> _ T|a t b -> _ T]; apply Forall_app in C as [_ C]; inversion C; tauto.
  - now rewrite (looked_unique _ _ _ H (F _ _ C)).
Qed.
Lemma trims_twice : forall s t, PayloadsSpec.trims (trim s) t <-> PayloadsSpec.trims s t.
Proof.
  intros s t. assert (E : trim (trim s) = trim s) by (destruct (trim_trims s) as (a & b & _ & _ & _ & H & T); symmetry; apply trims_is'; now apply trims_self). rewrite !trims_is'. now rewrite E.
Qed.
Lemma line_before : forall x l, before "010" x l <-> l = fst (first_line x "").
Proof.
  intros x l. destruct (first_line x "") as [a b] eqn:E. apply PayloadsText.lines_iff in E. cbn [fst].
  assert (B : before "010" x a) by (destruct E as [(N & -> & _)|(-> & N)]; [now left|right; now exists b]).
  split; [intros H; exact (before_unique _ _ _ _ H B)|intros ->; exact B].
Qed.
Lemma says_trim : forall l f, line_says (trim l) f <-> line_says l f.
Proof. intros l f. split; intros [s h r r' f' T H N T' M]; apply (line_by _ s h r r' f'); try assumption; now apply trims_twice. Qed.
Lemma formed_cases : forall item f, formed item f <-> exists x z m t r, item = Tree ItemNode x z m (t :: r) /\
  (looked (t :: r) f \/ (look_ahead (t :: r) = UndefinedSection /\ line_says (Keywords.line_of (the_text t)) f)).
Proof.
  intros item f. split.
  - intros [x z m a t b -> A T|x z m a t b -> A T|x z m t r l f' -> A L S].
    + destruct (a ++ t :: b)%list as [|u r] eqn:E; [now destruct a|]. exists x, z, m, u, r. split; [reflexivity|left]. rewrite <- E. now apply (looked_new _ a t b).
    + destruct (a ++ t :: b)%list as [|u r] eqn:E; [now destruct a|]. exists x, z, m, u, r. split; [reflexivity|left]. rewrite <- E. now apply (looked_old _ a t b).
    + exists x, z, m, t, r. split; [reflexivity|right]. split; [now apply look_none|]. unfold Keywords.line_of. apply says_trim. apply line_before in L. now rewrite <- L.
  - intros (x & z & m & t & r & -> & [[a u b E A T|a u b E A T]|[A S]]).
    + rewrite E. now apply (formed_new _ x z m a u b).
    + rewrite E. now apply (formed_old _ x z m a u b).
    + apply (formed_by_line _ x z m t r (fst (first_line (the_text t) ""))); [reflexivity|now apply look_none|now apply line_before|]. now apply says_trim.
Qed.
Lemma item_tells : forall t, exists o, tells (formed t) o /\ parameter_type t = Val (match o with None => UndefinedSection | Some f => section_of f end).
Proof.
  intros t. assert (No : (forall x z m u r, t <> Tree ItemNode x z m (u :: r)) -> item_text t = None -> exists o, tells (formed t) o /\ parameter_type t = Val (match o with None => UndefinedSection | Some f => section_of f end)).
  { intros N E. exists None. split; [|unfold parameter_type; now rewrite E]. intros f H. apply formed_cases in H as (x & z & m & u & r & -> & _). now apply (N x z m u r). }
  destruct t as [ty x z m cs]. destruct ty; try (apply No; [discriminate|reflexivity]). destruct cs as [|u r]; [apply No; [discriminate|reflexivity]|]. clear No.
  unfold parameter_type. change (t_children (Tree ItemNode x z m (u :: r))) with (u :: r). change (item_text (Tree ItemNode x z m (u :: r))) with (Some (t_text u)).
  change (item_line (Tree ItemNode x z m (u :: r))) with (Keywords.line_of (t_text u)). cbv iota. assert (Tu : t_text u = the_text u) by now destruct u. rewrite Tu.
  assert (Iff : forall f, formed (Tree ItemNode x z m (u :: r)) f <-> looked (u :: r) f \/ (look_ahead (u :: r) = UndefinedSection /\ line_says (Keywords.line_of (the_text u)) f)).
  { intros f. rewrite formed_cases. split; [intros (x' & z' & m' & u' & r' & E & H); injection E as -> -> -> -> ->; exact H|eauto 8]. }
  assert (K : look_ahead (u :: r) = UndefinedSection \/ exists f', look_ahead (u :: r) = section_of f').
  { generalize (u :: r). clear. induction l as [|t r IH]; [now left|]. cbn [look_ahead]. destruct (_ || _)%bool; [right; now exists NewForm|]. destruct (regex_match (item_line t) ValuesRegex); [right; now exists OldForm|exact IH]. }
  destruct K as [K|[f K]].
  - rewrite K. cbv iota. destruct (line_tells (Keywords.line_of (the_text u))) as (o & T & E). rewrite E. cbn [andthen]. exists o. split; [|destruct o as [[]|]; reflexivity].
    apply (tells_ext (line_says (Keywords.line_of (the_text u)))); [|exact T]. intros f. rewrite Iff. split; [now right|]. intros [L|[_ S]]; [|exact S]. apply look_iff in L. rewrite K in L. now destruct f.
  - exists (Some f). assert (L : looked (u :: r) f) by now apply look_iff. split.
    + split; [apply Iff; now left|]. intros f' H. apply Iff in H as [H|[H _]]; [exact (looked_unique _ _ _ H L)|]. rewrite K in H. now destruct f.
    + rewrite K. now destruct f.
Qed.
Lemma formed_iff : forall t f, formed t f <-> parameter_type t = Val (section_of f).
Proof.
  intros t f. destruct (item_tells t) as (o & T & ->). destruct o as [g|]; cbn in T.
  - destruct T as [T U]. split; [intros H; now rewrite (U f H)|]. intros E. injection E as E. assert (g = f) as <- by (destruct g, f; try reflexivity; discriminate). exact T.
  - split; [intros H; now elim (T f)|]. intros E. injection E as E. now destruct f.
Qed.
Lemma kept_attributes : forall sh x g p m, signed sh x g (Some (p, m)) -> Forall (fun a => a <> "") (p_attributes p).
Proof.
  intros sh x g p m H. inversion H as [s rest id s1 w1 v vs s2 w2 l s3 c _ _ _ C _|]; subst. cbn [p_attributes].
  assert (K : forall v, Forall (fun a => a <> "") (kept v)) by (intros [|c0 v0]; repeat constructor; discriminate).
  assert (A : forall s o, attributed s o -> forall l r, o = Some (l, r) -> Forall (fun a => a <> "") l).
  { clear - K. intros s o A. induction A; intros l0 r0 E; try discriminate; try (injection E as <- _; apply K).
    destruct o as [[l1 r1]|]; [|discriminate]. injection E as <- _. apply Forall_app. split; [apply K|]. now eapply IHA. }
  inversion C; subst; try (constructor; fail); eapply A; try eassumption; reflexivity.
Qed.

(** ** checks of a whole parameter *)
Lemma clash_iff : forall p e, clash_says p e <-> e = map (fun x => Says 8 x)
  (match pa_use p with OptionalUse => [] | _ => if blank (pa_default p) then [] else
     ["specifying parameter '" +++ fst (pa_name p) +++ "' as required supersedes its default value, declare the parameter as 'optional' to specify its default value"] end).
Proof.
  intros p e. unfold blank. destruct (String.eqb_spec (fst (pa_default p)) "") as [E|E].
  - assert (X : e = map (fun x => Says 8 x) (match pa_use p with OptionalUse => [] | _ => [] end) <-> e = []) by (now destruct (pa_use p)). rewrite X. split.
    + intros [U G|D]; [now elim G|reflexivity].
    + intros ->. constructor. right. intros G. now apply G.
  - destruct (pa_use p) eqn:U; (split; [intros [U' G|[U'|G]]; try congruence; try reflexivity; now elim G|intros ->; cbn [map]; (apply clash; [now rewrite U|exact E]) || (apply no_clash; now left)]).
Qed.
Lemma missing_iff : forall what v p x, missing what v p x <-> x = missing_value what (fst v) p.
Proof.
  intros what v p x. unfold missing_value, given. assert (I : existsb (fun w => String.eqb (fst v) (fst w)) (pa_values p) = true <-> In (fst v) (map fst (pa_values p))).
  { rewrite existsb_exists. split; [intros (w & I & E); apply String.eqb_eq in E; rewrite E; now apply in_map|]. intros I. apply in_map_iff in I as (w & E & I). exists w. split; [exact I|]. now rewrite E, String.eqb_refl. }
  destruct (String.eqb_spec (fst v) "") as [E|E]; cbn [negb andb].
  - split; [intros [G _|_]; [now elim G|reflexivity]|intros ->; apply missing_not; left; intros G; now apply G].
  - destruct (existsb (fun w => String.eqb (fst v) (fst w)) (pa_values p)); cbn [negb].
    + split; [intros [_ N|_]; [elim N; now apply I|reflexivity]|intros ->; apply missing_not; right; now apply I].
    + assert (N : ~ In (fst v) (map fst (pa_values p))) by (intros H; apply I in H; discriminate).
      split; [intros [_ _|[G|G]]; [reflexivity|now elim G|now elim N]|intros ->; now apply missing_is].
Qed.
Lemma choice_iff : forall p e, choice_says p e <-> e = map (fun x => Says 8 x)
  (if ((blank (pa_example p) && blank (pa_default p)) || match pa_values p with [] => true | _ => false end)%bool then []
   else let text := missing_value "example" (fst (pa_example p)) p +++ missing_value "default" (fst (pa_default p)) p in if String.eqb text "" then [] else [text]).
Proof.
  intros p e. destruct (pa_values p) as [|v vs] eqn:V.
  - rewrite orb_true_r. split; [intros [_|a b N _ _]; [reflexivity|congruence]|intros ->; now apply choice_free].
  - assert (Iff : choice_says p e <-> e = if String.eqb (missing_value "example" (fst (pa_example p)) p +++ missing_value "default" (fst (pa_default p)) p) "" then [] else
      [Says 8 (missing_value "example" (fst (pa_example p)) p +++ missing_value "default" (fst (pa_default p)) p)]).
    { split; [intros [N|a b _ A B]; [congruence|]; apply missing_iff in A as ->; apply missing_iff in B as ->; reflexivity|].
      intros ->. apply choice_among; [congruence|now apply missing_iff..]. }
    rewrite Iff, orb_false_r. clear Iff. unfold blank. destruct (String.eqb_spec (fst (pa_example p)) "") as [E1|E1], (String.eqb_spec (fst (pa_default p)) "") as [E2|E2]; cbn [andb];
      [rewrite E1, E2; cbn [missing_value String.eqb negb andb append map]; tauto|..]; cbv zeta; destruct (String.eqb _ ""); tauto.
Qed.
Lemma checked_performs : forall item p e, checked item p e -> forall s, final_checks item p s = perform e s.
Proof.
  intros item p e [e1 e2 C D] s. apply clash_iff in C as ->. apply choice_iff in D as ->. unfold final_checks. rewrite on_app, perform_app, <- !(perform_warns item 8).
  replace (clash_remarks p) with (map (Warns 8) (match pa_use p with OptionalUse => [] | _ => if blank (pa_default p) then [] else
     ["specifying parameter '" +++ fst (pa_name p) +++ "' as required supersedes its default value, declare the parameter as 'optional' to specify its default value"] end))
    by (unfold clash_remarks, logical; destruct (pa_use p), (blank (pa_default p)); reflexivity).
  replace (value_remarks p) with (map (Warns 8)
  (if ((blank (pa_example p) && blank (pa_default p)) || match pa_values p with [] => true | _ => false end)%bool then []
   else let text := missing_value "example" (fst (pa_example p)) p +++ missing_value "default" (fst (pa_default p)) p in if String.eqb text "" then [] else [text]))
    by (unfold value_remarks, logical; cbv zeta; destruct ((blank (pa_example p) && blank (pa_default p)) || match pa_values p with [] => true | _ => false end)%bool; [reflexivity|]; destruct (String.eqb _ ""); reflexivity).
  reflexivity.
Qed.
Lemma checked_total : forall item p, exists e, checked item p e.
Proof.
  intros item p. eexists. apply checked_by; [now apply clash_iff|now apply choice_iff].
Qed.
Lemma checked_unique : forall item p e e', checked item p e -> checked item p e' -> e = e'.
Proof. intros item p e e' [a b A B] [a' b' A' B']. apply clash_iff in A as ->, A' as ->. apply choice_iff in B as ->, B' as ->. reflexivity. Qed.

Section Read.
Context (known : list (string * base_type)) (source context : string) (Small : (slen source < 2 ^ 64)%N).
Notation reads := (reads known).

(** ** descriptions *)
Lemma described_iff : forall nested P, (forall t, P t <-> nested t = UndefinedSection) -> forall r d o, Forall (fits source) r ->
  (described source nested r d = Val o <-> exists texts, row P r texts (snd o) /\ described_by source texts d (fst o)).
Proof.
  intros nested P HP. induction r as [|t r IH]; intros [d m] [o others] F; cbn [described fst snd].
  - split.
    + intros H. injection H as <- <-. exists []. split; [split; [reflexivity|split; [constructor|tauto]]|constructor].
    + intros (texts & (E & _) & D). symmetry in E. apply app_eq_nil in E as [-> ->]. inversion D; subst. reflexivity.
  - apply Forall_cons_iff in F as [Ft Fr]. assert (Dec : P t \/ ~ P t) by (rewrite HP; destruct (nested t); ((now left) || (now right))).
    destruct Dec as [Pt|Nt].
    + assert (E : nested t = UndefinedSection) by now apply HP. rewrite E. clear E. pose proof (spaced_iff d) as Sp.
      assert (R : forall texts, row P (t :: r) texts others -> exists texts', texts = t :: texts' /\ row P r texts' others).
      { intros texts (E & T & N). destruct texts as [|u texts]; [cbn in E; subst others; now elim N|]. injection E as <- E. apply Forall_cons_iff in T as [_ T]. exists texts. split; [reflexivity|]. now split. }
      assert (Inv : forall texts, described_by source (t :: texts) (d, m) o -> exists d1, spaced d d1 /\
        described_by source texts (d1 +++ trim (source_of source t), if String.eqb (source_of source t) "" then m else append_places m (lies t)) o).
      { intros texts D. inversion D as [|t0 r0 d0 m0 d1 c o0 S1 T D1]; subst. apply trims_iff in T as ->. eauto. }
      destruct (if String.eqb d "" then Val "" else two_new_lines d) as [d1| | |].
      2-4: split; [discriminate|]; intros (texts & Rw & D); apply R in Rw as (texts' & -> & _); apply Inv in D as (d2 & S1 & _); apply Sp in S1; discriminate.
      cbn [andthen]. rewrite (mapped source Small t Ft). cbn [andthen]. assert (S1 : spaced d d1) by now apply Sp. split.
      * intros H. apply IH in H as (texts & (-> & T & N) & D); [|exact Fr]. cbn [fst snd] in *. exists (t :: texts). split; [split; [reflexivity|split; [now constructor|exact N]]|].
        eapply described_more; [exact S1|apply trim_trims|exact D].
      * intros (texts & Rw & D). apply R in Rw as (texts' & -> & Rw). apply Inv in D as (d2 & S2 & D). assert (d2 = d1) as -> by (apply Sp in S2; congruence). apply IH; [exact Fr|]. exists texts'. split; [exact Rw|exact D].
    + assert (X : match nested t with UndefinedSection => False | _ => True end) by (destruct (nested t) eqn:E; trivial; apply Nt; now apply HP).
      assert (Eq : match nested t with
        | UndefinedSection =>
          andthen (if String.eqb d "" then Val "" else two_new_lines d) (fun x => andthen (map_ranges (t_map t) source) (fun c =>
          described source nested r (x +++ trim c, if String.eqb c "" then m else append_places m (spot t))))
        | _ => Val ((d, m), t :: r) end = Val ((d, m), t :: r)) by (destruct (nested t); trivial; contradiction).
      refine (iff_trans (_ : _ <-> Val ((d, m), t :: r) = Val (o, others)) _); [now rewrite <- Eq|]. clear X Eq. split.
      * intros H. injection H as <- <-. exists []. split; [split; [reflexivity|split; [constructor|exact Nt]]|constructor].
      * intros (texts & (E & T & N) & D). destruct texts as [|u texts].
        -- cbn in E. subst others. inversion D; subst. reflexivity.
        -- injection E as <- _. now apply Forall_cons_iff in T as [T _].
Qed.

(** ** values *)
Lemma holds_iff : forall t x, holds_only t x <-> values_nested_type t = ValueSection /\ item_text t = Some x.
Proof.
  intros t x. unfold holds_only, values_nested_type, item_whole. split.
  - intros (y & z & m & c & -> & <- & W). assert (E : t_text c = the_text c) by now destruct c. cbn [item_text is_item t_type t_children]. rewrite E. split; [|reflexivity].
    destruct (String.eqb_spec (trim (the_text c)) "") as [T|T]; [elim W; now apply PayloadsText.trim_white|reflexivity].
  - intros [H E]. rewrite E in H. unfold if_ in H. destruct (negb (trim x =? "") && (Datatypes.length (t_children t) =? 1)%nat)%bool eqn:B; [|discriminate]. apply andb_prop in B as [B1 B2].
    destruct t as [ty y z m cs]. unfold item_text, is_item in E. cbn in E, B2. destruct ty; try discriminate. destruct cs as [|c [|c' cs]]; try discriminate. injection E as <-. exists y, z, m, c.
    split; [reflexivity|]. split; [now destruct c|]. intros W. apply PayloadsText.trim_white in W. rewrite W in B1. discriminate.
Qed.
Lemma values_step_reads : forall t l, reads (values_step t l) (fun x e => value_node t l (fst x) e (snd x)).
Proof.
  intros t l.
  assert (Other : (forall x, ~ holds_only t x) -> reads (fun s => Val (l, true, unexpected t s)) (fun x e => value_node t l (fst x) e (snd x))).
  { intros N. refine (reads_fun _ _ (reads_ext _ _ (reads_ret known (l, true) (unexpected_node t)) _) _); [|intros s; now rewrite unexpected_performs]. intros [x b] e. cbn [fst snd]. split.
    - intros [E ->]. injection E as -> ->. now constructor.
    - intros H. inversion H as [x0 g H1|x0 y H1|]; subst; [now elim (N x0)..|now split]. }
  destruct (item_text t) as [x|] eqn:E.
  2: { refine (reads_fun _ _ (Other _) _); [intros x H; apply holds_iff in H as [_ H]; congruence|]. intros s. unfold values_step. rewrite E. now destruct (values_nested_type t). }
  assert (D : values_nested_type t = ValueSection \/ values_nested_type t = UndefinedSection) by (unfold values_nested_type, if_; destruct (_ && _)%bool; auto).
  destruct D as [D|D].
  2: { refine (reads_fun _ _ (Other _) _); [intros y H; apply holds_iff in H as [H _]; congruence|]. intros s. unfold values_step. now rewrite E, D. }
  clear Other. assert (H : holds_only t x) by now apply holds_iff. assert (U : forall y, holds_only t y -> y = x) by (intros y Hy; apply holds_iff in Hy as [_ Hy]; congruence).
  pose proof (find_value x) as Q. destruct (regex_find x ParameterValueRegex 2) as [g|] eqn:R.
  - refine (reads_fun _ _ (reads_ext _ _ (reads_ret known ((l ++ [(nth 1 g "", spot t)])%list, true) []) _) _); [|intros s; unfold values_step; rewrite D, E, R; reflexivity].
    intros [y b] e. cbn [fst snd]. split.
      * intros [Ey ->]. injection Ey as -> ->. exact (value_quoted t l x (nth 1 g "") H Q).
      * intros V. inversion V as [x0 g0 H0 Q0|x0 y0 H0 Q0|N]; subst.
        -- apply U in H0 as ->. assert (g0 = nth 1 g "") as -> ; [|now split]. clear - Q Q0.
           destruct Q as (v & a & b & B & -> & Ng & Hg & M). destruct Q0 as (v' & a' & b' & B' & E & Ng' & Hg' & M'). apply before_is in B, B'. rewrite <- B in B'. subst v'.
           assert (La : String.length a = String.length a') by (pose proof (M _ _ _ E Ng' Hg'); pose proof (M' a (nth 1 g "") b eq_refl Ng Hg); lia).
           apply app_cut in E as [_ E]; [|exact La]. cbn in E. injection E as E. clear - E Hg Hg'. revert g0 E Hg'. generalize (nth 1 g "") as u, Hg. clear. induction u as [|c u IH]; intros Hu [|c' g'] E Hg'; cbn in E.
           ++ reflexivity.
           ++ injection E as <- _. elim Hg'. now left.
           ++ injection E as -> _. elim Hu. now left.
           ++ injection E as -> E. f_equal. apply IH; [intros I; apply Hu; now right|exact E|intros I; apply Hg'; now right].
        -- apply U in H0 as ->. now elim (Q0 (nth 1 g "")).
        -- now elim (N x).
  - refine (reads_fun _ _ (reads_ext _ _ (reads_ret known (l, true) (on t [Says 5 ("ignoring the '" +++ trim x +++ "' element, expected '`" +++ trim x +++ "`'")])) _) _);
      [|intros s; unfold values_step; rewrite D, E, R; reflexivity].
    intros [y b] e. cbn [fst snd]. split.
      * intros [Ey ->]. injection Ey as -> ->. apply (value_unquoted t l x); [exact H|exact Q|apply trim_trims].
      * intros V. inversion V as [x0 g0 H0 Q0|x0 y0 H0 Q0 T|N]; subst.
        -- apply U in H0 as ->. now elim (Q g0).
        -- apply U in H0 as ->. apply trims_is' in T as ->. now split.
        -- now elim (N x).
Qed.
Lemma values_read : forall item, reads (parse_values item) (values_say item).
Proof.
  intros item. unfold parse_values.
  refine (reads_ext _ _ (reads_item known item (fun _ r s => walk values_step r [] s) (fun t r x e => nodes_say value_node r [] x e) _) _).
  - intros t r O. apply (reads_walk known (fun _ => True)); [|trivial|exact I]. intros u l _ _. apply values_step_reads.
  - intros x e. split; [intros (t & r & O & N); now apply (values_by item t r)|intros [t r l e0 O N]; now exists t, r].
Qed.
End Read.
