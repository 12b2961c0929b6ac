(** Lemmas for C81: attributes of parameters *)
From Verif Require Import Base StringUtility StringSpec StringProofs HeadersProofs ByteBuffer Markdown MarkdownSpec Regex RegexSpec RegexProofs RegexCaps Keywords KeywordsSpec KeywordsProofs Prop_Keywords
  Signature SignatureSpec SignatureProofs SignatureAttributes PayloadsText TypeTables SourceMap Mson TypeDefs TypeDefsSpec MembersTree MembersSpec Params ParamsSpec ParamsText ParamsLine.
From Verif Require PayloadsSpec Blueprint.
Import Blueprint(text, parameter_use, UndefinedUse, OptionalUse, RequiredUse, parameter, Param, pa_name, pa_description, pa_type, pa_use, pa_default, pa_example, pa_values).
Local Open Scope string_scope.

Lemma required_text : forall s, lang (whole ParameterRequiredRegex) s <-> word_then ["Required"; "required"] blanks s.
Proof. word 8%nat ["Required"; "required"]. apply rest_blanks. Qed.
Lemma optional_text : forall s, lang (whole ParameterOptionalRegex) s <-> word_then ["Optional"; "optional"] blanks s.
Proof. word 8%nat ["Optional"; "optional"]. apply rest_blanks. Qed.
Lemma use_words_apart : forall s, regex_match s ParameterOptionalRegex = true -> regex_match s ParameterRequiredRegex = true -> False.
Proof. apply (apart_match 200). vm_compute. reflexivity. Qed.
Definition use_in (a : string) : option parameter_use :=
  if regex_match a ParameterOptionalRegex then Some OptionalUse else if regex_match a ParameterRequiredRegex then Some RequiredUse else None.
Lemma required_iff : forall a, a <> "" -> regex_match a ParameterRequiredRegex = true <-> use_word a RequiredUse.
Proof.
  intros a N. rewrite (match_reads ParameterRequiredRegex _ ltac:(discriminate) required_text). unfold use_word. split.
  - intros [_ H]. exists (c_text a). split; [now apply before_is|]. left. now split.
  - intros (v & V & [[_ H]|[E _]]); [|discriminate]. apply before_is in V. subst v. now split.
Qed.
Lemma optional_iff : forall a, a <> "" -> regex_match a ParameterOptionalRegex = true <-> use_word a OptionalUse.
Proof.
  intros a N. rewrite (match_reads ParameterOptionalRegex _ ltac:(discriminate) optional_text). unfold use_word. split.
  - intros [_ H]. exists (c_text a). split; [now apply before_is|]. right. now split.
  - intros (v & V & [[E _]|[_ H]]); [discriminate|]. apply before_is in V. subst v. now split.
Qed.
Lemma use_word_known : forall a u, use_word a u -> u = RequiredUse \/ u = OptionalUse.
Proof. intros a u (v & _ & [[-> _]|[-> _]]); auto. Qed.
Lemma use_in_iff : forall a, a <> "" -> match use_in a with Some u => forall u', use_word a u' <-> u' = u | None => forall u, ~ use_word a u end.
Proof.
  intros a N. unfold use_in. pose proof (optional_iff a N) as O. pose proof (required_iff a N) as R. pose proof (use_words_apart a) as D.
  destruct (regex_match a ParameterOptionalRegex), (regex_match a ParameterRequiredRegex).
  - elim (D eq_refl eq_refl).
  - intros u. split; [|intros ->; now apply O]. intros H. destruct (use_word_known _ _ H) as [-> | ->]; [apply R in H; discriminate|reflexivity].
  - intros u. split; [|intros ->; now apply R]. intros H. destruct (use_word_known _ _ H) as [-> | ->]; [reflexivity|apply O in H; discriminate].
  - intros u H. destruct (use_word_known _ _ H) as [-> | ->]; [apply R in H|apply O in H]; discriminate.
Qed.
Lemma use_of_unique : forall l u r, use_of l u r -> Forall (fun a => a <> "") l -> forall u' r', use_of l u' r' -> u' = u /\ r' = r.
Proof.
  intros l u r H Ne.
  assert (W : forall x u u', In x l -> use_word x u -> use_word x u' -> u = u').
  { intros x v v' I A B. rewrite Forall_forall in Ne. pose proof (use_in_iff x (Ne x I)) as X. destruct (use_in x) as [w|]; [|now elim (X v)]. apply X in A, B. congruence. }
  destruct H as [a w b u N U|l N]; intros u' r' H'.
  - remember (a ++ w :: b)%list as l eqn:E. destruct H' as [a' w' b' u' N' U'|l' N'].
    + assert (X : a' = a /\ w' = w /\ b' = b).
      { clear Ne W. revert a E N. induction a' as [|x a' IH]; intros [|y a] E N; cbn in E; injection E; intros; subst; auto.
        - exfalso. inversion N as [|? ? N1]; subst. exact (N1 _ U').
        - exfalso. inversion N' as [|? ? N1]; subst. exact (N1 _ U).
        - inversion N as [|? ? _ N1]; inversion N' as [|? ? _ N2]; subst. destruct (IH N2 a) as (-> & -> & ->); auto. }
      destruct X as (-> & -> & ->). split; [|reflexivity]. apply (W w u' u); [apply in_or_app; right; now left|exact U'|exact U].
    + exfalso. subst l'. apply Forall_app in N' as [_ N']. inversion N' as [|? ? N1]; subst. exact (N1 _ U).
  - destruct H' as [a' w' b' u' N' U'|l' N']; [|now split]. exfalso. apply Forall_app in N as [_ N]. inversion N as [|? ? N1]; subst. exact (N1 _ U').
Qed.
Lemma quotes_unique : forall x g g', quotes x g -> quotes x g' -> g = g'.
Proof.
  intros x g g' (v & a & b & V & E & A & G) (v' & a' & b' & V' & E' & A' & G'). rewrite (before_unique _ _ _ _ V V') in E. rewrite E in E'. clear V V' E.
  apply free_all in A, A', G, G'. apply (until_char (fun c => c <> "`"%char)) in E' as [-> E']; auto. apply (until_char (fun c => c <> "`"%char)) in E' as [-> _]; auto.
Qed.
Definition quoted_in (f : form) (x : string) : option string :=
  match f with NewForm => None | OldForm => match regex_find x AdditionalTraitsExampleRegex 2 with Some g => Some (nth 1 g "") | None => None end end.
Lemma quoted_iff : forall f x, match quoted_in f x with Some g => f = OldForm /\ quotes x g | None => f = NewForm \/ (forall g, ~ quotes x g) end.
Proof. intros [] x; [|now left]. cbn. pose proof (find_example x) as F. destruct (regex_find _ _ _); [now split|now right]. Qed.
Lemma sorts_total : forall f l, exists ts es, sorts f l ts es.
Proof.
  intros f. induction l as [|x l (ts & es & H)]; [exists [], []; constructor|]. pose proof (quoted_iff f x) as Q. destruct (quoted_in f x) as [g|].
  - destruct Q. exists ts, (g :: es). now constructor.
  - exists (x :: ts), es. now constructor.
Qed.
Lemma sorts_unique : forall f l ts es, sorts f l ts es -> forall ts' es', sorts f l ts' es' -> ts' = ts /\ es' = es.
Proof.
  intros f l ts es H. induction H as [|x g l ts es E Q _ IH|x l ts es N _ IH]; intros ts' es' H'; inversion H' as [|x' g' l' ts1 es1 E' Q' H1|x' l' ts1 es1 N' H1]; subst; auto.
  - apply IH in H1 as [-> ->]. split; [reflexivity|]. f_equal. exact (quotes_unique _ _ _ Q' Q).
  - destruct N' as [N'|N']; [discriminate|]. now elim (N' g).
  - destruct N as [N|N]; [discriminate|]. now elim (N g').
  - apply IH in H1 as [-> ->]. now split.
Qed.

(** the loop *)
Definition is_old (f : form) : bool := match f with OldForm => true | NewForm => false end.
Definition picked (u : option parameter_use) (ts : list string) (ex : string) : option (option parameter_use * string * string) :=
  match ts with [] => Some (u, "", ex) | [x] => Some (u, x, ex) | _ => None end.
Lemma last_cons : forall (g : string) es ex, List.last (g :: es) ex = List.last es g.
Proof. intros g es ex. revert g ex. induction es as [|h es IH]; intros g ex; [reflexivity|]. change (List.last (g :: h :: es) ex) with (List.last (h :: es) ex). now rewrite !IH. Qed.
Lemma loop_step : forall f a r u ty ex, a <> "" -> (u <> None \/ use_in a = None) ->
  trait_loop (is_old f) (a :: r) u ty ex = match quoted_in f a with Some g => trait_loop (is_old f) r u ty g | None => if String.eqb ty "" then trait_loop (is_old f) r u a ex else None end.
Proof.
  intros f a r u ty ex N U. cbn [trait_loop].
  assert (A : (regex_match a ParameterOptionalRegex && match u with None => true | Some _ => false end)%bool = false).
  { destruct u; [apply andb_false_r|]. destruct U as [U|U]; [now elim U|]. unfold use_in in U. destruct (regex_match a ParameterOptionalRegex); [discriminate|reflexivity]. }
  assert (B : (regex_match a ParameterRequiredRegex && match u with None => true | Some _ => false end)%bool = false).
  { destruct u; [apply andb_false_r|]. destruct U as [U|U]; [now elim U|]. unfold use_in in U. destruct (regex_match a ParameterOptionalRegex); [discriminate|]. destruct (regex_match a ParameterRequiredRegex); [discriminate|reflexivity]. }
  rewrite A, B. unfold quoted_in, is_old. destruct f; [|reflexivity]. destruct (regex_find a AdditionalTraitsExampleRegex 2); reflexivity.
Qed.
Lemma loop_known : forall f l ts es, sorts f l ts es -> Forall (fun a => a <> "") l -> forall u ty ex, trait_loop (is_old f) l (Some u) ty ex = picked (Some u) (kept ty ++ ts) (List.last es ex).
Proof.
  intros f l ts es H. induction H as [|x g l ts es E Q _ IH|x l ts es N _ IH]; intros F u ty ex.
  - cbn. now destruct ty.
  - inversion F as [|? ? Nx F']; subst. rewrite loop_step by (auto; left; discriminate). pose proof (quoted_iff OldForm x) as X. destruct (quoted_in OldForm x) as [g'|].
    + destruct X as [_ X]. rewrite (quotes_unique _ _ _ X Q), last_cons. apply IH, F'.
    + destruct X as [X|X]; [discriminate|now elim (X g)].
  - inversion F as [|? ? Nx F']; subst. rewrite loop_step by (auto; left; discriminate). pose proof (quoted_iff f x) as X. destruct (quoted_in f x) as [g'|].
    + exfalso. destruct X as [-> X]. destruct N as [N|N]; [discriminate|now elim (N g')].
    + destruct ty as [|c ty]; cbn [String.eqb kept app]; [rewrite (IH F'); cbn [kept]; destruct x; [now elim Nx|reflexivity]|]. now destruct ts.
Qed.
Lemma loop_open : forall f l u rest, use_of l u rest -> Forall (fun a => a <> "") l -> forall ts es, sorts f rest ts es -> forall ty ex,
  trait_loop (is_old f) l None ty ex = picked (match u with UndefinedUse => None | _ => Some u end) (kept ty ++ ts) (List.last es ex) \/ trait_loop (is_old f) l None ty ex = None /\ 1 < List.length (kept ty ++ ts).
Proof.
  intros f l u rest H. destruct H as [a w b u N U|l N].
  - induction a as [|x a IH]; intros F ts es S ty ex; cbn [app] in *.
    + inversion F as [|? ? Nw F']; subst. cbn [trait_loop]. pose proof (use_in_iff w Nw) as X. unfold use_in in X.
      rewrite !andb_true_r. destruct (regex_match w ParameterOptionalRegex).
      { apply X in U as ->. left. now rewrite (loop_known f _ _ _ S F'). }
      destruct (regex_match w ParameterRequiredRegex); [|now elim (X u)]. apply X in U as ->. left. now rewrite (loop_known f _ _ _ S F').
    + inversion F as [|? ? Nx F']; subst. inversion N as [|? ? Nu N']; subst. specialize (IH N' F').
      rewrite loop_step; [|exact Nx|right; pose proof (use_in_iff x Nx) as X; destruct (use_in x) as [v|]; [exfalso; now apply (Nu v), X|reflexivity]].
      pose proof (quoted_iff f x) as Q. inversion S as [|x' g l' ts1 es1 E' Q' H1|x' l' ts1 es1 N1 H1]; subst.
      * destruct (quoted_in OldForm x) as [g'|]; [|destruct Q as [Q|Q]; [discriminate|now elim (Q g)]]. destruct Q as [_ Q]. rewrite (quotes_unique _ _ _ Q Q'), last_cons. now apply IH.
      * destruct (quoted_in f x) as [g'|]; [destruct Q as [-> Q], N1 as [?|N1]; [discriminate|now elim (N1 g')]|]. destruct ty as [|c ty]; cbn [String.eqb].
        -- destruct (IH _ _ H1 x ex) as [E|E]; [left|right]; (destruct x; [now elim Nx|exact E]).
        -- right. split; [reflexivity|]. cbn. lia.
  - induction l as [|x l IH]; intros F ts es S ty ex.
    + inversion S; subst. left. cbn. now destruct ty.
    + inversion F as [|? ? Nx F']; subst. inversion N as [|? ? Nu N']; subst. specialize (IH N' F').
      rewrite loop_step; [|exact Nx|right; pose proof (use_in_iff x Nx) as X; destruct (use_in x) as [v|]; [exfalso; now apply (Nu v), X|reflexivity]].
      pose proof (quoted_iff f x) as Q. inversion S as [|x' g l' ts1 es1 E' Q' H1|x' l' ts1 es1 N1 H1]; subst.
      * destruct (quoted_in OldForm x) as [g'|]; [|destruct Q as [Q|Q]; [discriminate|now elim (Q g)]]. destruct Q as [_ Q]. rewrite (quotes_unique _ _ _ Q Q'), last_cons. now apply IH.
      * destruct (quoted_in f x) as [g'|]; [destruct Q as [-> Q], N1 as [?|N1]; [discriminate|now elim (N1 g')]|]. destruct ty as [|c ty]; cbn [String.eqb].
        -- destruct (IH _ _ H1 x ex) as [E|E]; [left|right]; (destruct x; [now elim Nx|exact E]).
        -- right. split; [reflexivity|]. cbn. lia.
Qed.
Lemma use_of_total : forall l, Forall (fun a => a <> "") l -> exists u r, use_of l u r.
Proof.
  assert (D : forall l, Forall (fun a => a <> "") l -> Forall (fun x => forall u, ~ use_word x u) l \/ exists a w b u, l = (a ++ w :: b)%list /\ Forall (fun x => forall u, ~ use_word x u) a /\ use_word w u).
  { induction l as [|x l IH]; intros F; [left; constructor|]. inversion F as [|? ? Nx F']; subst. pose proof (use_in_iff x Nx) as X. destruct (use_in x) as [u|].
    - right. exists [], x, l, u. split; [reflexivity|]. split; [constructor|now apply X].
    - destruct (IH F') as [N|(a & w & b & u & -> & N & U)]; [left; now constructor|]. right. exists (x :: a), w, b, u. split; [reflexivity|]. split; [now constructor|exact U]. }
  intros l F. destruct (D l F) as [N|(a & w & b & u & -> & N & U)]; [exists UndefinedUse, l; now constructor|]. exists u, (a ++ b)%list. now constructor.
Qed.

(** the type *)
Definition inner_re : re := Cat (Cat square_re (Star square_re)) Eps.
Lemma inner_lang : forall s, lang inner_re s <-> s <> "" /\ ~ StringSpec.has "[" s /\ ~ StringSpec.has "]" s.
Proof.
  intros s. rewrite <- squares_lang. unfold inner_re. rewrite lang_cat_iff. split.
  - intros (p & q & -> & H & E). apply lang_eps_iff in E as ->. now rewrite append_nil_r.
  - intros H. exists s, "". rewrite append_nil_r. split; [reflexivity|]. split; [exact H|now apply lang_eps_iff].
Qed.
Definition enum_inside (ty : string) : string := trim (match regex_capture ty EnumRegex 2 with Some g => nth 1 g "" | None => "" end).
Lemma app_last : forall a b c, a +++ String c "" = b +++ String c "" -> a = b.
Proof. intros a b c H. now apply snoc_inj in H as [-> _]. Qed.
Lemma enum_inside_iff : forall ty, ty <> "" ->
  (enum_inside ty <> "" -> type_of NewForm ty (enum_inside ty)) /\ (enum_inside ty = "" -> type_of NewForm ty ty) /\ (forall t, type_of NewForm ty t -> t = if String.eqb (enum_inside ty) "" then ty else enum_inside ty).
Proof.
  intros ty N. unfold enum_inside.
  assert (C : match regex_capture ty EnumRegex 2 with
              | Some g => exists x, c_text ty = "enum[" +++ x +++ "]" /\ ~ StringSpec.has "[" x /\ ~ StringSpec.has "]" x /\ nth 1 g "" = x
              | None => forall x, c_text ty = "enum[" +++ x +++ "]" -> ~ StringSpec.has "[" x -> ~ StringSpec.has "]" x -> x = "" end).
  { pose proof (capture_whole EnumRegex (enum_re (Grp 1 inner_re)) ty 2 ltac:(discriminate) ltac:(vm_compute; reflexivity)) as C. destruct (regex_capture ty EnumRegex 2) as [g|].
    - destruct C as (_ & l & C & ->). unfold enum_re in C. apply (caps_lit "e"%char) in C as (? & E1 & C). apply (caps_lit "n"%char) in C as (? & E2 & C). apply (caps_lit "u"%char) in C as (? & E3 & C).
      apply (caps_lit "m"%char) in C as (? & E4 & C). apply (caps_lit "["%char) in C as (? & E5 & C). subst. apply caps_cat_inv in C as (p & q & m & n & -> & -> & A & B). apply caps_grp_plain in A as [-> A]; [|reflexivity].
      apply (caps_lit "]"%char) in B as (? & -> & B). apply caps_eps_inv in B as [-> ->]. apply inner_lang in A as (A1 & A2 & A3). exists p. cbn [groups map seq nth group Nat.eqb app]. split; [exact E1|]. now repeat split.
    - destruct C as [->|C]; [now elim N|]. intros x E A B. destruct (String.eqb_spec x "") as [->|Nx]; [reflexivity|]. exfalso. apply C. rewrite E. apply enum_lang. exists x. split; [reflexivity|]. apply lang_grp_iff, inner_lang. auto. }
  destruct (regex_capture ty EnumRegex 2) as [g|].
  - destruct C as (x & E & A & B & ->).
    assert (Ux : forall g0, before "000" ty ("enum[" +++ g0 +++ "]") -> g0 = x) by (intros g0 V; apply before_is in V; rewrite E in V; cbn [append] in V; injection V as V; now apply app_last in V).
    split; [|split].
    + intros M. apply (type_enum NewForm ty x (trim x)); auto using trim_trims. apply before_is. now rewrite E.
    + intros M. apply type_plain. right. intros g0 t V _ _ T. rewrite (Ux g0 V) in T. apply trims_is' in T. now rewrite T.
    + intros t H. destruct H as [g0 t _ V _ _ T Nt|[F|F]]; [|discriminate|].
      * rewrite (Ux g0 V) in T. apply trims_is' in T. subst t. destruct (String.eqb_spec (trim x) ""); [now elim Nt|reflexivity].
      * rewrite (F x (trim x)); [reflexivity|apply before_is; now rewrite E|exact A|exact B|apply trim_trims].
  - split; [|split].
    + intros M. now elim M.
    + intros _. apply type_plain. right. intros g0 t V A B T. apply before_is in V. rewrite (C g0) in T by auto. apply trims_is' in T. exact T.
    + intros t H. destruct H as [g0 t _ V A B T Nt|_]; [|reflexivity]. exfalso. apply before_is in V. rewrite (C g0) in T by auto. apply trims_is' in T. now apply Nt.
Qed.
Lemma traits_iff : forall f l ex u ty x failed, Forall (fun a => a <> "") l ->
  parse_traits (is_old f) l ex = (u, ty, x, failed) <-> traits_say f ex l u ty x (if failed then [Says 3 (too_many_traits f)] else []).
Proof.
  intros f l ex u ty x failed F. destruct (use_of_total l F) as (u0 & rest & U). destruct (sorts_total f rest) as (ts & es & S).
  assert (Nts : Forall (fun a => a <> "") ts).
  { assert (Fr : Forall (fun a => a <> "") rest). { destruct U as [a w b u0 N U|l N]; [|exact F]. apply Forall_app in F as [F1 F2]. inversion F2; subst. now apply Forall_app. }
    clear - S Fr. induction S as [|? ? ? ? ? ? ? _ IH|? ? ? ? ? _ IH]; inversion Fr; subst; auto. }
  assert (Lim : max_traits (is_old f) = at_most f) by now destruct f.
  assert (Dec : (List.length l <= at_most f /\ List.length ts <= 1) \/ (at_most f < List.length l \/ 1 < List.length ts)) by lia.
  assert (Bad : (at_most f < List.length l \/ 1 < List.length ts) -> parse_traits (is_old f) l ex = (UndefinedUse, "", if is_old f then "" else ex, true)).
  { intros B. unfold parse_traits. rewrite Lim. destruct (Nat.ltb_spec (at_most f) (List.length l)) as [Q|Q]; [reflexivity|]. destruct B as [B|B]; [lia|].
    destruct (loop_open f l u0 rest U F ts es S "" ex) as [-> |[-> _]]; [|reflexivity]. cbn [kept app]. destruct ts as [|t1 [|t2 ts]]; cbn in B; try lia. reflexivity. }
  assert (Good : List.length l <= at_most f -> List.length ts <= 1 -> parse_traits (is_old f) l ex =
    (u0, match ts with [] => "" | x :: _ => match f with OldForm => x | NewForm => if String.eqb (enum_inside x) "" then x else enum_inside x end end, List.last es ex, false)).
  { intros A B. unfold parse_traits. rewrite Lim. destruct (Nat.ltb_spec (at_most f) (List.length l)) as [Q|Q]; [lia|]. destruct (loop_open f l u0 rest U F ts es S "" ex) as [-> |[_ Q']]; [|cbn in Q'; lia]. cbn [kept app].
    assert (Eu : match match u0 with UndefinedUse => None | _ => Some u0 end with Some u => u | None => UndefinedUse end = u0) by now destruct u0.
    destruct ts as [|t1 [|t2 ts]]; cbn in B; try lia; cbn [picked]; rewrite Eu; f_equal; f_equal; f_equal.
    - cbn. rewrite andb_false_r. now destruct f.
    - inversion Nts as [|? ? N1 _]; subst. destruct (String.eqb_spec t1 "") as [->|_]; [now elim N1|]. fold (enum_inside t1). destruct f; cbn [is_old negb andb]; [reflexivity|]. now destruct (String.eqb (enum_inside t1) ""). }
  split.
  - intros H. destruct Dec as [[A B]|B].
    + rewrite (Good A B) in H. injection H as <- <- <- <-. apply (traits_fine f ex l u0 rest ts es); auto. destruct ts as [|t1 [|t2 ts]]; cbn in B; try lia; [now left|right]. exists t1. split; [reflexivity|].
      inversion Nts as [|? ? N1 _]; subst. destruct f; [apply type_plain; now left|]. destruct (enum_inside_iff t1 N1) as (E1 & E2 & _). destruct (String.eqb_spec (enum_inside t1) "") as [Q|Q]; [now apply E2|now apply E1].
    + rewrite (Bad B) in H. injection H as <- <- <- <-. pose proof (traits_unclear f ex l u0 rest ts es U S B) as T. now destruct f.
  - intros H. inversion H as [u1 rest1 ts1 es1 ty1 L1 U1 S1 D1|u1 rest1 ts1 es1 U1 S1 B1]; subst.
    + destruct (use_of_unique _ _ _ U F _ _ U1) as [-> ->]. destruct (sorts_unique _ _ _ _ S _ _ S1) as [-> ->]. destruct failed; [discriminate|].
      assert (L2 : List.length ts <= 1) by (destruct D1 as [[-> _]|(y & -> & _)]; cbn; lia). rewrite (Good L1 L2). f_equal. f_equal. f_equal.
      destruct D1 as [[-> ->]|(y & -> & T)]; [reflexivity|]. inversion Nts as [|? ? N1 _]; subst. destruct f.
      * inversion T; [discriminate|reflexivity].
      * symmetry. destruct (enum_inside_iff y N1) as (_ & _ & E3). now apply E3.
    + destruct (use_of_unique _ _ _ U F _ _ U1) as [-> ->]. destruct (sorts_unique _ _ _ _ S _ _ S1) as [-> ->]. destruct failed; [|discriminate]. rewrite (Bad B1). now destruct f.
Qed.
