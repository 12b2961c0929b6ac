(** Lemmas for C82: reading named types comes to an end *)
From Verif Require Import Base StringUtility StringSpec ByteBuffer Markdown MarkdownSpec Regex Keywords Signature SignatureSpec TypeTables SourceMap Mson TypeDefs TypeDefsSpec TypeDefsProofs
  MembersTree MembersSpec MembersLeaves MembersEnds MsonTypes.
From Verif Require Sections.
Local Open Scope string_scope.

Lemma walk_to_rest : forall {A} (step : tree -> A -> st -> outcome (A * bool * st)) l a s a' rest s', walk_to step l a s = Val (a', rest, s') -> exists d, l = (d ++ rest)%list.
Proof.
  intros A step l. induction l as [|t r IH]; intros a s a' rest s' H; cbn [walk_to] in H; [injection H as _ <- _; now exists []|].
  destruct (step t a s) as [[[a1 []] s1]| | |]; cbn [andthen] in H; try discriminate; [|injection H as _ <- _; now exists []]. apply IH in H as [d ->]. now exists (t :: d).
Qed.
Lemma walk_to_ends : forall {A} (step : tree -> A -> st -> outcome (A * bool * st)) l, (forall t a s, In t l -> ends (step t a s)) -> forall a s, ends (walk_to step l a s).
Proof.
  intros A step l. induction l as [|t r IH]; intros H a s; cbn [walk_to]; [discriminate|]. apply ends_bind; [apply H; now left|]. intros [[a' []] s'] _; [|discriminate]. apply IH. intros u b s0 I. apply H. now right.
Qed.
Section Ends.
Context (source : string) (fuel : nat).
Notation low := (fun t => depth t <= fuel).
Section Below.
Context (context : string).
Lemma header_section_ends : forall ty b t r s, Forall low r -> ends (header_section source context fuel ty b t r s).
Proof.
  intros ty b t r s D. destruct (all_end source context fuel) as (IM & IO & IS). unfold header_section. destruct (is_header t); [|discriminate]. apply ends_bind; [apply ends_head|]. intros [[x []] s1] _; [|discriminate].
  apply ends_bind; [|intros [[x1 rest] s2] _; discriminate]. apply walk_to_ends. intros u a s0 I. assert (Du := proj1 (Forall_forall _ _) D u I). apply ends_section_step; intros; [now apply IM|now apply IO].
Qed.
Lemma header_section_rest : forall ty b t r s x rest s', header_section source context fuel ty b t r s = Val (x, Some rest, s') -> exists d, r = (d ++ rest)%list.
Proof.
  intros ty b t r s x rest s' H. unfold header_section in H. destruct (is_header t); [|discriminate]. destruct (section_head b t s) as [[[x0 []] s0]| | |]; cbn [andthen] in H; try discriminate.
  match goal with H : andthen ?o _ = _ |- _ => destruct o as [[[x1 rest1] s1]| | |] eqn:W; cbn [andthen] in H; try discriminate end. injection H as _ <- _. exact (walk_to_rest _ _ _ _ _ _ _ W).
Qed.
Lemma mson_ends : forall ty t a s, low t -> ends (mson_section source context (parse_member source context fuel) (parse_one_of source context fuel) ty t a s).
Proof.
  intros ty t [l b] s D. destruct (all_end source context fuel) as (IM & IO & IS). unfold mson_section. cbv zeta.
  repeat first [discriminate | apply ends_mixin | apply IM; exact D | apply IO; exact D | apply ends_block | apply ends_lines | apply ends_map
  | match goal with |- ends (let '(_, _) := ?p in _) => destruct p end
  | match goal with |- ends (add _ _) => unfold add end | apply ends_bind; [|intros [? ?] _] | apply ends_bind; [|intros ? _]
  | match goal with |- ends (if ?b then _ else _) => destruct b end | match goal with |- ends (match ?x with _ => _ end) => destruct x end].
Qed.
Lemma type_step_ends : forall t r a s, low t -> Forall low r -> ends (type_step source context fuel t r a s).
Proof.
  intros t r [l b] s D Dr. unfold type_step. destruct (member_nested_type t); cbv zeta;
    first [apply ends_bind; [now apply mson_ends|intros [[? ?] ?] _; discriminate] | apply ends_bind; [now apply header_section_ends|intros [[? ?] ?] _; discriminate]].
Qed.
Lemma type_step_rest : forall t r a s a' rest s', type_step source context fuel t r a s = Val (a', Some rest, s') -> exists d, r = (d ++ rest)%list.
Proof.
  intros t r [l b] s a' rest s' H.
  assert (A : forall ty, andthen (mson_section source context (parse_member source context fuel) (parse_one_of source context fuel) ty t (l, b) s) (fun '(a, on, s) => Val (a, if on : bool then Some r else None, s)) = Val (a', Some rest, s') ->
    exists d, r = (d ++ rest)%list).
  { intros ty E. destruct (mson_section _ _ _ _ _ _ _ _) as [[[a1 []] s1]| | |]; cbn [andthen] in E; try discriminate. injection E as _ <- _. now exists []. }
  assert (B : forall ty b1, andthen (header_section source context fuel ty b1 t r s) (fun '(x, rest, s) => Val ((keep_section t x l, b1), rest, s)) = Val (a', Some rest, s') -> exists d, r = (d ++ rest)%list).
  { intros ty b1 E. destruct (header_section source context fuel ty b1 t r s) as [[[x1 o] s1]| | |] eqn:Hs; cbn [andthen] in E; try discriminate. injection E as _ -> _. exact (header_section_rest _ _ _ _ _ _ _ _ Hs). }
  unfold type_step in H. destruct (member_nested_type t); cbv zeta in H; first [exact (A _ H)|exact (B _ _ H)].
Qed.
Lemma type_walk_ends : forall n l a s, List.length l < n -> Forall low l -> ends (type_walk source context fuel n l a s).
Proof.
  induction n as [|n IH]; intros l a s L D; [lia|]. cbn [type_walk]. destruct l as [|t r]; [discriminate|]. inversion D; subst. cbn [List.length] in L. apply ends_bind; [now apply type_step_ends|].
  intros [[a' [rest|]] s'] E; [|discriminate]. apply type_step_rest in E as [d ->]. rewrite app_length in L. apply IH; [lia|]. now apply Forall_app in H2.
Qed.
Lemma type_walk_rest : forall n l a s a' rest s', type_walk source context fuel n l a s = Val (a', rest, s') -> exists d, l = (d ++ rest)%list.
Proof.
  induction n as [|n IH]; intros l a s a' rest s' H; [discriminate|]. cbn [type_walk] in H. destruct l as [|t r]; [injection H as _ <- _; now exists []|].
  destruct (type_step source context fuel t r a s) as [[[a1 [r1|]] s1]| | |] eqn:E; cbn [andthen] in H; try discriminate; [|injection H as _ <- _; now exists []].
  apply type_step_rest in E as [d ->]. apply IH in H as [d' ->]. exists (t :: d ++ d')%list. cbn. now rewrite app_assoc.
Qed.
End Below.
Lemma descriptions_tail : forall r l l' others, descriptions source r l = Val (Some (l', others)) -> exists d, r = (d ++ others)%list.
Proof.
  induction r as [|w r IH]; intros l l' others E; cbn [descriptions] in E; [injection E as _ <-; now exists []|]. destruct (is_description w); [|injection E as _ <-; now exists []].
  destruct (block_description source w l) as [[l1|]| | |]; cbn [andthen] in E; try discriminate. apply IH in E as [d ->]. now exists (w :: d).
Qed.
Lemma named_ends : forall l s, Forall low l -> ends (parse_named_type source fuel l s).
Proof.
  intros [|t r] s D; [discriminate|]. inversion D; subst. unfold parse_named_type. destruct (is_header t); [|discriminate]. apply ends_bind; [apply ends_signature|]. intros [sg s1] _.
  apply ends_bind; [unfold parse_type_name, parse_symbol; cbn [andb]; destruct (value_total (identifier sg)) as [v V]; rewrite (value_ok _ _ V); discriminate|].
  intros name _. apply ends_bind; [apply ends_define|]. intros [td s2] _. cbv zeta. apply ends_bind; [apply ends_descriptions|]. intros [[l0 others]|] E; [|discriminate].
  apply ends_bind; [|intros [[a rest] s3] _; discriminate]. apply type_walk_ends; [lia|]. apply descriptions_tail in E as [d ->]. now apply Forall_app in H2.
Qed.
Lemma named_tail : forall t r s x rest s', parse_named_type source fuel (t :: r) s = Val (x, rest, s') -> exists d, r = (d ++ rest)%list.
Proof.
  intros t r s x rest s' H. unfold parse_named_type in H. destruct (is_header t); [|discriminate].
  destruct (signature_of _ _ _ _) as [[sg s1]| | |]; cbn [andthen] in H; try discriminate. destruct (parse_type_name _ _) as [name| | |]; cbn [andthen] in H; try discriminate.
  destruct (define _ _ _ _) as [[td s2]| | |]; cbn [andthen] in H; try discriminate. cbv zeta in H. destruct (descriptions source r []) as [[[l0 others]|]| | |] eqn:E; cbn [andthen] in H; try discriminate.
  - match goal with H : andthen ?o _ = _ |- _ => destruct o as [[[a r1] s3]| | |] eqn:W; cbn [andthen] in H; try discriminate end. injection H as _ <- _.
    apply type_walk_rest in W as [d ->]. apply descriptions_tail in E as [d' ->]. exists (d' ++ d)%list. now rewrite app_assoc.
  - injection H as _ <- _. now exists [].
Qed.
Lemma structures_walk_ends : forall bp n l acc s, List.length l < n -> Forall low l -> ends (structures_walk source fuel bp n l acc s).
Proof.
  intros bp. induction n as [|n IH]; intros l acc s L D; [lia|]. cbn [structures_walk]. destruct l as [|t r]; [discriminate|]. inversion D; subst. cbn [List.length] in L.
  assert (U : ends (if Sections.base_is_unexpected data_structures_upper t then structures_walk source fuel bp n r acc (unexpected t s) else Val (acc, t :: r, s))).
  { destruct (Sections.base_is_unexpected data_structures_upper t); [|discriminate]. apply IH; [lia|assumption]. }
  destruct (named_type_type t); try exact U. apply ends_bind; [now apply named_ends|]. intros [[x rest] s1] E. apply named_tail in E as [d ->]. cbv zeta. rewrite app_length in L. apply Forall_app in H2 as [_ H2].
  destruct (is_duplicate bp _); (destruct (Sections.same _ _); [discriminate|apply IH; [lia|assumption]]).
Qed.
Lemma structures_end : forall bp l s, Forall low l -> ends (parse_structures source fuel bp l s).
Proof. intros bp [|t r] s D; [discriminate|]. inversion D; subst. unfold parse_structures. destruct (is_header t); [|discriminate]. apply structures_walk_ends; [lia|assumption]. Qed.
End Ends.
