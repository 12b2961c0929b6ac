(** C79: what values, names of types, type definitions and names of properties of MSON say *)
From Verif Require Import Base ByteBuffer StringUtility StringSpec StringProofs Regex RegexSpec KeywordsSpec Signature SignatureSpec SignatureProofs SignatureWhole TypeTables Mson
  TypeDefs TypeDefsSpec TypeDefsText TypeDefsProofs Prop_Signature.
Local Open Scope string_scope.
Local Open Scope nat_scope.

(** every text is exactly one value, and parseValue finds it: it never reads outside of the text and never throws *)
Theorem C79_value : forall s, exists v, value_says s v /\ (forall v', value_says s v' -> v' = v) /\ parse_value s = Val v.
Proof. intros s. destruct (value_total s) as [v V]. exists v. split; [exact V|]. split; [|now apply value_ok]. intros v' V'. now apply (value_unique s). Qed.
Print Assumptions C79_value.
(** every attribute is exactly one type specification *)
Theorem C79_specification : forall a, exists ts, spec_says a ts /\ (forall ts', spec_says a ts' -> ts' = ts) /\
  forall fuel, String.length a < fuel -> parse_type_specification fuel a = Val ts.
Proof. intros a. destruct (spec_total a) as [ts H]. exists ts. split; [exact H|]. split; [|now apply spec_ok]. intros ts' H'. now apply (spec_unique a). Qed.
Print Assumptions C79_specification.
(** the attributes of a signature are exactly one type definition, with exactly one list of warnings and of dependencies *)
Theorem C79_definition : forall t context l, exists td e, definition_says (bases t) context l td e /\
  (forall td' e', definition_says (bases t) context l td' e' -> td' = td /\ e' = e) /\
  forall fuel, Forall (fun a => String.length a < fuel) l ->
    parse_type_definition fuel context l t = Val (td, set_deps t (fst (performed (deps t) e)), snd (performed (deps t) e)).
Proof.
  intros t context l. destruct (definition_total (bases t) context l) as (td & e & H). exists td, e. split; [exact H|]. split.
  - intros td' e' H'. exact (definition_unique _ _ _ _ _ _ _ H' H).
  - intros fuel F. rewrite (definition_ok _ _ _ _ _ H fuel F). now destruct (performed (deps t) e).
Qed.
Print Assumptions C79_definition.
(** every name of a property has a reading, and parsePropertyName finds it; it is undefined at most where the signature of the name is (C74) *)
Theorem C79_property : forall t context text s, exists o, property_says (bases t) context text s o /\
  parse_property_name context text s t =
  match o with Some (x, v, e) => Val (x, v, set_deps t (fst (performed (deps t) e)), snd (performed (deps t) e)) | None => ByteBuffer.Wild end.
Proof.
  intros t context text s. destruct (property_total (bases t) context text s) as [o H]. exists o. split; [exact H|].
  rewrite (property_ok _ _ _ _ _ H). destruct o as [[[x v] e]|]; [|reflexivity]. now destruct (performed (deps t) e).
Qed.
Print Assumptions C79_property.

(** ** in words *)
(** the name of a type without special chars *)
Definition named (w : string) : type_name := match find (fun p => String.eqb (fst p) w) base_words with Some (_, b) => TN b (Sym "" false) | None => TN UndefinedTN (Sym w false) end.
Lemma word_value : forall w, word w -> value_says w (MV w false).
Proof.
  intros w W. assert (A := proj2 (proj2 W)). assert (N : w <> "*") by (intros ->; apply all_cons in A as [A _]; apply A; cbn; tauto).
  apply value_text; [|exact N]. apply denotes_plain.
  - intros (c & r & [-> | ->] & -> & _); apply all_cons in A as [A _]; apply A; cbn; tauto.
  - apply word_bare. refine (all_imp _ _ _ _ A). intros c X Y. contradiction.
Qed.
Lemma word_name : forall w, word w -> name_says w (named w).
Proof.
  intros w W. unfold named. destruct (find _ base_words) as [[x b]|] eqn:E.
  - apply find_some in E as [I E]. apply String.eqb_eq in E. cbn in E. subst x. now apply name_base.
  - refine (name_symbol w (MV w false) _ (word_value w W)). intros I. apply in_map_iff in I as ([x b] & <- & I). assert (X := find_none _ _ E _ I). cbn in X. now rewrite String.eqb_refl in X.
Qed.
Lemma word_free : forall w l, word w -> incl l special -> free l w.
Proof. intros w l (_ & _ & A) I. refine (all_imp _ _ _ _ A). intros c X Y. now apply X, I. Qed.
Lemma word_unlinked : forall w r, word w -> unlinked (w +++ r) (w +++ r).
Proof.
  intros w r (N & _ & A). apply unlinked_plain. intros [q E]. destruct w as [|c w]; [congruence|]. cbn in E. injection E as -> _. apply all_cons in A as [A _]. apply A. cbn. tauto.
Qed.
Ltac inside := let c := fresh in let I := fresh in intros c I; cbn in I; decompose [or] I; subst; cbn; tauto.
Lemma word_maybe : forall w, word w -> maybe_name w (named w).
Proof. intros w W. apply maybe_some; [apply W|now apply word_name]. Qed.
(** a word is the name of a type *)
Theorem C79_name : forall w fuel, word w -> String.length w < fuel -> parse_type_specification fuel w = Val (TS (named w) []).
Proof.
  intros w fuel W F. apply spec_ok; [|exact F]. apply (spec_name _ w w).
  - rewrite <- (append_nil_r w). now apply word_unlinked.
  - apply word_free; [exact W|inside].
  - apply W.
  - now apply word_maybe.
Qed.
Print Assumptions C79_name.
Lemma words_inner : forall l, l <> [] -> Forall word l -> inner (join l +++ "]") l.
Proof.
  intros l N H. induction H as [|w l W Hl IH]; [congruence|]. assert (Wd := W). destruct W as (Nw & Tw & Aw). assert (En := self_ends _ Tw). destruct En as [Hh Ht]. destruct l as [|w' l].
  - cbn [join]. apply (inner_last _ w).
    + apply all_app. split; [apply word_free; [exact Wd|inside]|]. apply all_cons. split; [cbn; intuition discriminate|constructor].
    + apply trims_self; [now apply no_head_app|apply no_tail_app; [discriminate|]]. intros q c E. destruct q as [|x [|y q]]; cbn in E; try discriminate. injection E as <-. intros [E|E]; cbn in *; intuition discriminate.
    + exact Tw.
  - specialize (IH ltac:(discriminate)). cbn [join]. change (join (w' :: l)) with (join (w' :: l)) in *. cbn [join] in IH |- *. rewrite !append_assoc.
    change (w :: w' :: l) with ([w] ++ (w' :: l))%list. assert (K : kept w = [w]) by now destruct w. rewrite <- K.
    refine (inner_more w w _ _ _ _ Tw _ IH); [apply word_free; [exact Wd|inside]|].
    destruct (join_word (w' :: l) ltac:(discriminate) Hl) as (Nj & Hj & Tj & _). cbn [join] in Nj, Hj.
    match goal with |- trims ?t ?u => assert (X := trims_pad " " u "" white_space ltac:(constructor)); rewrite append_nil_r in X; change (trims (" " +++ u) u); apply X end.
    + now apply no_head_app.
    + apply no_tail_app; [discriminate|]. intros q c E. destruct q as [|x [|y q]]; cbn in E; try discriminate. injection E as <-. intros [E|E]; cbn in *; intuition discriminate.
Qed.
Lemma names_map : forall l, Forall word l -> Forall2 name_says l (map named l).
Proof. intros l H. induction H; cbn; constructor; auto using word_name. Qed.
(** a word and words in brackets: the nested types, in order *)
Theorem C79_nested : forall x l fuel, word x -> l <> [] -> Forall word l -> String.length (x +++ "[" +++ join l +++ "]") < fuel ->
  parse_type_specification fuel (x +++ "[" +++ join l +++ "]") = Val (TS (named x) (map named l)).
Proof.
  intros x l fuel W N H F. apply spec_ok; [|exact F]. apply (spec_nested _ x (join l +++ "]") x _ (join l +++ "]") l).
  - now apply word_unlinked.
  - apply word_free; [exact W|inside].
  - apply W.
  - now apply word_maybe.
  - destruct (join_word l N H) as (Nj & Hj & Tj & _). apply trims_self; [now apply no_head_app|]. apply no_tail_app; [discriminate|].
    intros q c E. destruct q as [|y [|z q]]; cbn in E; try discriminate. injection E as <-. intros [E|E]; cbn in *; intuition discriminate.
  - now apply words_inner.
  - now apply names_map.
Qed.
Print Assumptions C79_nested.
(** a link to a type is read like its text *)
Theorem C79_link : forall w y fuel, word w -> free round_and_square y -> ~ has "000" w -> ~ has "000" y ->
  String.length ("[" +++ w +++ "][" +++ y +++ "]") < fuel -> parse_type_specification fuel ("[" +++ w +++ "][" +++ y +++ "]") = Val (TS (named w) []).
Proof.
  intros w y fuel W Fr Nw Ny F. apply spec_ok; [|exact F]. apply (spec_name _ w w); [|apply word_free; [exact W|inside]|apply W|now apply word_maybe].
  refine (unlinked_link _ _ w w _ (or_introl (conj _ eq_refl)) _ (proj1 (proj2 W))).
  - now eexists.
  - intros H. rewrite !has_app in H. cbn in H. intuition discriminate.
  - assert (L := link_by "" w "" y "" ltac:(constructor) ltac:(constructor) ltac:(constructor) Fr). exact L.
Qed.
Print Assumptions C79_link.
Theorem C79_link_to : forall w y fuel, word w -> free round_and_square y -> y <> "" -> ~ has "000" w -> ~ has "000" y ->
  String.length ("[" +++ w +++ "](" +++ y +++ ")") < fuel -> parse_type_specification fuel ("[" +++ w +++ "](" +++ y +++ ")") = Val (TS (named w) []).
Proof.
  intros w y fuel W Fr Nn Nw Ny F. apply spec_ok; [|exact F]. apply (spec_name _ w w); [|apply word_free; [exact W|inside]|apply W|now apply word_maybe].
  refine (unlinked_link _ _ w w _ (or_introl (conj _ eq_refl)) _ (proj1 (proj2 W))).
  - now eexists.
  - intros H. rewrite !has_app in H. cbn in H. intuition discriminate.
  - assert (L := link_to "" w "" y "" ltac:(constructor) ltac:(constructor) ltac:(constructor) Fr Nn). exact L.
Qed.
Print Assumptions C79_link_to.

(** the bits of a definition are those of the keywords among the attributes, whatever their order; no other attribute sets one *)
Theorem C79_bits : forall t context l fuel td t' w, Forall (fun a => String.length a < fuel) l -> parse_type_definition fuel context l t = Val (td, t', w) ->
  forall k, N.testbit (td_attrs td) (N.of_nat k) = true <-> exists x, nth_error attribute_words k = Some x /\ In x l.
Proof.
  intros t context l fuel td t' w F E k. destruct (C79_definition t context l) as (td' & e & H & _ & R). rewrite (R fuel F) in E. injection E as <- <- <-.
  destruct H as [ts bits b e1 e2 e3 [B B'] _ _ _ _]. cbn [td_attrs]. destruct (nth_error attribute_words k) as [x|] eqn:X.
  - rewrite (B k x X). split; [now exists x|]. intros (x' & [= <-] & I). exact I.
  - apply nth_error_None in X. cbn in X. rewrite B' by lia. split; [discriminate|]. now intros (x' & [=] & _).
Qed.
Print Assumptions C79_bits.
(** a definition only ever adds dependencies on its own type, and none if the base type is known *)
Theorem C79_tables : forall t context l fuel td t' w, Forall (fun a => String.length a < fuel) l -> parse_type_definition fuel context l t = Val (td, t', w) ->
  bases t' = bases t /\ (deps t' = deps t \/ td_base td = UndefinedBT /\ is_name (n_symbol (t_name (td_spec td))) /\ deps t' = fst (add_dependency (deps t) (s_literal (n_symbol (t_name (td_spec td)))) context false)).
Proof.
  intros t context l fuel td t' w F E. destruct (C79_definition t context l) as (td' & e & H & _ & R). rewrite (R fuel F) in E. injection E as <- <- <-. split; [reflexivity|].
  cbn [set_deps deps]. destruct H as [ts bits b e1 e2 e3 _ T _ U O]. cbn [td_base td_spec].
  assert (S1 : forall d, fst (performed d e1) = d).
  { intros d. rewrite performed_says; [reflexivity|]. destruct T as [|l a more ts _ _]; [intros x []|]. intros x I. apply in_map_iff in I as (y & <- & _). eauto. }
  assert (S3 : forall d, fst (performed d e3) = d) by (intros d; destruct O; reflexivity).
  rewrite performed_app. specialize (S1 (deps t)). destruct (performed (deps t) e1) as [d1 w1]. cbn in S1. subst d1. rewrite performed_app.
  destruct U as [s N|b s N].
  - right. split; [reflexivity|]. split; [exact N|]. cbn [performed]. destruct (add_dependency _ _ _ _) as [d x]. cbn. specialize (S3 d). now destruct (performed d e3).
  - left. cbn [performed]. specialize (S3 (deps t)). now destruct (performed (deps t) e3).
Qed.
Print Assumptions C79_tables.

(** ** what one may not rely on *)
(** text in front of a bracket inside of brackets is dropped: an array of arrays of a type is read like an array of the type, without a warning *)
Theorem C79_arrays_refuted : parse_type_definition 100 "" ["array[array[A]]"] (T [] [] []) = parse_type_definition 100 "" ["array[A]"] (T [] [] []) /\
  parse_type_definition 100 "" ["array[array[A]]"] (T [] [] []) = Val (TD ValueBT (TS (TN ArrayTN (Sym "" false)) [TN UndefinedTN (Sym "A" false)]) 0%N, T [] [] [], []).
Proof. split; vm_compute; reflexivity. Qed.
Print Assumptions C79_arrays_refuted.
(** an attribute in brackets that is no link is no type, silently *)
Theorem C79_brackets_refuted : parse_type_definition 100 "" ["[A]"] (T [] [] []) = Val (TD UndefinedBT no_spec 0%N, T [] [] [], []).
Proof. vm_compute. reflexivity. Qed.
Print Assumptions C79_brackets_refuted.
(** empty brackets have a nested type without a name *)
Theorem C79_empty_refuted : parse_type_definition 100 "" ["array[]"] (T [] [] []) = Val (TD ValueBT (TS (TN ArrayTN (Sym "" false)) [TN UndefinedTN (Sym "" false)]) 0%N, T [] [] [], []).
Proof. vm_compute. reflexivity. Qed.
Print Assumptions C79_empty_refuted.
(** a literal in backticks may yet be a variable, and so is a lone emphasis char *)
Theorem C79_star_refuted : parse_value "`*`" = Val (MV "" true) /\ parse_value "_" = Val (MV "_" true) /\ parse_value "__" = Val (MV "__" true).
Proof. repeat split; vm_compute; reflexivity. Qed.
Print Assumptions C79_star_refuted.
(** the last of two types is dropped, even if only the last one is defined *)
Theorem C79_types_refuted : forall t a b context fuel, word a -> word b -> ~ In a attribute_words -> ~ In b attribute_words -> String.length a < fuel -> String.length b < fuel ->
  exists td t' w, parse_type_definition fuel context [a; b] t = Val (td, t', Warns 5 "ignoring unrecognized type attribute" :: w) /\ td_spec td = TS (named a) [].
Proof.
  intros t a b context fuel Wa Wb Na Nb La Lb. destruct (C79_definition t context [a; b]) as (td & e & H & _ & R). rewrite (R fuel ltac:(now repeat constructor)).
  assert (F : forall x, ~ In x attribute_words -> existsb (String.eqb x) attribute_words = false).
  { intros x N. destruct (existsb _ _) eqn:E; [|reflexivity]. apply existsb_exists in E as (y & I & E). apply String.eqb_eq in E. subst y. contradiction. }
  destruct H as [ts bits bt e1 e2 e3 _ T _ _ _]. inversion T as [l E|l x more ts' E Sp]; unfold other_words in E; cbn [filter] in E; rewrite (F a Na), (F b Nb) in E; cbn in E; [discriminate|].
  injection E as <- <-. subst. cbn [map app]. cbn [performed]. destruct (performed (deps t) (e2 ++ e3)) as [d w]. do 3 eexists. split; [reflexivity|].
  cbn [td_spec]. assert (X := C79_name a (S (String.length a)) Wa ltac:(lia)). rewrite (spec_ok _ _ Sp) in X by lia. now injection X.
Qed.
Print Assumptions C79_types_refuted.
(** a property whose name is one emphasis char reads the whole text of its node as the value of its name *)
Theorem C79_lone_refuted : parse_property_name "" "* : 5 (string)" "*" (T [] [] []) =
  Val ("", VD [MV "* : 5" false] (TD PrimitiveBT (TS (TN StringTN (Sym "" false)) []) 0%N), T [] [] [], []).
Proof. vm_compute. reflexivity. Qed.
Print Assumptions C79_lone_refuted.

(** ** the hypotheses are met, and the functions do something *)
Example C79_words : Forall word ["A"; "number"; "Blog Post"].
Proof.
  repeat (apply Forall_cons || apply Forall_nil); (split; [discriminate|split; [apply trims_iff; vm_compute; reflexivity|unfold all; cbn; repeat constructor; cbn; intuition discriminate]]).
Qed.
Example C79_example : parse_type_definition 100 "Me" ["required"; "array[number, Blog Post]"; "sample"; "x"] (T [] [] []) =
  Val (TD ValueBT (TS (TN ArrayTN (Sym "" false)) [TN NumberTN (Sym "" false); TN UndefinedTN (Sym "Blog Post" false)]) 9%N, T [] [] [],
       [Warns 5 "ignoring unrecognized type attribute"]).
Proof. vm_compute. reflexivity. Qed.
Example C79_example_links : parse_type_definition 100 "" ["enum[[A][], [B](#b), C]"] (T [] [] []) =
  Val (TD ValueBT (TS (TN EnumTN (Sym "" false)) [TN UndefinedTN (Sym "A" false); TN UndefinedTN (Sym "B" false); TN UndefinedTN (Sym "C" false)]) 0%N, T [] [] [], []).
Proof. vm_compute. reflexivity. Qed.
Example C79_example_property : parse_property_name "" "" "*rel (A)*" (T [("A", ObjectBT)] [] []) =
  Val ("", VD [MV "rel" false] (TD ObjectBT (TS (TN UndefinedTN (Sym "A" false)) []) 0%N), T [("A", ObjectBT)] [] [], []).
Proof. vm_compute. reflexivity. Qed.
