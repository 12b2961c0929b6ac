(** Lemmas for C84: the steps of a group and of the document follow the specification *)
From Verif Require Import Base StringUtility StringSpec StringProofs SignatureProofs Regex RegexSpec RegexProofs ByteBuffer ByteSpec ByteProofs Markdown MarkdownSpec Keywords KeywordsSpec KeywordsProofs KeywordsOrder Prop_Keywords Prop_Strings RegexCaps TypeTables Sections SectionsSpec SectionsKeys SectionsMeta SectionsParts SectionsKinds.
From Verif Require Import Source Headers HeadersSpec Payloads PayloadsSpec PayloadsText PayloadsNodes Transactions Preface PrefaceSpec PrefaceText.
Local Open Scope string_scope.
Local Open Scope list_scope.

Section Whole.
Context (source : string) (index : list N).
Hypothesis Small : (slen source < 2 ^ 63)%N.
Hypothesis Indexed : List.length index = String.length source.
Notation fine := (PayloadsNodes.fine source).
Notation say := (map (shown index)).

(** ** metadata *)
Lemma warn_said : forall t code text w, fine t -> warn index code text (t_map t) w = Val (w ++ say [About code text (place t)]).
Proof. intros. now apply (warn_ok source index Small Indexed). Qed.
Lemma existsb_key : forall k l, existsb (fun p : string * string => String.eqb (fst p) k) l = true <-> In k (map fst l).
Proof.
  intros k l. rewrite existsb_exists, in_map_iff. split; intros (p & A & B).
  - exists p. split; [now apply String.eqb_eq|exact A].
  - exists p. split; [exact B|now apply String.eqb_eq].
Qed.
Lemma existsb_in : forall k l, existsb (String.eqb k) l = true <-> In k l.
Proof. intros k l. rewrite existsb_exists. split; [intros (x & I & E); apply String.eqb_eq in E; now subst|intros I; exists k; split; [exact I|apply String.eqb_refl]]. Qed.
Lemma duplicates_ok : forall t l a known ks w, fine t -> (forall k, In k (map fst l) -> (In k known <-> In k a)) -> repeats a (map fst l) ks ->
  duplicates index t l known w = Val (w ++ say (map (fun k => About 2 ("duplicate definition of '" +++ k +++ "'") (place t)) ks)).
Proof.
  intros t. induction l as [|[k v] l IH]; intros a known ks w F K R; cbn [map fst] in *.
  - inversion R; subst. cbn. now rewrite app_nil_r.
  - cbn [duplicates]. inversion R as [|a0 k0 r ks0 Na Ir R'|a0 k0 r ks0 Or R']; subst.
    + rewrite (proj2 (existsb_key k l) Ir). destruct (existsb (String.eqb k) known) eqn:E.
      * apply existsb_in in E. elim Na. apply (K k); [now left|exact E].
      * cbn [negb andb]. unfold DuplicateWarning. rewrite warn_said by exact F. cbn [andthen]. rewrite (IH (a ++ [k]) (known ++ [k]) ks0 _ F); [|intros j J; rewrite !in_app_iff, (K j) by (now right); reflexivity|exact R'].
        cbn [map]. now rewrite <- app_assoc.
    + assert (E : (existsb (fun p : string * string => String.eqb (fst p) k) l && negb (existsb (String.eqb k) known))%bool = false).
      { apply andb_false_iff. destruct Or as [I|N].
        - right. apply negb_false_iff, existsb_in, K; [now left|exact I].
        - left. destruct (existsb _ l) eqn:X; [|reflexivity]. now apply existsb_key in X. }
      rewrite E. apply (IH (a ++ [k]) known ks w F); [|exact R']. intros j J. rewrite in_app_iff, (K j) by (now right). split; [auto|]. intros [I|[<-|[]]]; [exact I|]. destruct Or as [I|N]; [exact I|contradiction].
Qed.
Lemma metadata_ok : forall t pairs cs w, fine t -> metadata_says t pairs cs -> parse_metadata index t w = Val (pairs, w ++ say cs) \/ pairs = [].
Proof.
  intros t pairs cs w F (ls & L & P & H). rewrite text_is in L. apply lines_iff in L. apply pairs_iff in P. unfold parse_metadata. rewrite <- L, <- P. rewrite all_pairs, <- P in H.
  destruct H as [(E & ks & R & ->)|(E & ->)].
  - left. rewrite (proj2 (Nat.eqb_eq _ _) E). rewrite (duplicates_ok t pairs [] [] ks w F); [reflexivity|tauto|exact R].
  - rewrite (proj2 (Nat.eqb_neq _ _) E). destruct pairs as [|p pairs]; [now right|left]. unfold FormattingWarning. now rewrite warn_said.
Qed.
Lemma metadata_found : forall t, metadata_p t -> flat_map pair_of (split (trim_end (t_text t)) LF) <> [].
Proof.
  intros t M. assert (Ty : t_type t = ParagraphNode) by (destruct t as [[] x z m cs]; cbn in M |- *; try destruct M; reflexivity). apply (metadata_iff t Ty) in M. unfold metadata in M.
  apply existsb_exists in M as (l & I & K). intros Z. assert (N : pair_of l = []).
  { destruct (pair_of l) as [|p r] eqn:E; [reflexivity|]. exfalso. assert (In p (flat_map pair_of (split (trim_end (t_text t)) LF))) as J by (apply in_flat_map; exists l; rewrite E; split; [exact I|now left]). now rewrite Z in J. }
  unfold key_value in K. unfold pair_of in N. destruct (split_on_first l ":") as [|a [|b [|c r]]]; try discriminate. now rewrite K in N.
Qed.
Lemma metadata_total : forall t, exists pairs cs, metadata_says t pairs cs.
Proof.
  intros t. set (ls := split (trim_end (the_text t)) LF). exists (flat_map pair_of ls). destruct (Nat.eq_dec (List.length ls) (List.length (flat_map pair_of ls))) as [E|E].
  - destruct (repeats_total (map fst (flat_map pair_of ls)) []) as (ks & R). eexists. exists ls. split; [now apply lines_iff|]. split; [now apply pairs_iff|]. left. split; [now apply all_pairs|]. exists ks. split; [exact R|reflexivity].
  - eexists. exists ls. split; [now apply lines_iff|]. split; [now apply pairs_iff|]. right. split; [intros H; apply E; now apply all_pairs|reflexivity].
Qed.

(** ** descriptions *)
Definition not_a_line (s : string) : Prop := s <> String LF "".
Lemma add_ok : forall t s c, fine t -> not_a_line s -> (forall x, description source s [t] x <-> x = c) -> add_description source t s = Val c.
Proof.
  intros t s c F N H. pose proof (proj2 (H c) eq_refl) as D. unfold add_description. inversion D as [|t0 l0 c0 d0 T0 R0|s0 s1 t0 l0 c0 d0 N0 P0 T0 R0]; subst; inversion R0; subst.
  - cbn [String.eqb andthen]. rewrite (map_ok source index Small Indexed t F). cbn [andthen]. apply trims_is in T0 as ->. reflexivity.
  - destruct (String.eqb_spec s "") as [?|_]; [contradiction|]. apply padded_iff in P0; [|exact N0|exact N]. rewrite P0. cbn [andthen]. rewrite (map_ok source index Small Indexed t F). cbn [andthen]. apply trims_is in T0 as ->. reflexivity.
Qed.
Lemma one_text : forall t s, fine t -> not_a_line s -> exists c, add_description source t s = Val c /\ not_a_line c /\ forall l x, description source s (t :: l) x <-> description source c l x.
Proof.
  intros t s F N. set (y := text_at source (covered (place t))). assert (Ty : not_a_line (trim y)).
  { destruct (trim_spec y) as (a & b & _ & _ & _ & G & _). intros E. apply (G LF "" E). vm_compute. auto 10. }
  unfold add_description. rewrite (map_ok source index Small Indexed t F). destruct (String.eqb_spec s "") as [->|Ns].
  - exists (trim y). split; [reflexivity|]. split; [exact Ty|]. intros l x. split; [intros D; inversion D as [|t0 l0 c0 d0 T0 R0|s0 s1 t0 l0 c0 d0 N0 P0 T0 R0]; subst; [apply trims_is in T0 as ->; exact R0|now elim N0]|].
    intros D. apply (description_start source t l (trim y)); [now apply trims_is|exact D].
  - destruct (C41_two_new_lines s Ns N) as (k & u & E & Q & _). exists ((s +++ run_of k LF) +++ trim y)%string. rewrite E. split; [reflexivity|]. split.
    + intros Z. rewrite Q in Z. apply (f_equal String.length) in Z. rewrite !length_append, run_length in Z. cbn in Z. lia.
    + intros l x. split.
      * intros D. inversion D as [|t0 l0 c0 d0 T0 R0|s0 s1 t0 l0 c0 d0 N0 P0 T0 R0]; subst; [now elim Ns|]. apply padded_iff in P0; [|exact N0|exact N]. rewrite E in P0. injection P0 as <-. apply trims_is in T0 as ->. exact R0.
      * intros D. refine (description_next source s _ t l (trim y) x Ns _ _ D); [now apply padded_iff|now apply trims_is].
Qed.
Lemma description_some : forall d s, Forall fine d -> not_a_line s -> exists x, description source s d x.
Proof.
  induction d as [|t d IH]; intros s F N; [exists s; constructor|]. inversion F as [|t0 d0 F1 F2]; subst. destruct (one_text t s F1 N) as (c & _ & Nc & D). destruct (IH c F2 Nc) as (x & X). exists x. now apply D.
Qed.

(** ** groups *)
Lemma empty_line : not_a_line "". Proof. discriminate. Qed.
Lemma copy_steps : forall d s e r name es w, Forall fine d -> not_a_line s -> description source s d e ->
  group_steps source index (map Text d ++ r) name (es ++ [Copy s]) w = group_steps source index r name (es ++ [Copy e]) w.
Proof.
  induction d as [|t d IH]; intros s e r name es w F N D.
  - inversion D; subst. reflexivity.
  - inversion F as [|t0 d0 F1 F2]; subst. destruct (one_text t s F1 N) as (c & E & Nc & K). apply K in D. cbn [map app group_steps group_step]. unfold add_copy. rewrite last_last, E. cbn [andthen].
    rewrite removelast_last. now apply IH.
Qed.
Lemma first_copy : forall t d e r name w, Forall fine (t :: d) -> description source "" (t :: d) e ->
  group_steps source index (map Text (t :: d) ++ r) name [] w = group_steps source index r name [Copy e] w.
Proof.
  intros t d e r name w F D. inversion F as [|t0 d0 F1 F2]; subst. destruct (one_text t "" F1 empty_line) as (c & E & Nc & K). apply K in D. cbn [map app group_steps group_step]. unfold add_copy. cbn [last]. rewrite E. cbn [andthen app].
  now apply (copy_steps d c e r name [] w).
Qed.
Lemma present_iff : forall l, is_resource_present l = true <-> ~ has_resource l.
Proof.
  intros l. unfold is_resource_present, has_resource. rewrite negb_true_iff. split.
  - intros H (u & I). assert (X : existsb (fun e => match e with Held _ => true | _ => false end) l = true) by (apply existsb_exists; exists (Held u); now split). congruence.
  - intros H. destruct (existsb _ l) eqn:E; [|reflexivity]. apply existsb_exists in E as ([| | |] & I & B); try discriminate. elim H. eauto.
Qed.
Lemma last_none : forall l u, ~ has_resource l -> fold_left (fun u e => match e with Held u => u | _ => u end) l u = u.
Proof.
  induction l as [|e l IH]; intros u H; [reflexivity|]. cbn. rewrite IH; [|intros (v & I); apply H; exists v; now right]. destruct e; try reflexivity. elim H. exists uri. now left.
Qed.
Lemma skip_ok : forall t l cs w, fine t -> group_ignores l t cs -> group_skip index t l w = Val (w ++ say cs).
Proof.
  intros t l cs w F H. unfold group_skip. destruct H as [(A & R & name & method & uri & E & ->)|[N I]].
  - apply dependent_iff in A. rewrite A, (proj2 (present_iff l) R). cbn [andb]. rewrite E. cbn [fst snd]. unfold last_resource. rewrite last_none by exact R. unfold IgnoringWarning. now rewrite warn_said.
  - assert (X : (match action_type_of t with DependentAction => true | _ => false end && is_resource_present l)%bool = false).
    { apply not_true_is_false. intros B. apply andb_true_iff in B as [B1 B2]. apply N. split; [|now apply present_iff]. apply dependent_iff. destruct (action_type_of t); try discriminate. reflexivity. }
    rewrite X. now apply (ignored_of source index Small Indexed).
Qed.
Lemma skip_total : forall t l, exists cs, group_ignores l t cs.
Proof.
  intros t l. destruct (match action_type_of t with DependentAction => true | _ => false end && is_resource_present l)%bool eqn:X.
  - apply andb_true_iff in X as [B1 B2]. destruct (action_signature t) as [[name method] uri] eqn:E. eexists. left. split; [apply dependent_iff; destruct (action_type_of t); try discriminate; reflexivity|]. split; [now apply present_iff|].
    exists name, method, uri. split; [exact E|reflexivity].
  - destruct (ignored_total t) as (cs & I). exists cs. right. split; [|exact I]. intros [A R]. apply dependent_iff in A. rewrite A, (proj2 (present_iff l) R) in X. discriminate.
Qed.
Lemma path_ok : forall qs uri, resource_at qs uri -> resource_path qs = uri.
Proof. intros qs uri (t & r & -> & [->|(k & ps & ex & ->)]); reflexivity. Qed.
Lemma holds_ok : forall r l l' cs name w, Forall fine (nodes_of r) -> group_holds l r l' cs -> group_steps source index r name l w = Val (name, l', w ++ say cs).
Proof.
  intros r l l' cs name w F H. revert w F. induction H as [l|l qs ex r l' uri cs A H IH|l t r l' cs1 cs2 A H IH]; intros w F.
  - cbn. now rewrite app_nil_r.
  - cbn [group_steps group_step andthen]. rewrite (path_ok _ _ A). apply IH. unfold nodes_of in F. cbn [flat_map] in F. now apply Forall_app in F as [_ F].
  - unfold nodes_of in F. cbn [flat_map part_nodes app] in F. inversion F as [|t0 r0 F1 F2]; subst. cbn [group_steps group_step]. rewrite (skip_ok t l cs1 w F1 A). cbn [andthen]. rewrite (IH _ F2). now rewrite map_app, app_assoc.
Qed.
Lemma nodes_texts : forall d r, nodes_of (map Text d ++ r) = d ++ nodes_of r.
Proof. induction d as [|t d IH]; intros r; [reflexivity|]. cbn. f_equal. apply IH. Qed.
Lemma group_ok_steps : forall qs name es cs w, Forall fine (nodes_of qs) -> group_says source qs name es cs -> group_steps source index qs "" [] w = Val (name, es, w ++ say cs).
Proof.
  intros qs name es cs w F (h & d & r & -> & Nm & H). unfold nodes_of in F. cbn [flat_map part_nodes app] in F. inversion F as [|h0 r0 F1 F2]; subst. fold (nodes_of (map Text d ++ r)) in F2. rewrite nodes_texts in F2. apply Forall_app in F2 as [Fd Fr].
  cbn [group_steps group_step andthen]. apply group_named_iff in Nm as <-. destruct H as [[-> H]|(Nd & text & D & H)].
  - cbn [map app]. now apply holds_ok.
  - destruct d as [|t d]; [now elim Nd|]. rewrite (first_copy t d text r name w Fd D). now apply holds_ok.
Qed.

(** ** the document *)
Lemma known_iff : forall l name, group_known l name = true <-> exists es, In (Grouped name es) l.
Proof.
  intros l name. unfold group_known. rewrite existsb_exists. split.
  - intros ([| |n es|] & I & E); try discriminate. apply String.eqb_eq in E. subst. eauto.
  - intros (es & I). exists (Grouped name es). split; [exact I|apply String.eqb_refl].
Qed.
Lemma repeated_ok : forall l name qs cs w, Forall fine (nodes_of qs) -> group_repeated l name qs cs ->
  (if group_known l name then warn index DuplicateWarning ((if String.eqb name "" then "anonymous group" else "group '" +++ name +++ "'") +++ " is already defined") (first_map qs) w else Val w) = Val (w ++ say cs).
Proof.
  intros l name qs cs w F [(K & what & h & r & Hw & -> & ->)|(K & ->)].
  - rewrite (proj2 (known_iff l name) K). unfold nodes_of in F. cbn [flat_map part_nodes app] in F. inversion F as [|h0 r0 F1 F2]; subst. cbn [first_map]. unfold DuplicateWarning. rewrite warn_said by exact F1.
    destruct Hw as [[-> ->]|[N ->]]; [reflexivity|]. destruct (String.eqb_spec name "") as [?|_]; [contradiction|reflexivity].
  - destruct (group_known l name) eqn:E; [|cbn; now rewrite app_nil_r]. apply known_iff in E as (es & I). elim (K es I).
Qed.
Lemma document_ok_steps : forall r l l' cs f w, Forall fine (nodes_of r) -> document_holds source l r l' cs -> f_elements f = l -> preface_steps source index r f w = Val (with_elements l' f, w ++ say cs).
Proof.
  intros r l l' cs f w F H. revert f w F.
  induction H as [l|l qs ex r l' uri cs A H IH|l qs ex r l' name es w1 w2 w3 G R H IH|l qs ex r l' cs H IH|l t r l' cs1 cs2 A H IH]; intros f w F E;
    unfold nodes_of in F; cbn [flat_map part_nodes app] in F; try (apply Forall_app in F as [Fq Fr]).
  - cbn. rewrite app_nil_r, <- E. now destruct f.
  - cbn [preface_steps preface_step andthen]. rewrite (path_ok _ _ A), E, (IH _ w Fr); [reflexivity|reflexivity].
  - cbn [preface_steps preface_step]. cbn [section_nodes] in Fq. rewrite (group_ok_steps qs name es w1 w Fq G). cbn [andthen]. rewrite E, (repeated_ok l name qs w2 (w ++ say w1) Fq R). cbn [andthen]. rewrite (IH _ _ Fr); [|reflexivity]. now rewrite !map_app, !app_assoc.
  - cbn [preface_steps preface_step andthen]. rewrite E, (IH _ w Fr); [reflexivity|reflexivity].
  - inversion F as [|t0 r0 F1 F2]; subst. cbn [preface_steps preface_step]. rewrite (ignored_of source index Small Indexed t cs1 w F1 A). cbn [andthen]. rewrite (IH f _ F2 eq_refl). now rewrite map_app, app_assoc.
Qed.
Lemma meta_steps : forall m ms cs, in_turn metadata_says m ms cs -> Forall fine m -> Forall metadata_p m -> forall r f w,
  preface_steps source index (map Meta m ++ r) f w = preface_steps source index r (Preface (f_metadata f ++ concat ms) (f_name f) (f_description f) (f_elements f)) (w ++ say cs).
Proof.
  intros m ms cs H. induction H as [|t m ps ms cs1 cs2 S1 H IH]; intros F M r f w.
  - cbn. rewrite !app_nil_r. now destruct f.
  - inversion F as [|t0 m0 F1 F2]; subst. inversion M as [|t0 m0 M1 M2]; subst. cbn [map app preface_steps preface_step].
    destruct (metadata_ok t ps cs1 w F1 S1) as [E|E].
    + rewrite E. cbn [andthen]. rewrite (IH F2 M2). cbn [concat f_metadata f_name f_description f_elements]. now rewrite map_app, !app_assoc.
    + exfalso. apply (metadata_found t M1). destruct S1 as (ls & L & P & _). apply lines_iff in L. apply pairs_iff in P. rewrite text_is in L. now rewrite <- L, <- P.
Qed.
Lemma text_steps : forall d s e, Forall fine d -> not_a_line s -> description source s d e -> forall r m name es w,
  preface_steps source index (map Text d ++ r) (Preface m name s es) w = preface_steps source index r (Preface m name e es) w.
Proof.
  induction d as [|t d IH]; intros s e F N D r m name es w.
  - inversion D; subst. reflexivity.
  - inversion F as [|t0 d0 F1 F2]; subst. destruct (one_text t s F1 N) as (c & E & Nc & K). apply K in D. cbn [map app preface_steps preface_step f_description f_metadata f_name f_elements]. rewrite E. cbn [andthen]. now apply IH.
Qed.
Lemma missing_ok : forall required nodes f e cs w t, first_is (fun u => u = t) nodes -> fine t -> name_missing required nodes f e cs ->
  preface_finalize index required t f w = Val (option_map (fun m => An (characters index m) 2 name_expected) e, w ++ say cs).
Proof.
  intros required nodes f e cs w t Ft F (t' & Ft' & H). assert (t' = t) as -> by (destruct nodes as [|u l]; [destruct Ft|cbn in Ft, Ft'; congruence]). unfold preface_finalize.
  destruct H as [(N & -> & ->)|[(N & -> & -> & ->)|[(N & -> & D & -> & ->)|(N & -> & D & -> & ->)]]].
  - destruct (String.eqb_spec (f_name f) "") as [?|_]; [contradiction|]. cbn. now rewrite app_nil_r.
  - rewrite N. cbn [String.eqb]. destruct F as [_ F]. rewrite <- place_is, (set_fine source index Small Indexed _ F). cbn. now rewrite app_nil_r.
  - rewrite N. cbn [String.eqb]. destruct (String.eqb_spec (f_description f) "") as [?|_]; [contradiction|]. cbn [negb]. unfold APINameWarning. rewrite warn_said by exact F. reflexivity.
  - rewrite N, D. cbn. now rewrite app_nil_r.
Qed.
Lemma missing_total : forall required nodes f t, first_is (fun u => u = t) nodes -> exists e cs, name_missing required nodes f e cs.
Proof.
  intros required nodes f t Ft. destruct (string_dec (f_name f) "") as [N|N]; [|exists None, [], t; split; [exact Ft|]; left; auto].
  destruct required; [exists (Some (place t)), [], t; split; [exact Ft|]; right; left; auto|].
  destruct (string_dec (f_description f) "") as [D|D]; eexists _, _, t; (split; [exact Ft|]); right; right; [right|left]; repeat split; auto.
Qed.
End Whole.
