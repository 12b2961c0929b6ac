(** Lemmas for C84: what is read is what the specification says, and it says something of every document that has an outline *)
From Verif Require Import Base StringUtility StringSpec StringProofs SignatureProofs Regex RegexSpec RegexProofs ByteBuffer ByteSpec ByteProofs Markdown MarkdownSpec Keywords KeywordsSpec KeywordsProofs KeywordsOrder Prop_Keywords Prop_Strings RegexCaps TypeTables Sections SectionsSpec SectionsKeys SectionsMeta SectionsParts SectionsKinds.
From Verif Require Import Source Headers HeadersSpec Payloads PayloadsSpec PayloadsText PayloadsNodes Transactions Preface PrefaceSpec PrefaceText PrefaceWhole.
Local Open Scope string_scope.
Local Open Scope list_scope.

Section Total.
Context (source : string) (index : list N).
Hypothesis Small : (slen source < 2 ^ 63)%N.
Hypothesis Indexed : List.length index = String.length source.
Notation fine := (PayloadsNodes.fine source).
Notation say := (map (shown index)).
Notation errs := (option_map (fun m => An (characters index m) 2 name_expected)).

Lemma nodes_metas : forall m r, nodes_of (map Meta m ++ r) = m ++ nodes_of r.
Proof. induction m as [|t m IH]; intros r; [reflexivity|]. cbn. f_equal. apply IH. Qed.
Lemma nodes_two : forall a b, nodes_of (a ++ b) = nodes_of a ++ nodes_of b.
Proof. intros a b. unfold nodes_of. apply flat_map_app. Qed.

Lemma preface_ok : forall required nodes ps f e w, (forall t, In (Meta t) ps -> metadata_p t) -> Forall fine nodes -> Forall fine (nodes_of ps) ->
  preface_says source required nodes ps f e w -> read_preface source index required nodes ps = Val (f, errs e, say w).
Proof.
  intros required nodes ps f e w M Fn Fp H. destruct H as [(-> & -> & -> & ->)|(m & o & d & r & ms & texts & w1 & w2 & w3 & -> & Hm & Em & Ho & Hd & Hr & Hn & ->)]; [reflexivity|].
  destruct nodes as [|t nodes]; [destruct Hn as (t & [] & _)|]. inversion Fn as [|t0 n0 Ft _]; subst. cbn [read_preface].
  rewrite nodes_metas, !nodes_two in Fp. apply Forall_app in Fp as [F1 F2]. apply Forall_app in F2 as [F2 F3]. apply Forall_app in F3 as [F3 F4].
  assert (Fd : Forall fine d) by (rewrite <- (app_nil_r (map Text d)), nodes_texts in F3; cbn in F3; now rewrite app_nil_r in F3).
  rewrite (meta_steps source index Small Indexed m ms w1 Hm F1); [|apply Forall_forall; intros u I; apply M, in_app_iff; left; now apply in_map]. cbn [f_metadata f_name f_description f_elements no_preface app].
  rewrite <- Em.
  assert (X : preface_steps source index (o ++ map Text d ++ r) (Preface (f_metadata f) "" "" []) (say w1) = preface_steps source index r (Preface (f_metadata f) (f_name f) (f_description f) []) (say w1)).
  { destruct Ho as [(-> & -> & ->)|[(h & -> & T & ->)|(u & -> & -> & ->)]].
    - cbn [app] in *. now rewrite (text_steps source index Small Indexed d "" (f_description f) Fd empty_line Hd).
    - cbn [app preface_steps preface_step andthen f_metadata f_description f_elements] in *. rewrite text_is in T. apply trims_is in T as <-. now rewrite (text_steps source index Small Indexed d "" (f_description f) Fd empty_line Hd).
    - cbn [nodes_of flat_map part_nodes app] in F2. change ([Text u] ++ map Text d ++ r) with (map Text (u :: d) ++ r). apply (text_steps source index Small Indexed); [|exact empty_line|exact Hd]. inversion F2; subst. now constructor. }
  unfold no_preface in *. cbn [f_metadata app]. cbn [f_metadata f_name f_description f_elements app] in X |- *. rewrite X.
  rewrite (document_ok_steps source index Small Indexed r [] (f_elements f) w2 _ _ F4 Hr); [|reflexivity]. cbn [andthen]. unfold with_elements. cbn [f_metadata f_name f_description].
  replace (Preface (f_metadata f) (f_name f) (f_description f) (f_elements f)) with f by now destruct f.
  rewrite (missing_ok source index Small Indexed required (t :: nodes) f e w3 _ t eq_refl Ft Hn). cbn [andthen]. now rewrite !map_app, !app_assoc.
Qed.

(** ** totality *)
Lemma resource_total : forall s rest, resource_ok s rest -> exists qs ex uri, s = Sec ResourceSection qs ex /\ resource_at qs uri.
Proof.
  intros s rest [(a & h & -> & _ & _ & (h' & d & ps & ex & -> & _))|(h & d & ps & -> & _)].
  - do 3 eexists. split; [reflexivity|]. do 2 eexists. split; [reflexivity|]. right. do 3 eexists. reflexivity.
  - do 3 eexists. split; [reflexivity|]. do 2 eexists. split; [reflexivity|]. left. reflexivity.
Qed.
Lemma holds_total : forall ps done rest l, in_order group_rule done ps rest -> exists l' cs, group_holds l ps l' cs.
Proof.
  intros ps done rest l H. revert l. induction H as [done rest|done p ps rest R H IH]; intros l; [do 2 eexists; constructor|].
  destruct p as [t|t|t|ty t|t|t|s]; cbn in R; try contradiction.
  - destruct (skip_total t l) as (cs & I). destruct (IH l) as (l' & cs' & G). do 2 eexists. econstructor; eassumption.
  - destruct R as [_ R]. apply resource_total in R as (qs & ex & uri & -> & A). destruct (IH (l ++ [Held uri])) as (l' & cs' & G). do 2 eexists. econstructor; eassumption.
Qed.
Lemma group_total : forall s rest, group_ok s rest -> Forall fine (section_nodes s) -> exists h qs name l cs, s = Sec ResourceGroupSection (Head h :: qs) [] /\ group_says source (Head h :: qs) name l cs.
Proof.
  intros s rest (h & d & ps & -> & _ & _ & O & _) F. assert (Fd : Forall fine d).
  { cbn [section_nodes flat_map part_nodes app] in F. inversion F as [|h0 r0 _ F2]; subst. fold (nodes_of (map Text d ++ ps)) in F2. rewrite nodes_texts in F2. now apply Forall_app in F2 as [F2 _]. }
  exists h, (map Text d ++ ps), (group_title h). destruct d as [|t d].
  - destruct (holds_total ps [] _ [] O) as (l & cs & G). exists l, cs. split; [reflexivity|]. exists h, [], ps. split; [reflexivity|]. split; [now apply group_named_iff|]. left. now split.
  - destruct (description_some source index Small Indexed (t :: d) "" Fd empty_line) as (x & D). destruct (holds_total ps [] _ [Copy x] O) as (l & cs & G). exists l, cs. split; [reflexivity|]. exists h, (t :: d), ps. split; [reflexivity|].
    split; [now apply group_named_iff|]. right. split; [discriminate|]. exists x. now split.
Qed.
Lemma repeated_total : forall l name h r, exists cs, group_repeated l name (Head h :: r) cs.
Proof.
  intros l name h r. destruct (group_known l name) eqn:E.
  - apply known_iff in E. destruct (string_dec name "") as [N|N]; (eexists; left; split; [exact E|]; do 3 eexists; split; [|split; reflexivity]); [now left|now right].
  - exists []. right. split; [|reflexivity]. intros es I. rewrite (proj2 (known_iff l name)) in E; [discriminate|now exists es].
Qed.
Lemma document_total : forall base ps done rest l, in_order (document_rule base) done ps rest -> Forall fine (nodes_of ps) -> exists l' cs, document_holds source l ps l' cs.
Proof.
  intros base ps done rest l H. revert l. induction H as [done rest|done p ps rest R H IH]; intros l F; [do 2 eexists; constructor|].
  unfold nodes_of in F. cbn [flat_map] in F. apply Forall_app in F as [F1 F2]. fold (nodes_of ps) in F2.
  destruct p as [t|t|t|ty t|t|t|s]; cbn in R; try contradiction.
  - destruct (ignored_total t) as (cs & I). destruct (IH l F2) as (l' & cs' & G). do 2 eexists. econstructor; eassumption.
  - destruct R as [[_ R]|R].
    + apply resource_total in R as (qs & ex & uri & -> & A). destruct (IH (l ++ [Held uri]) F2) as (l' & cs' & G). do 2 eexists. econstructor; eassumption.
    + destruct R as [R|R].
      * cbn [part_nodes] in F1. apply group_total in R as (h & qs & name & es & w1 & -> & G1); [|exact F1]. destruct (repeated_total l name h qs) as (w2 & G2). destruct (IH (l ++ [Grouped name es]) F2) as (l' & cs' & G). do 2 eexists. econstructor; eassumption.
      * destruct R as (h & qs & -> & _). destruct (IH (l ++ [Structures]) F2) as (l' & cs' & G). do 2 eexists. econstructor. eassumption.
Qed.
Lemma metas_are : forall base ps, document_ok base (Sec BlueprintSection ps []) -> forall t, In (Meta t) ps -> metadata_p t.
Proof.
  intros base ps (m & o & d & r & E & M & O & _ & _ & R) t I. injection E as ->. rewrite !in_app_iff in I. destruct I as [I|[I|[I|I]]].
  - apply in_map_iff in I as (u & U & I). injection U as ->. rewrite Forall_forall in M. now apply M.
  - destruct O as [(-> & _)|[(h & -> & _)|(u & -> & _)]]; [destruct I| |]; destruct I as [I|[]]; discriminate.
  - apply in_map_iff in I as (u & U & I). discriminate.
  - exfalso. clear - R I. induction R as [|done p ps rest R H IH]; [destruct I|]. destruct I as [-> |I]; [exact R|now apply IH].
Qed.
Lemma preface_total : forall base required nodes ps, document_ok base (Sec BlueprintSection ps []) -> Forall fine (nodes_of ps) -> exists f e w, preface_says source required nodes ps f e w.
Proof.
  intros base required nodes ps (m & o & d & r & E & M & O & _ & _ & R) F. injection E as ->. destruct nodes as [|t nodes]; [do 3 eexists; left; repeat split|].
  rewrite nodes_metas, !nodes_two in F. apply Forall_app in F as [F1 F2]. apply Forall_app in F2 as [F2 F3]. apply Forall_app in F3 as [F3 F4].
  assert (Fd : Forall fine d) by (rewrite <- (app_nil_r (map Text d)), nodes_texts in F3; cbn in F3; now rewrite app_nil_r in F3).
  destruct (turn_total _ metadata_says m) as (ms & w1 & H1); [intros u _; apply metadata_total|]. destruct (document_total base r [] [] [] R F4) as (l & w2 & H2).
  assert (H3 : exists name texts x, named_by_header o name texts /\ description source "" (texts ++ d) x).
  { destruct O as [(-> & _)|[(h & -> & _)|(u & -> & _)]].
    - destruct (description_some source index Small Indexed d "" Fd empty_line) as (x & D). exists "", [], x. split; [now left|exact D].
    - destruct (description_some source index Small Indexed d "" Fd empty_line) as (x & D). exists (trim (the_text h)), [], x. split; [right; left; exists h; split; [reflexivity|]; split; [now apply trims_is|reflexivity]|exact D].
    - cbn [nodes_of flat_map part_nodes app] in F2. inversion F2 as [|u0 l0 Fu _]; subst. destruct (description_some source index Small Indexed (u :: d) "" (Forall_cons _ Fu Fd) empty_line) as (x & D). exists "", [u], x. split; [right; right; now exists u|exact D]. }
  destruct H3 as (name & texts & x & H3 & H4). destruct (missing_total required (t :: nodes) (Preface (concat ms) name x l) t eq_refl) as (e & w3 & H5).
  exists (Preface (concat ms) name x l), e, (w1 ++ w2 ++ w3). right. exists m, o, d, r, ms, texts, w1, w2, w3. repeat (split; [first [reflexivity|assumption]|]). reflexivity.
Qed.
End Total.
