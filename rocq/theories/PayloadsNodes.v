(** Lemmas for C77: the content of nodes *)
From Verif Require Import Base StringUtility StringSpec StringProofs SignatureProofs Regex RegexSpec RegexProofs ByteBuffer ByteSpec ByteProofs Prop_Bytes Markdown MarkdownSpec MarkdownTree Keywords KeywordsSpec KeywordsProofs KeywordsOrder Prop_Keywords Prop_Strings RegexCaps TypeTables SectionsSpec SectionsKeys.
From Verif Require Import Source Headers HeadersSpec HeadersProofs Prop_Headers Payloads PayloadsSpec PayloadsText PayloadsLine.
Local Open Scope string_scope.

Lemma place_is : forall t, place t = t_map t. Proof. now intros []. Qed.
Lemma text_is : forall t, the_text t = t_text t. Proof. now intros []. Qed.
Lemma code_is : forall t, code_block t <-> t_type t = CodeNode. Proof. intros [[] ? ? ? ?]; cbn; split; congruence || tauto. Qed.
Lemma code_dec : forall t, code_block t \/ ~ code_block t. Proof. intros [[] ? ? ? ?]; cbn; tauto. Qed.
Lemma header_is : forall t, header_node t <-> is_header t = true. Proof. intros [[] ? ? ? ?]; cbn; split; congruence || tauto. Qed.
Lemma text_block_is : forall t, text_block t <-> text_node t = true. Proof. intros [[] ? ? ? ?]; unfold text_block; cbn; split; (congruence || tauto). Qed.
Lemma plain_is : forall t, no_keyword t = true <-> plain_node t.
Proof. intros t. unfold no_keyword, plain_node. rewrite <- C75_no_keyword. destruct (section_keyword t); split; congruence. Qed.

Section Nodes.
Context (source : string) (index : list N).
Hypothesis Small : (slen source < 2 ^ 63)%N.
Hypothesis Indexed : List.length index = String.length source.

Definition fine (t : tree) : Prop := place t <> [] /\ Forall (fun r => location r < slen source /\ location r + length r <= slen source)%N (place t).

Lemma index_fine : forall r, (location r < slen source /\ location r + length r <= slen source)%N -> exists c, index_to_characters r index = Val c.
Proof.
  intros r [A C]. assert (L : N.of_nat (List.length index) = slen source) by (unfold slen; now rewrite Indexed). destruct (N.eq_dec (length r) 0) as [Z|Z].
  - unfold index_to_characters. rewrite L. destruct (N.eqb_spec (slen source) 0) as [?|_]; [lia|]. assert (P : (2 ^ 63 < 2 ^ 64)%N) by reflexivity.
    rewrite wadd_small by lia. destruct (N.ltb_spec (slen source) (location r + length r)) as [?|_]; [lia|]. destruct (vec_ok index (location r)) as [x Hx]; [lia|].
    assert (D : exists loc, (if 0 <? location r then vec_get index (location r) else Val 0)%N = Val loc) by (destruct (0 <? location r)%N; eauto).
    destruct D as [loc ->]. cbn [andthen]. rewrite Z. cbn. eauto.
  - apply index_ok; lia.
Qed.
Lemma set_fine : forall m, Forall (fun r => location r < slen source /\ location r + length r <= slen source)%N m -> index_set_to_characters m index = Val (characters index m).
Proof.
  intros m H. assert (X : exists l, index_set_to_characters m index = Val l).
  { unfold index_set_to_characters. induction H as [|r m A _ (l & IH)]; [exists []; reflexivity|]. destruct (index_fine r A) as (c & E). exists (c :: l). cbn [mapO]. rewrite E. cbn [andthen]. rewrite IH. reflexivity. }
  destruct X as (l & E). unfold characters. now rewrite E.
Qed.
Lemma warn_ok : forall t code text w, fine t -> warn index code text (t_map t) w = Val (w ++ map (shown index) [About code text (place t)])%list.
Proof. intros t code text w [_ F]. unfold warn. rewrite <- place_is, (set_fine _ F). reflexivity. Qed.
Lemma map_ok : forall t, fine t -> map_ranges (t_map t) source = Val (text_at source (covered (place t))).
Proof.
  intros t [_ F]. rewrite <- place_is. apply C49_text; [lia|]. rewrite Forall_forall in F |- *. intros r I. now apply F in I.
Qed.

(** ** ignored nodes *)
Lemma ignored_of : forall t cs w, fine t -> ignored t cs -> unexpected index t w = Val (w ++ map (shown index) cs)%list.
Proof.
  intros t cs w F [[H ->]|[H ->]]; unfold unexpected.
  - apply header_is in H. rewrite H. now apply warn_ok.
  - destruct (is_header t) eqn:E; [elim H; now apply header_is|]. now apply warn_ok.
Qed.
Lemma ignored_total : forall t, exists cs, ignored t cs.
Proof.
  intros t. destruct (is_header t) eqn:E.
  - eexists. left. split; [now apply header_is|reflexivity].
  - eexists. right. split; [|reflexivity]. intros H. apply header_is in H. congruence.
Qed.
Lemma turn_total : forall A (step : tree -> A -> list complaint -> Prop) l, (forall t, In t l -> exists a w, step t a w) -> exists r w, in_turn step l r w.
Proof.
  intros A step. induction l as [|t l IH]; intros H; [do 2 eexists; constructor|]. destruct (H t) as (a & w & S1); [now left|]. destruct IH as (r & v & S2); [intros u I; apply H; now right|].
  do 2 eexists. constructor; eassumption.
Qed.
Lemma all_ignored_of : forall l cs w, Forall fine l -> all_ignored l cs -> skip_all index l w = Val (w ++ map (shown index) cs)%list.
Proof.
  intros l cs w F (u & H). revert w F. induction H as [|t l a r v w' S1 S2 IH]; intros w F; [cbn; now rewrite app_nil_r|]. inversion F as [|? ? F1 F2]; subst. cbn [skip_all].
  rewrite (ignored_of t v w F1 S1). cbn [andthen]. rewrite (IH _ F2), map_app. now rewrite app_assoc.
Qed.
Lemma all_ignored_total : forall l, exists cs, all_ignored l cs.
Proof.
  intros l. destruct (turn_total unit (fun t _ => ignored t) l) as (r & w & H); [|now exists w, r]. intros t _. destruct (ignored_total t) as (cs & H). now exists tt, cs.
Qed.

(** ** references out of place *)
Lemma stray_of : forall ctx t cs w, fine t -> stray_reference (section_name ctx) t cs -> check_reference index ctx t w = Val (w ++ map (shown index) cs)%list.
Proof.
  intros ctx t cs w F H. unfold check_reference. rewrite <- text_is. destruct H as [(id & R & ->)|[R ->]].
  - apply refers_iff in R. rewrite R. now apply warn_ok.
  - apply refers_none in R. rewrite R. cbn. now rewrite app_nil_r.
Qed.
Lemma stray_total : forall name t, exists cs, stray_reference name t cs.
Proof.
  intros name t. destruct (model_reference (trim (the_text t))) as [id|] eqn:E.
  - eexists. left. exists id. split; [now apply refers_iff|reflexivity].
  - eexists. right. split; [now apply refers_none|reflexivity].
Qed.

(** ** code blocks indented too much *)
Lemma looks_iff : forall P t, looks_like P t <-> exists c x, line_of (the_text t) = String c x /\ In c ["-"; "+"; "*"]%char /\ trim_start x <> "" /\ P (c_text (trim_start x)).
Proof.
  intros P t. unfold looks_like, line_of. split.
  - intros (first & rest & l & c & x & a & y & v & L & T & -> & I & -> & A & H & N & V & Pv). apply lines_iff in L. rewrite L. cbn [fst]. apply trims_is in T. exists c, (a +++ y).
    split; [now symmetry|]. split; [exact I|]. assert (E : trim_start (a +++ y) = y).
    { unfold trim_start. rewrite (spaces_app a y A H). now apply from_app. }
    rewrite E. split; [exact N|]. apply before_c_text in V. now subst v.
  - intros (c & x & E & I & N & Pv). destruct (first_line (the_text t) "") as [first rest] eqn:L. cbn [fst] in E. destruct (trim_start_spec x) as (a & Ex & A & _ & H).
    exists first, rest, (String c x), c, x, a, (trim_start x), (c_text (trim_start x)). split; [now apply lines_iff|]. split; [now apply trims_is|]. split; [reflexivity|]. split; [exact I|]. split; [exact Ex|]. split; [exact A|]. split; [exact H|].
    split; [exact N|]. split; [now apply before_c_text|exact Pv].
Qed.

Lemma recognized : forall y, recognize_first_line y <> UndefinedSection -> recognize_first_line y = HeadersSection \/ recognize_first_line y = BodySection \/ recognize_first_line y = SchemaSection.
Proof.
  intros y. unfold recognize_first_line, if_. destruct (regex_match y HeadersRegex), (regex_match y BodyRegex), (regex_match y SchemaRegex); tauto.
Qed.
Definition kind_section (k : asset_kind) : section_type := match k with Body_ => BodySection | Schema_ => SchemaSection | Headers_ => HeadersSection end.
Lemma looks_section : forall t, (looks_like reads_headers t <-> exists c x, line_of (the_text t) = String c x /\ In c ["-"; "+"; "*"]%char /\ recognize_first_line (trim_start x) = HeadersSection) /\
  (looks_like reads_body t <-> exists c x, line_of (the_text t) = String c x /\ In c ["-"; "+"; "*"]%char /\ recognize_first_line (trim_start x) = BodySection) /\
  (looks_like reads_schema t <-> exists c x, line_of (the_text t) = String c x /\ In c ["-"; "+"; "*"]%char /\ recognize_first_line (trim_start x) = SchemaSection).
Proof.
  intros t. rewrite !looks_iff. split; [|split]; split; intros (c & x & E & I & H); exists c, x; (split; [exact E|]); (split; [exact I|]); apply C75_code_block; exact H.
Qed.
Lemma mark_is : forall c, (Ascii.eqb c "-" || Ascii.eqb c "+" || Ascii.eqb c "*")%bool = true <-> In c ["-"; "+"; "*"]%char.
Proof. intros c. rewrite !orb_true_iff, !Ascii.eqb_eq. cbn. intuition congruence. Qed.
Lemma deep_of : forall k t cs w, fine t -> too_deep t cs -> check_indentation index (kind_section k) t w = Val (w ++ map (shown index) cs)%list.
Proof.
  intros k t cs w F H. unfold check_indentation. rewrite <- text_is. destruct (looks_section t) as (Lh & Lb & Ls).
  assert (X : level_of (kind_section k) = 3%N) by now destruct k. rewrite X.
  assert (G : forall ty name, section_name ty = name -> (ty = HeadersSection \/ ty = BodySection \/ ty = SchemaSection) ->
    (exists c x, line_of (the_text t) = String c x /\ In c ["-"; "+"; "*"]%char /\ recognize_first_line (trim_start x) = ty) ->
    cs = [About 10 ("excessive indentation, " +++ name +++ " section is expected to be indented by just 8 spaces or 2 tabs") (place t)] ->
    match line_of (the_text t) with
    | EmptyString => Val w
    | String c rest =>
      if (Ascii.eqb c "-" || Ascii.eqb c "+" || Ascii.eqb c "*")%bool then
        match recognize_first_line (trim_start rest) with
        | UndefinedSection => Val w
        | ty => let level := (3 - 1)%N in
          warn index IndentationWarning ("excessive indentation, " +++ section_name ty +++ " " +++
            (if (level =? 0)%N then "section is not expected to be indented"
             else "section is expected to be indented by just " +++ decimal (level * 4) +++ " spaces or " +++ decimal level +++ " tab" +++ (if (1 <? level)%N then "s" else "")))
            (t_map t) w
        end
      else Val w
    end = Val (w ++ map (shown index) cs)%list).
  { intros ty name <- Hty (c & x & E & I & R) ->. rewrite E. apply mark_is in I. rewrite I, R. destruct Hty as [->|[-> | ->]]; apply warn_ok; exact F. }
  destruct H as [[H ->]|[[H ->]|[[H ->]|(H1 & H2 & H3 & ->)]]].
  - apply (G HeadersSection "headers"); [reflexivity|tauto|now apply Lh|reflexivity].
  - apply (G BodySection "message-body"); [reflexivity|tauto|now apply Lb|reflexivity].
  - apply (G SchemaSection "message-schema"); [reflexivity|tauto|now apply Ls|reflexivity].
  - cbn [map]. rewrite app_nil_r. destruct (line_of (the_text t)) as [|c x] eqn:E; [reflexivity|].
    destruct ((Ascii.eqb c "-" || Ascii.eqb c "+" || Ascii.eqb c "*")%bool) eqn:I; [|reflexivity]. apply mark_is in I.
    pose proof (recognized (trim_start x)) as R. destruct (recognize_first_line (trim_start x)) eqn:Q; [reflexivity|..]; exfalso; (destruct R as [R|[R|R]]; try discriminate).
    + apply H2, Lb. eauto.
    + apply H3, Ls. eauto.
    + apply H1, Lh. eauto.
Qed.
Lemma deep_total : forall t, exists cs, too_deep t cs.
Proof.
  intros t. destruct (looks_section t) as (Lh & Lb & Ls). unfold too_deep. destruct (line_of (the_text t)) as [|c x] eqn:E.
  { eexists. right. right. right. split; [rewrite Lh|split; [rewrite Lb|split; [rewrite Ls|reflexivity]]]; intros (c & x & H & _); congruence. }
  destruct ((Ascii.eqb c "-" || Ascii.eqb c "+" || Ascii.eqb c "*")%bool) eqn:I.
  - apply mark_is in I. pose proof (recognized (trim_start x)) as R. destruct (recognize_first_line (trim_start x)) eqn:Q; try (exfalso; destruct R as [R|[R|R]]; discriminate).
    + eexists. right. right. right. split; [rewrite Lh|split; [rewrite Lb|split; [rewrite Ls|reflexivity]]]; intros (c' & x' & H & _ & H'); congruence.
    + eexists. right. left. split; [apply Lb; eauto|reflexivity].
    + eexists. right. right. left. split; [apply Ls; eauto|reflexivity].
    + eexists. left. split; [apply Lh; eauto|reflexivity].
  - eexists. right. right. right. assert (N : ~ In c ["-"; "+"; "*"]%char) by (intros H; apply mark_is in H; congruence).
    split; [rewrite Lh|split; [rewrite Lb|split; [rewrite Ls|reflexivity]]]; intros (c' & x' & H & H' & _); apply N; congruence.
Qed.

(** ** content *)
Definition parent_form (parent : section_type) (sh : depth) : Prop := level_of parent = match sh with Top_ => 1%N | Short_ => 2%N | Deep_ => 3%N end.
Lemma kind_name_is : forall k, section_name (kind_section k) = name_of k. Proof. now intros []. Qed.
Lemma kind_title_is : forall k, asset_name (kind_section k) = title_of k. Proof. now intros []. Qed.
Lemma indent_is : forall parent sh, parent_form parent sh -> indented (level_of parent) = indent_of sh.
Proof. intros parent sh ->. now destruct sh. Qed.
Lemma content_ok : forall sh parent k t c cs w, fine t -> parent_form parent sh -> content source sh k t c cs ->
  content_of source index (kind_section k) parent t w = Val (c, w ++ map (shown index) cs)%list.
Proof.
  intros sh parent k t c cs w F L (w1 & w2 & S1 & W & -> & D). unfold content_of. rewrite (stray_of (kind_section k) t w1 w F) by (now rewrite kind_name_is). cbn [andthen].
  destruct D as [[D H]|[D ->]].
  - apply code_is in D as E. rewrite E. rewrite (deep_of k t w2 _ F H). cbn [andthen]. destruct W as [[_ ->]|[W _]]; [|contradiction]. rewrite map_app. now rewrite <- app_assoc.
  - destruct W as [[W _]|[_ ->]]; [contradiction|]. rewrite (map_ok t F). cbn [andthen]. rewrite map_app, <- app_assoc. rewrite kind_title_is, (indent_is _ _ L). cbn [map shown].
    destruct (t_type t) eqn:E; try reflexivity. elim D. now apply code_is.
Qed.
Lemma writes_total : forall t, exists c, writes source t c.
Proof. intros t. destruct (code_dec t) as [H|H]; eexists; [left|right]; (split; [exact H|reflexivity]). Qed.
Lemma writes_unique : forall t c c', writes source t c -> writes source t c' -> c = c'.
Proof. intros t c c' [[A ->]|[A ->]] [[D ->]|[D ->]]; try reflexivity; contradiction. Qed.
Lemma content_total : forall sh k t, exists c cs, content source sh k t c cs.
Proof.
  intros sh k t. destruct (writes_total t) as (c & W). destruct (stray_total (name_of k) t) as (w1 & S1). destruct (code_dec t) as [H|H].
  - destruct (deep_total t) as (w2 & D). exists c, (w1 ++ w2)%list, w1, w2. split; [exact S1|]. split; [exact W|]. split; [reflexivity|]. left. now split.
  - eexists c, _, w1, _. split; [exact S1|]. split; [exact W|]. split; [reflexivity|]. right. split; [exact H|reflexivity].
Qed.
Lemma own_ok : forall sh parent k t c cs w, fine t -> parent_form parent sh -> own_lines sh k t c cs ->
  signature_content index (kind_section k) parent t w = Val (c, w ++ map (shown index) cs)%list.
Proof.
  intros sh parent k t c cs w F L (first & rest & H & D). unfold signature_content, remaining. apply lines_iff in H. rewrite text_is in H. rewrite H. cbn [snd].
  destruct D as [(-> & -> & ->)|(N & -> & ->)].
  - cbn. now rewrite app_nil_r.
  - destruct (String.eqb_spec rest "") as [->|_]; [contradiction|]. rewrite kind_title_is, (indent_is _ _ L), (warn_ok t _ _ w F). reflexivity.
Qed.
Lemma own_total : forall sh k t, exists c cs, own_lines sh k t c cs.
Proof.
  intros sh k t. destruct (first_line (the_text t) "") as [first rest] eqn:E. apply lines_iff in E. destruct (String.eqb_spec rest "") as [->|N].
  - exists "", [], first, "". split; [exact E|]. now left.
  - do 2 eexists. exists first, rest. split; [exact E|]. right. split; [exact N|]. now split.
Qed.

(** ** the nodes of an item *)
Lemma fine_takes : forall t, fine t -> takes_nothing t \/ takes_source t.
Proof. intros [ty x z [|r m] cs] [F _]; [now elim F|]. unfold takes_nothing, takes_source. cbn. destruct (N.eq_dec (length r) 0); tauto. Qed.
Lemma start_nothing : forall l, Forall takes_nothing l -> start_loop l = Val None.
Proof.
  induction 1 as [|t l H _ IH]; [reflexivity|]. cbn [start_loop]. unfold takes_nothing in H. rewrite place_is in H. destruct (t_map t) as [|r m]; [contradiction|].
  rewrite H. exact IH.
Qed.
Lemma start_some : forall a t r, Forall takes_nothing a -> takes_source t -> start_loop (a ++ t :: r) = Val (Some (t :: r)).
Proof.
  induction 1 as [|u a H _ IH]; intros T; cbn [start_loop app].
  - unfold takes_source in T. rewrite place_is in T. destruct (t_map t) as [|x m]; [contradiction|]. destruct (N.eqb_spec (length x) 0); [contradiction|reflexivity].
  - unfold takes_nothing in H. rewrite place_is in H. destruct (t_map u) as [|x m]; [contradiction|]. rewrite H. exact (IH T).
Qed.
Lemma opens_of : forall item t r, opens item t r -> starting item = Val (t :: r).
Proof.
  intros [ty x z m cs] t r H. unfold starting. destruct ty; try contradiction. cbn [is_item t_type t_children]. destruct H as [(a & -> & A & T)|[-> A]].
  - rewrite (start_some a t r A T). reflexivity.
  - rewrite (start_nothing _ A). reflexivity.
Qed.
Lemma takes_split : forall l, Forall fine l -> Forall takes_nothing l \/ exists a t r, l = (a ++ t :: r)%list /\ Forall takes_nothing a /\ takes_source t.
Proof.
  induction 1 as [|t l F _ [IH|(a & u & r & -> & A & T)]]; [now left|..]; destruct (fine_takes t F) as [N|N].
  - left. now constructor.
  - right. exists [], t, l. split; [reflexivity|]. split; [constructor|exact N].
  - right. exists (t :: a), u, r. split; [reflexivity|]. split; [now constructor|exact T].
  - right. exists [], t, (a ++ u :: r)%list. split; [reflexivity|]. split; [constructor|exact N].
Qed.
Lemma opens_total : forall P item, item_says P item -> (match item with Tree _ _ _ _ cs => Forall fine cs end) -> exists t r, opens item t r.
Proof.
  intros P [ty x z m cs] S F. destruct ty; try contradiction. destruct cs as [|c cs]; [contradiction|]. destruct (takes_split _ F) as [H|(a & t & r & E & A & T)].
  - exists c, cs. cbn. right. now split.
  - exists t, r. cbn. left. exists a. now split.
Qed.
Lemma opens_in : forall item t r, opens item t r -> match item with Tree _ _ _ _ cs => exists a, cs = (a ++ t :: r)%list end.
Proof. intros [[] x z m cs] t r H; try contradiction. destruct H as [(a & -> & _)|[-> _]]; [now exists a|now exists []]. Qed.

(** ** rows *)
Lemma row_total : forall (P : tree -> Prop) l, (forall t, P t \/ ~ P t) -> exists d x, row P l d x.
Proof.
  intros P l D. induction l as [|t l (d & x & -> & A & H)].
  - exists [], []. split; [reflexivity|]. split; [constructor|tauto].
  - destruct (D t) as [H1|H1].
    + exists (t :: d), x. split; [reflexivity|]. split; [now constructor|exact H].
    + exists [], (t :: d ++ x)%list. split; [reflexivity|]. split; [constructor|exact H1].
Qed.
Lemma contents_stop : forall A (is_content : tree -> bool) (f : tree -> A -> report -> outcome (A * report)) P x a w, (forall t, is_content t = true <-> P t) -> ~ begins P x ->
  contents is_content f x a w = Val (a, w, x).
Proof.
  intros A is_content f P x a w HP HX. destruct x as [|t x]; [reflexivity|]. cbn [contents]. destruct (is_content t) eqn:E; [|reflexivity]. elim HX. now apply HP.
Qed.

(** ** bodies and schemas *)
Lemma contents_asset : forall sh parent k d cs ws x, parent_form parent sh -> Forall fine d -> Forall plain_node d -> ~ begins plain_node x -> in_turn (content source sh k) d cs ws -> forall text w,
  contents no_keyword (fun t text w => andthen (content_of source index (kind_section k) parent t w) (fun '(c, w) => Val (text +++ c, w))) (d ++ x)%list text w =
    Val (text +++ sconcat cs, (w ++ map (shown index) ws)%list, x).
Proof.
  intros sh parent k d cs ws x L F P X H. induction H as [|t l a r v u S1 S2 IH]; intros text w.
  - cbn [app map sconcat]. rewrite (contents_stop _ no_keyword _ plain_node x _ _ plain_is X), append_nil_r, app_nil_r. reflexivity.
  - inversion F as [|? ? F1 F2]; inversion P as [|? ? P1 P2]; subst. cbn [app contents]. rewrite (proj2 (plain_is t) P1). rewrite (content_ok sh parent k t a v w F1 L S1). cbn [andthen].
    rewrite (IH F2 P2), map_app. cbn [sconcat]. rewrite append_assoc, <- app_assoc. reflexivity.
Qed.
Definition within (item : tree) : Prop := match item with Tree _ _ _ _ cs => Forall fine cs end.
Lemma opens_fine : forall item t r, opens item t r -> within item -> fine t /\ Forall fine r.
Proof.
  intros item t r H W. apply opens_in in H. destruct item as [ty x z m cs]. destruct H as (a & ->). cbn in W. apply Forall_app in W as [_ W]. inversion W; subst. now split.
Qed.
Lemma plain_dec : forall t, plain_node t \/ ~ plain_node t.
Proof. intros t. destruct (no_keyword t) eqn:E; [left; now apply plain_is|right; intros H; apply plain_is in H; congruence]. Qed.
Lemma asset_ok : forall parent k item s cs w, within item -> parent_form parent Deep_ -> asset source k item s cs ->
  parse_asset source index (kind_section k) parent item w = Val (s, w ++ map (shown index) cs)%list.
Proof.
  intros parent k item s cs w W L (t & r & d & x & c & l & w1 & w2 & w3 & O & (-> & P & X) & H1 & H2 & H3 & -> & ->). destruct (opens_fine _ _ _ O W) as [F1 F2]. apply Forall_app in F2 as [F2 F3].
  unfold parse_asset. rewrite (opens_of _ _ _ O). cbn [andthen]. rewrite (own_ok Deep_ parent k t c w1 w F1 L H1). cbn [andthen].
  rewrite (contents_asset Deep_ parent k d l w2 x L F2 P X H2). cbn [andthen]. rewrite (all_ignored_of x w3 _ F3 H3). cbn [andthen]. rewrite !map_app, !app_assoc. reflexivity.
Qed.
Lemma asset_total : forall P k item, item_says P item -> within item -> exists s cs, asset source k item s cs.
Proof.
  intros P k item S1 W. destruct (opens_total P item S1 W) as (t & r & O). destruct (row_total plain_node r plain_dec) as (d & x & R).
  destruct (own_total Deep_ k t) as (c & w1 & H1). destruct (turn_total _ (content source Deep_ k) d) as (l & w2 & H2); [intros u _; apply content_total|]. destruct (all_ignored_total x) as (w3 & H3).
  do 2 eexists. exists t, r, d, x, c, l, w1, w2, w3. split; [exact O|]. split; [exact R|]. split; [exact H1|]. split; [exact H2|]. split; [exact H3|]. split; reflexivity.
Qed.

(** ** headers *)
Lemma headers_append : forall ranges first fence hs w,
  headers_loop ranges first fence source index hs w = andthen (headers_loop ranges first fence source index hs []) (fun '(h, v) => Val (h, w ++ v)%list).
Proof.
  induction ranges as [|r ranges IH]; intros first fence hs w; cbn [headers_loop].
  - cbn. now rewrite app_nil_r.
  - destruct (fetch_line source r) as [[[m line]|]| | |]; cbn [andthen]; try reflexivity; [|apply IH]. destruct (_ && _)%bool; [apply IH|].
    destruct (index_set_to_characters [m] index) as [loc| | |]; cbn [andthen]; try reflexivity. destruct (parse_header_line line hs loc) as [h v].
    rewrite (IH false _ _ (w ++ v)%list), (IH false _ _ ([] ++ v)%list). destruct (headers_loop ranges false _ source index _ []) as [[h' v']| | |]; cbn [andthen]; try reflexivity.
    cbn [app]. now rewrite app_assoc.
Qed.
Lemma lines_of : forall ranges hs hs' cs w, header_lines source index ranges hs hs' cs -> headers_of source index ranges hs w = Val (hs', w ++ map (shown index) cs)%list.
Proof.
  intros ranges hs hs' cs w (ws & H & ->). unfold headers_of, headers_from_content in *. rewrite headers_append, H. cbn [andthen]. do 2 f_equal.
  rewrite map_map. cbn [shown]. now rewrite map_id.
Qed.
Lemma contents_headers : forall sh parent d hs hs' ws x, parent_form parent sh -> Forall fine d -> Forall plain_node d -> ~ begins plain_node x -> header_blocks source index sh d hs hs' ws -> forall w,
  contents no_keyword (fun t hs w => andthen (content_of source index HeadersSection parent t w) (fun '(_, w) => headers_of source index (t_map t) hs w)) (d ++ x)%list hs w =
    Val (hs', (w ++ map (shown index) ws)%list, x).
Proof.
  intros sh parent d hs hs' ws x L F P X H. induction H as [hs|t l hs hs1 hs2 c w1 w2 w3 S1 S2 S3 IH]; intros w.
  - cbn [app map]. rewrite (contents_stop _ no_keyword _ plain_node x _ _ plain_is X), app_nil_r. reflexivity.
  - inversion F as [|? ? F1 F2]; inversion P as [|? ? P1 P2]; subst. cbn [app contents]. rewrite (proj2 (plain_is t) P1). change HeadersSection with (kind_section Headers_) at 1.
    rewrite (content_ok sh parent Headers_ t c w1 w F1 L S1). cbn [andthen]. rewrite <- place_is, (lines_of _ _ _ _ _ S2). cbn [andthen].
    rewrite (IH F2 P2), !map_app. rewrite !app_assoc. reflexivity.
Qed.
Lemma headers_ok : forall sh parent item hs hs' cs w, fine item -> within item -> parent_form parent sh -> headers_item source index sh item hs hs' cs ->
  parse_headers source index parent item hs w = Val (hs', w ++ map (shown index) cs)%list.
Proof.
  intros sh parent item hs hs' cs w Fi W L (t & r & d & x & c & first & ranges & hs1 & w1 & w2 & w3 & w4 & O & (-> & P & X) & H1 & Pl & H2 & H3 & H4 & ->). destruct (opens_fine _ _ _ O W) as [F1 F2]. apply Forall_app in F2 as [F2 F3].
  unfold parse_headers. rewrite (opens_of _ _ _ O). cbn [andthen]. change HeadersSection with (kind_section Headers_) at 1. rewrite (own_ok sh parent Headers_ t c w1 w F1 L H1). cbn [andthen].
  rewrite place_is in Pl. rewrite Pl. rewrite (lines_of _ _ _ _ _ H2). cbn [andthen]. rewrite (contents_headers sh parent d hs1 hs' w3 x L F2 P X H3). cbn [andthen].
  rewrite (all_ignored_of x w4 _ F3 H4). cbn [andthen]. destruct hs' as [|h hs'].
  - rewrite (warn_ok item _ _ _ Fi). cbn [andthen]. rewrite !map_app, !app_assoc. reflexivity.
  - cbn [andthen]. rewrite app_nil_r, !map_app, !app_assoc. reflexivity.
Qed.
Hypothesis NoNul : ~ StringSpec.has NUL source.
Lemma lines_total : forall ranges hs, (forall r, In r ranges -> exists line, shows source r line) -> exists hs' cs, header_lines source index ranges hs hs' cs.
Proof.
  intros ranges hs H. assert (X : exists lines, Forall2 (shows source) ranges lines).
  { clear hs. induction ranges as [|r ranges IH]; [now exists []|]. destruct (H r) as (line & S1); [now left|]. destruct IH as (l & S2); [intros u I; apply H; now right|]. exists (line :: l). now constructor. }
  destruct X as (ls & X). destruct (C53_section source index ranges ls hs [] NoNul Small Indexed X) as (given & ws & E & _). do 2 eexists. exists ws. split; [exact E|reflexivity].
Qed.
Lemma blocks_total : forall sh d hs, (forall t r, In t d -> In r (place t) -> exists line, shows source r line) -> exists hs' cs, header_blocks source index sh d hs hs' cs.
Proof.
  intros sh. induction d as [|t d IH]; intros hs H; [do 2 eexists; constructor|]. destruct (content_total sh Headers_ t) as (c & w1 & S1).
  destruct (lines_total (place t) hs) as (hs1 & w2 & S2); [intros r I; apply (H t r); [now left|exact I]|].
  destruct (IH hs1) as (hs2 & w3 & S3); [intros u r I; apply (H u r); now right|]. do 2 eexists. econstructor; eassumption.
Qed.
Lemma headers_total : forall sh P item hs, item_says P item -> within item -> (match item with Tree _ _ _ _ ds => forall d r, In d ds -> In r (place d) -> exists line, shows source r line end) ->
  exists hs' cs, headers_item source index sh item hs hs' cs.
Proof.
  intros sh P item hs S1 W H. destruct (opens_total P item S1 W) as (t & r & O). destruct (row_total plain_node r plain_dec) as (d & x & R). destruct (opens_fine _ _ _ O W) as [[F1 _] _].
  destruct (own_total sh Headers_ t) as (c & w1 & H1). destruct (place t) as [|first ranges] eqn:Pl; [now elim F1|]. apply opens_in in O as Oi. destruct item as [ty y z m cs]. destruct Oi as (a & ->).
  destruct (lines_total ranges hs) as (hs1 & w2 & H2). { intros u I. apply (H t u); [apply in_elt|rewrite Pl; now right]. }
  destruct (blocks_total sh d hs1) as (hs2 & w3 & H3). { intros u v I. apply (H u v). apply in_or_app. right. right. destruct R as [-> _]. apply in_or_app. now left. }
  destruct (all_ignored_total x) as (w4 & H4). do 2 eexists. exists t, r, d, x, c, first, ranges, hs1, w1, w2, w3, w4. split; [exact O|]. split; [exact R|]. split; [exact H1|]. split; [exact Pl|]. split; [exact H2|].
  split; [exact H3|]. split; [exact H4|reflexivity].
Qed.

(** ** blocks behind a body *)
Lemma dangling_ok : forall at_ last t s cs w, parent_form last at_ -> at_ <> Top_ -> fine t -> ~ writes source t "" -> ~ writes source t (String LF "") -> dangling_block source at_ t s cs ->
  dangling source index last t w = Val (s, w ++ map (shown index) cs)%list.
Proof.
  intros at_ last t s cs w Lv Nt F N0 N1 (c & w1 & W & Pd & S1 & m & D & ->). assert (E : (match t_type t with CodeNode => Val (t_text t) | _ => map_ranges (t_map t) source end) = Val c).
  { destruct W as [[C ->]|[C ->]].
    - apply code_is in C. rewrite C. reflexivity.
    - destruct (t_type t) eqn:Q; try (now apply map_ok). elim C. now apply code_is. }
  unfold dangling. rewrite E. cbn [andthen]. assert (Nc : c <> "" /\ c <> String LF "") by (split; intros ->; contradiction). rewrite (proj1 (padded_iff c s (proj1 Nc) (proj2 Nc)) Pd). cbn [andthen].
  rewrite (stray_of UndefinedSection t w1 w F S1). cbn [andthen]. destruct D as [[C ->]|[C ->]].
  - apply code_is in C. rewrite C. unfold parent_form in Lv. rewrite !Lv. destruct at_; [| |contradiction]; cbn [N.eqb]; [change (3 - 1 =? 0)%N with false|change (2 - 1 =? 0)%N with false]; cbn [andthen]; (rewrite (warn_ok t _ _ _ F); cbn [andthen]; rewrite map_app, app_assoc; reflexivity).
  - assert (Q : (match t_type t with CodeNode => (level_of last - 1)%N | _ => level_of last end) = level_of last) by (destruct (t_type t) eqn:Q; try reflexivity; elim C; now apply code_is).
    rewrite Q. unfold parent_form in Lv. rewrite !Lv. destruct at_; [| |contradiction]; [change (3 =? 0)%N with false|change (2 =? 0)%N with false]; cbv iota; (rewrite (warn_ok t _ _ _ F); cbn [andthen]; rewrite map_app, app_assoc; reflexivity).
Qed.
Lemma dangling_total : forall at_ t, ~ writes source t "" -> ~ writes source t (String LF "") -> exists s cs, dangling_block source at_ t s cs.
Proof.
  intros at_ t N0 N1. destruct (writes_total t) as (c & W). assert (Nc : c <> "" /\ c <> String LF "") by (split; intros ->; contradiction).
  assert (X : exists s, padded c s). { destruct (C41_two_new_lines c (proj1 Nc) (proj2 Nc)) as (k & u & E & _). eexists. apply (padded_iff c _ (proj1 Nc) (proj2 Nc)). exact E. }
  destruct X as (s & X). destruct (stray_total "section" t) as (w1 & S1). exists s. destruct (code_dec t) as [C|C]; eexists; exists c, w1; (split; [exact W|]); (split; [exact X|]); (split; [exact S1|]); eexists; (split; [|reflexivity]).
  - left. split; [exact C|reflexivity].
  - right. split; [exact C|reflexivity].
Qed.
End Nodes.
