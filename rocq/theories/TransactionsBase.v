(** Lemmas for C78: payload items, headers, the state, exchanges *)
From Verif Require Import Base StringUtility StringSpec StringProofs SignatureProofs Regex RegexSpec RegexProofs ByteBuffer ByteSpec ByteProofs Markdown MarkdownSpec MarkdownTree Keywords KeywordsSpec KeywordsProofs KeywordsOrder Prop_Keywords TypeTables Sections SectionsSpec SectionsKeys SectionsLoop.
From Verif Require Import Source Headers HeadersSpec HeadersProofs Prop_Headers Payloads PayloadsSpec PayloadsText PayloadsLine PayloadsNodes PayloadsParts PayloadsLoop PayloadsShort PayloadsWhole Prop_Payloads Transactions TransactionsSpec.
Local Open Scope string_scope.
Local Open Scope list_scope.

(** ** what an item says: its name, and the place of its reference *)
Section Items.
Context (source : string) (index : list N).
Context (nested : section_type -> list tree -> tree -> outcome (list annotation)) (found_none : section_type -> list tree -> bool).
Hypothesis Small : (slen source < 2 ^ 63)%N.
Hypothesis Indexed : List.length index = String.length source.
Notation fine := (PayloadsNodes.fine source).
Definition sound (k : payload_kind) (p : payload) : Prop :=
  tidy_name (q_name p) /\ (k = Response_ -> q_name p <> "") /\ (r_state (q_reference p) = Pending -> exists q, fine q /\ place q = r_place (q_reference p)).
Lemma tells_reference : forall k p gs p' cs, tells source index nested k p gs p' cs -> q_reference p' = q_reference p.
Proof. intros k p gs p' cs H. induction H as [|p t n gs p1 p2 w1 w2 S1 S2 IH]; [reflexivity|]. rewrite IH. destruct S1; reflexivity. Qed.
Lemma referred_place : forall T k t id p p' cs, referred T k t id p p' cs -> r_state (q_reference p') = Pending -> r_place (q_reference p') = place t.
Proof. intros T k t id p p' cs [(_ & -> & _)|(m & _ & hs & -> & _)]; cbn; [reflexivity|discriminate]. Qed.
Lemma says_sound : forall T k sh item p cs, inside_source source item -> says source index T nested found_none k sh item p cs -> sound k p.
Proof.
  intros T k sh item p cs In_ H. destruct (inside_parts source item In_) as (Fi & Wi & Wc). destruct sh; cbn in H.
  - destruct H as (t & r & d & x & first & rest & name0 & name & hs & w1 & w2 & w3 & w4 & w5 & O & (-> & Pd & Nx) & L & Nm & St & Sh & Ig & Ch & ->).
    destruct (status_tidy source T _ _ _ _ _ St (named_tidy _ _ _ _ _ _ Nm)) as [Td Ne]. pose proof (short_name _ _ _ _ _ _ _ _ _ Sh) as Qn. cbn [q_name] in Qn. rewrite <- Qn in Td, Ne.
    split; [exact Td|]. split; [exact Ne|]. intros Pe. destruct (opens_fine source item t _ O Wi) as [Ft Fr]. apply Forall_app in Fr as [Fd Fx].
    destruct Sh as [(id & v & _ & H & _)|(_ & own & v & _ & [(e & q & z & es & id & v2 & v3 & _ & -> & _ & _ & _ & _ & H & _)|(_ & c & v2 & _ & -> & _)])].
    + exists t. split; [exact Ft|]. symmetry. exact (referred_place _ _ _ _ _ _ _ H Pe).
    + exists q. split; [apply Forall_app in Fd as [_ Fd]; now inversion Fd|]. symmetry. exact (referred_place _ _ _ _ _ _ _ H Pe).
    + discriminate Pe.
  - destruct H as (t & r & d & x & gs & first & rest & text & name0 & name & hs & w1 & w2 & w3 & w4 & O & R & G & L & Nm & St & D & Te & Ch & ->).
    destruct (status_tidy source T _ _ _ _ _ St (named_tidy _ _ _ _ _ _ Nm)) as [Td Ne]. pose proof (tells_name _ _ _ _ _ _ _ _ Te) as Qn. cbn [q_name] in Qn. rewrite <- Qn in Td, Ne.
    split; [exact Td|]. split; [exact Ne|]. rewrite (tells_reference _ _ _ _ _ Te). discriminate.
Qed.
Lemma item_reads : forall T ty k sh item, ~ StringSpec.has NUL source -> answers nested -> inside_source source item ->
  shown_lines source item /\ long_enough source item /\ no_blank_reference item -> form ty k sh -> payload_type item = ty ->
  exists p cs, says source index T nested found_none k sh item p cs /\ sound k p /\
    forall w, parse_payload source index T nested found_none ty item w = Val (p, w ++ map (shown index) cs).
Proof.
  intros T ty k sh item Nul Nest In_ (A & B & C) Fo Ty. assert (R : readable source index item) by (repeat (split; [assumption|]); assumption).
  destruct (C77_item source index T nested found_none ty k sh item [] R Nest Fo Ty) as [(p & cs & H) _]. exists p, cs. split; [exact H|]. split; [exact (says_sound _ _ _ _ _ _ In_ H)|].
  intros w. now apply (C77_item source index T nested found_none ty k sh item w R Nest Fo Ty).
Qed.
End Items.

(** ** items of the outline *)
Lemma holds_same : forall t, holds_sections t <-> holds_section t.
Proof. intros [? ? ? ? cs]. unfold holds_sections, holds_section. tauto. Qed.
Lemma request_typed : forall ty t, request_item ty t -> payload_type t = ty /\ exists sh, form ty Request_ sh.
Proof.
  intros ty t [H K]. destruct C75_payloads as (A & _ & _). specialize (A t). destruct K as [[-> K]|[-> K]]; rewrite holds_same in K.
  - split; [now apply A|]. now exists false.
  - split; [now apply A|]. now exists true.
Qed.
Lemma response_typed : forall ty t, SectionsSpec.response_item ty t -> payload_type t = ty /\ exists sh, form ty Response_ sh.
Proof.
  intros ty t [H K]. destruct C75_payloads as (_ & A & _). specialize (A t). destruct K as [[-> K]|[-> K]]; rewrite holds_same in K.
  - split; [now apply A|]. now exists false.
  - split; [now apply A|]. now exists true.
Qed.
Lemma model_typed : forall ty t, model_item ty t -> payload_type t = ty /\ exists sh, form ty Model_ sh.
Proof.
  intros ty t (H & H1 & H2 & K). destruct C75_payloads as (_ & _ & A). specialize (A t). destruct K as [[-> K]|[-> K]]; rewrite holds_same in K.
  - split; [now apply A|]. now exists false.
  - split; [now apply A|]. now exists true.
Qed.
Lemma fits_payload : forall source t ty, node_fits source t -> request_item ty t \/ SectionsSpec.response_item ty t \/ model_item ty t ->
  inside_source source t /\ shown_lines source t /\ long_enough source t /\ no_blank_reference t.
Proof. intros source t ty (A & B & _) H. split; [exact A|]. apply B. destruct H as [[H _]|[[H _]|[H _]]]; auto. Qed.

(** ** the state *)
Definition plus (index : list N) (st : state) (w : list complaint) : state := with_warnings (s_warnings st ++ map (shown index) w) st.
Lemma plus_nil : forall index st, plus index st [] = st.
Proof. intros index [m e w]. unfold plus, with_warnings. cbn. now rewrite app_nil_r. Qed.
Lemma plus_app : forall index st w v, plus index (plus index st w) v = plus index st (w ++ v).
Proof. intros index [m e w] a b. unfold plus, with_warnings. cbn. now rewrite map_app, app_assoc. Qed.
Lemma plus_models : forall index st w, s_models (plus index st w) = s_models st.
Proof. reflexivity. Qed.

(** ** headers *)
Lemma first_iff : forall name hs v, first_value name hs v <-> first_header name hs = v.
Proof.
  intros name hs v. unfold first_value, first_header. induction hs as [|[n u] hs IH]; cbn [find].
  - split; [intros [(a & b & E & _)|[_ ->]]; [now destruct a|reflexivity]|]. intros <-. right. split; [intros u []|reflexivity].
  - cbn [fst]. destruct (String.eqb_spec n name) as [->|N].
    + cbn [snd]. split.
      * intros [(a & b & E & H)|[H ->]]; [|elim (H u); now left]. destruct a as [|h a]; [injection E as E _; exact E|]. injection E as <- _. elim (H u). now left.
      * intros <-. left. exists [], hs. split; [reflexivity|intros x []].
    + rewrite <- IH. split.
      * intros [(a & b & E & H)|[H ->]].
        -- destruct a as [|h a]; [injection E as E _; contradiction|]. injection E as <- ->. left. exists a, b. split; [reflexivity|]. intros x I. apply (H x). now right.
        -- right. split; [|reflexivity]. intros x I. apply (H x). now right.
      * intros [(a & b & -> & H)|[H ->]].
        -- left. exists ((n, u) :: a), b. split; [reflexivity|]. intros x [E|I]; [injection E as E _; contradiction|now apply (H x)].
        -- right. split; [|reflexivity]. intros x [E|I]; [injection E as E _; contradiction|now apply (H x)].
Qed.
Lemma alike_iff : forall p q, match_payload p q = true <-> alike p q.
Proof.
  intros p q. unfold match_payload, alike. destruct (String.eqb_spec (q_name p) (q_name q)) as [E|E]; [|split; [discriminate|tauto]]. rewrite String.eqb_eq. split.
  - intros H. split; [exact E|]. exists (first_header "Content-Type" (q_headers q)). split; now apply first_iff.
  - intros [_ (v & A & B)]. apply first_iff in A, B. congruence.
Qed.
Lemma heads_nil : headers_so_far [] [].
Proof. right. split; [intros y h []|reflexivity]. Qed.
Lemma heads_other : forall l hs x r, headers_so_far l hs -> (forall h, r <> Heads h) -> headers_so_far (l ++ [(x, r)]) hs.
Proof.
  intros l hs x r [(a & y & b & -> & H)|[H ->]] N.
  - left. exists a, y, (b ++ [(x, r)]). split; [now rewrite <- app_assoc|]. intros z h I. apply in_app_iff in I as [I|[E|[]]]; [now apply (H z h)|]. injection E as _ E. now apply (N h).
  - right. split; [|reflexivity]. intros z h I. apply in_app_iff in I as [I|[E|[]]]; [now apply (H z h)|]. injection E as _ E. now apply (N h).
Qed.
Lemma heads_more : forall l x hs, headers_so_far (l ++ [(x, Heads hs)]) hs.
Proof. intros l x hs. left. exists l, x, []. split; [reflexivity|intros y h []]. Qed.

(** ** the item a text is behind *)
Definition tracks (K : section_type -> Prop) (l : listing) (last : section_type) : Prop := right_after K (map fst l) -> behind_item l last /\ K last.
Lemma tracks_nil : forall K last, tracks K [] last.
Proof. intros K last H. now apply right_after_nil in H. Qed.
Lemma behind_more : forall l ty x r, behind_item l ty -> (exists u, x = Ignored u) \/ (exists u, x = Dangling u) -> behind_item (l ++ [(x, r)]) ty.
Proof.
  intros l ty x r (a & t & q & b & -> & H) D. exists a, t, q, (b ++ [(x, r)]). split; [now rewrite <- app_assoc|]. intros y p I. apply in_app_iff in I as [I|[E|[]]]; [now apply (H y p)|]. injection E as <- _. exact D.
Qed.
Lemma tracks_listed : forall K l ty t r, tracks K (l ++ [(Listed ty t, r)]) ty.
Proof.
  intros K l ty t r H. rewrite map_app in H. cbn in H. pose proof (proj1 (right_after_listed K (map fst l) ty t) H) as H'. split; [|exact H']. exists l, t, r, []. split; [reflexivity|intros x q []].
Qed.
Lemma tracks_dangling : forall K l last t r, tracks K l last -> tracks K (l ++ [(Dangling t, r)]) last.
Proof.
  intros K l last t r Tr H. rewrite map_app in H. cbn in H. apply right_after_dangling in H as [_ H]. destruct (Tr H) as [A B]. split; [|exact B]. apply behind_more; [exact A|right; now exists t].
Qed.
Lemma tracks_ignored : forall K l last t r, tracks K l last -> tracks K (l ++ [(Ignored t, r)]) last.
Proof.
  intros K l last t r Tr H. rewrite map_app in H. cbn in H. apply right_after_ignored in H as [_ (a & ty & u & E & Kt)]. assert (R : right_after K (map fst l)) by (rewrite E; now apply right_after_listed).
  destruct (Tr R) as [A B]. split; [|exact B]. apply behind_more; [exact A|left; now exists t].
Qed.
Lemma tracks_sub : forall K l last s r, tracks K (l ++ [(Sub s, r)]) last.
Proof. intros K l last s r H. rewrite map_app in H. cbn in H. now apply right_after_sub in H. Qed.

(** ** exchanges *)
Definition pairs : Type := list (list loaded * list loaded).
Definition all_of (ex : pairs) : list loaded := flat_map (fun e => fst e ++ snd e) ex.
Definition asks (y : loaded) : Prop := In (l_type y) [RequestSection; RequestBodySection].
Definition replies (y : loaded) : Prop := In (l_type y) [ResponseSection; ResponseBodySection].
Definition typed_pair (e : list loaded * list loaded) : Prop := Forall asks (fst e) /\ Forall replies (snd e).
Definition formed (ex : pairs) : Prop := forall a e b, ex = a ++ e :: b -> (b <> [] -> snd e <> []) /\ (a <> [] -> fst e <> []) /\ e <> ([], []).
Lemma exchanges_iff : forall l ex, exchanges l ex <-> filter of_payload l = flat_map pieces (all_of ex) /\ Forall typed_pair ex /\ formed ex.
Proof. intros l ex. unfold exchanges, formed, typed_pair, asks, replies, all_of. rewrite Forall_forall. tauto. Qed.
Lemma all_app : forall a b, all_of (a ++ b) = all_of a ++ all_of b.
Proof. intros. apply flat_map_app. Qed.
Lemma formed_nil : formed [].
Proof. intros a e b H. now destruct a. Qed.
Lemma formed_snoc : forall ex e, formed (ex ++ [e]) <-> formed ex /\ (forall a x, ex = a ++ [x] -> snd x <> []) /\ (ex <> [] -> fst e <> []) /\ e <> ([], []).
Proof.
  intros ex e. split.
  - intros S. split; [|split; [|split]].
    + intros a x b ->. destruct (S a x (b ++ [e])) as (A & B & C); [now rewrite <- app_assoc|]. split; [|now split]. intros _. apply A. now destruct b.
    + intros a x ->. destruct (S a x [e]) as (A & _); [now rewrite <- app_assoc|]. now apply A.
    + intros N. now apply (S ex e []).
    + now apply (S ex e []).
  - intros (S & A & B & C) a x b E. destruct (snoc_cases _ b) as [->|(b' & y & ->)].
    + apply app_inj_tail in E as [-> ->]. split; [contradiction|]. now split.
    + change (x :: b' ++ [y]) with ((x :: b') ++ [y]) in E. rewrite app_assoc in E. apply app_inj_tail in E as [-> ->]. destruct (S a x b' eq_refl) as (D & F & G). split; [|now split].
      intros _. destruct b' as [|z b']; [now apply (A a x)|now apply D].
Qed.
Lemma exchanges_nil : exchanges [] [].
Proof. apply exchanges_iff. split; [reflexivity|]. split; [constructor|exact formed_nil]. Qed.
Lemma exchanges_other : forall l ex x r, of_payload (x, r) = false -> exchanges l ex -> exchanges (l ++ [(x, r)]) ex.
Proof. intros l ex x r N H. apply exchanges_iff in H as (E & H). apply exchanges_iff. split; [|exact H]. rewrite filter_app. cbn [filter]. rewrite N, app_nil_r. exact E. Qed.
Lemma pieces_new : forall ty t p, pieces (Loaded ty t p []) = [(Listed ty t, Loads p)].
Proof. reflexivity. Qed.
Lemma exchanges_new : forall l a q r ty t p, exchanges l a -> (a = [] \/ exists b x, a = b ++ [x] /\ snd x <> [] /\ q <> []) ->
  (asks (Loaded ty t p []) /\ q = [Loaded ty t p []] /\ r = []) \/ (replies (Loaded ty t p []) /\ q = [] /\ r = [Loaded ty t p []]) -> exchanges (l ++ [(Listed ty t, Loads p)]) (a ++ [(q, r)]).
Proof.
  intros l a q r ty t p H N Y. apply exchanges_iff in H as (E & F & S). apply exchanges_iff. split; [|split].
  - rewrite filter_app, E, all_app, flat_map_app. cbn [filter of_payload snd]. f_equal. destruct Y as [(_ & -> & ->)|(_ & -> & ->)]; reflexivity.
  - apply Forall_app. split; [exact F|]. constructor; [|constructor]. destruct Y as [(Y & -> & ->)|(Y & -> & ->)]; split; cbn; try constructor; try exact Y; constructor.
  - apply formed_snoc. split; [exact S|]. split; [|split].
    + intros b x ->. destruct N as [N|(b' & x' & N & K & _)]; [now destruct b|]. apply app_inj_tail in N as [_ ->]. exact K.
    + intros Na. destruct N as [->|(b' & x' & -> & _ & K)]; [contradiction|exact K].
    + destruct Y as [(_ & -> & _)|(_ & _ & ->)]; discriminate.
Qed.
Lemma exchanges_request : forall l a q ty t p, exchanges l (a ++ [(q, [])]) -> asks (Loaded ty t p []) -> exchanges (l ++ [(Listed ty t, Loads p)]) (a ++ [(q ++ [Loaded ty t p []], [])]).
Proof.
  intros l a q ty t p H Y. apply exchanges_iff in H as (E & F & S). apply exchanges_iff. split; [|split].
  - rewrite filter_app, E, !all_app, !flat_map_app. cbn [filter of_payload snd]. rewrite <- app_assoc. f_equal. cbn. rewrite !app_nil_r, flat_map_app. reflexivity.
  - apply Forall_app in F as [F G]. apply Forall_app. split; [exact F|]. apply Forall_inv in G as [G _]. constructor; [|constructor]. split; [|constructor]. apply Forall_app. split; [exact G|]. constructor; [exact Y|constructor].
  - apply formed_snoc in S as (S1 & S2 & S3 & S4). apply formed_snoc. split; [exact S1|]. split; [exact S2|]. split; [intros _ X; now destruct q|]. intros X. injection X as X. now destruct q.
Qed.
Lemma exchanges_response : forall l a q r ty t p, exchanges l (a ++ [(q, r)]) -> replies (Loaded ty t p []) -> exchanges (l ++ [(Listed ty t, Loads p)]) (a ++ [(q, r ++ [Loaded ty t p []])]).
Proof.
  intros l a q r ty t p H Y. apply exchanges_iff in H as (E & F & S). apply exchanges_iff. split; [|split].
  - rewrite filter_app, E, !all_app, !flat_map_app. cbn [filter of_payload snd]. rewrite <- app_assoc. f_equal. cbn. rewrite !app_nil_r, !flat_map_app, <- app_assoc. reflexivity.
  - apply Forall_app in F as [F G]. apply Forall_app. split; [exact F|]. apply Forall_inv in G as [G1 G]. constructor; [|constructor]. split; [exact G1|]. apply Forall_app. split; [exact G|]. constructor; [exact Y|constructor].
  - apply formed_snoc in S as (S1 & S2 & S3 & S4). apply formed_snoc. split; [exact S1|]. split; [exact S2|]. split; [exact S3|]. intros X. injection X as _ X. now destruct r.
Qed.
Definition more_text (t : tree) (s : string) (y : loaded) : loaded := Loaded (l_type y) (l_node y) (l_payload y) (l_texts y ++ [(t, s)]).
Lemma pieces_more : forall t s y, pieces (more_text t s y) = pieces y ++ [(Dangling t, Adds s)].
Proof. intros t s y. unfold pieces. cbn. now rewrite map_app. Qed.
Lemma text_request : forall l a q y t s, exchanges l (a ++ [(q ++ [y], [])]) -> exchanges (l ++ [(Dangling t, Adds s)]) (a ++ [(q ++ [more_text t s y], [])]).
Proof.
  intros l a q y t s H. apply exchanges_iff in H as (E & F & S). apply exchanges_iff. split; [|split].
  - rewrite filter_app, E, !all_app, !flat_map_app. cbn [filter of_payload snd]. rewrite <- app_assoc. f_equal. cbn. rewrite !app_nil_r, !flat_map_app, <- app_assoc. f_equal. cbn [flat_map]. rewrite pieces_more, !app_nil_r. reflexivity.
  - apply Forall_app in F as [F G]. apply Forall_app. split; [exact F|]. apply Forall_inv in G as [G _]. constructor; [|constructor]. split; [|constructor]. cbn [fst] in *. apply Forall_app in G as [G1 G2]. apply Forall_app. split; [exact G1|].
    constructor; [exact (Forall_inv G2)|constructor].
  - apply formed_snoc in S as (S1 & S2 & S3 & S4). apply formed_snoc. split; [exact S1|]. split; [exact S2|]. split; [intros _ X; now destruct q|]. intros X. injection X as X. now destruct q.
Qed.
Lemma text_response : forall l a q r y t s, exchanges l (a ++ [(q, r ++ [y])]) -> exchanges (l ++ [(Dangling t, Adds s)]) (a ++ [(q, r ++ [more_text t s y])]).
Proof.
  intros l a q r y t s H. apply exchanges_iff in H as (E & F & S). apply exchanges_iff. split; [|split].
  - rewrite filter_app, E, !all_app, !flat_map_app. cbn [filter of_payload snd]. rewrite <- app_assoc. f_equal. cbn. rewrite !app_nil_r, !flat_map_app, <- !app_assoc. do 2 f_equal. cbn [flat_map]. rewrite pieces_more, !app_nil_r. reflexivity.
  - apply Forall_app in F as [F G]. apply Forall_app. split; [exact F|]. apply Forall_inv in G as [G0 G]. constructor; [|constructor]. split; [exact G0|]. cbn [snd] in *. apply Forall_app in G as [G1 G2]. apply Forall_app. split; [exact G1|].
    constructor; [exact (Forall_inv G2)|constructor].
  - apply formed_snoc in S as (S1 & S2 & S3 & S4). apply formed_snoc. split; [exact S1|]. split; [exact S2|]. split; [exact S3|]. intros X. injection X as _ X. now destruct r.
Qed.
Lemma complete_more : forall t s y, complete (more_text t s y) = add_text s (complete y).
Proof.
  intros t s y. unfold complete, add_text, more_text, set_body. cbn. rewrite map_app, sconcat_app. cbn. now rewrite append_nil_r, append_assoc.
Qed.

(** ** repetitions *)
Definition load_of (x : part * reading) : list (section_type * payload) := match x with (Listed ty _, Loads p) => [(ty, p)] | _ => [] end.
Lemma loads_filter : forall l, flat_map load_of (filter of_payload l) = flat_map load_of l.
Proof. induction l as [|[x r] l IH]; [reflexivity|]. cbn [filter]. destruct (of_payload (x, r)) eqn:E; cbn [flat_map]; rewrite IH; [reflexivity|]. destruct r; try discriminate E; destruct x; reflexivity. Qed.
Lemma loads_pieces : forall ys, flat_map load_of (flat_map pieces ys) = map (fun y => (l_type y, l_payload y)) ys.
Proof.
  induction ys as [|y ys IH]; [reflexivity|]. cbn [flat_map map]. rewrite flat_map_app, IH. unfold pieces at 1. cbn [flat_map load_of app]. f_equal.
  assert (X : flat_map load_of (map (fun x : tree * string => (Dangling (fst x), Adds (snd x))) (l_texts y)) = []); [|now rewrite X]. clear. induction (l_texts y) as [|x l IH]; [reflexivity|exact IH].
Qed.
Lemma loads_split : forall l a x b, flat_map load_of l = a ++ x :: b -> exists l1 t l2, l = l1 ++ (Listed (fst x) t, Loads (snd x)) :: l2 /\ flat_map load_of l2 = b.
Proof.
  induction l as [|[y r] l IH]; intros a x b E; [now destruct a|]. cbn [flat_map] in E. assert (D : load_of (y, r) = [] \/ exists ty t p, y = Listed ty t /\ r = Loads p).
  { destruct y; try (now left). destruct r; try (now left). right. now do 3 eexists. }
  destruct D as [D|(ty & t & p & -> & ->)].
  - rewrite D in E. destruct (IH _ _ _ E) as (l1 & t & l2 & -> & H). exists ((y, r) :: l1), t, l2. now split.
  - cbn in E. destruct a as [|z a].
    + injection E as <- E. exists [], t, l. now split.
    + injection E as _ E. destruct (IH _ _ _ E) as (l1 & t' & l2 & -> & H). exists ((Listed ty t, Loads p) :: l1), t', l2. now split.
Qed.
Lemma loads_in : forall l ty p, In (ty, p) (flat_map load_of l) <-> exists t, In (Listed ty t, Loads p) l.
Proof.
  intros l ty p. rewrite in_flat_map. split.
  - intros ([x r] & I & H). destruct x; try contradiction. destruct r; try contradiction. destruct H as [H|[]]. injection H as -> ->. now exists t.
  - intros (t & I). exists (Listed ty t, Loads p). split; [exact I|now left].
Qed.
Lemma repeated_iff : forall l ex k p, exchanges l ex -> (repeated l k p <-> exists a y b sh, all_of ex = a ++ y :: b /\ form (l_type y) k sh /\ alike (l_payload y) p /\ Forall (fun z => exists sh', form (l_type z) k sh') b).
Proof.
  intros l ex k p H. apply exchanges_iff in H as (E & _ & _). assert (L : flat_map load_of l = map (fun y => (l_type y, l_payload y)) (all_of ex)) by now rewrite <- loads_filter, E, loads_pieces.
  split.
  - intros (a & ty & t & q & b & sh & -> & Fo & Al & N). rewrite flat_map_app in L. cbn [flat_map load_of app] in L. symmetry in L. apply map_eq_app in L as (a' & b0 & -> & _ & L). apply map_eq_cons in L as (y & b' & -> & L1 & L2).
    injection L1 as <- <-. exists a', y, b', sh. split; [reflexivity|]. split; [exact Fo|]. split; [exact Al|]. apply Forall_forall. intros z I. assert (J : In (l_type z, l_payload z) (flat_map load_of b)) by (rewrite <- L2; exact (in_map (fun y => (l_type y, l_payload y)) b' z I)).
    apply loads_in in J as (u & J). exact (N _ _ _ J).
  - intros (a & y & b & sh & Ey & Fo & Al & N). rewrite Ey, map_app in L. cbn [map] in L. destruct (loads_split _ _ _ _ L) as (l1 & t & l2 & -> & L2). exists l1, (l_type y), t, (l_payload y), l2, sh.
    split; [reflexivity|]. split; [exact Fo|]. split; [exact Al|]. intros ty' t' q' I. assert (J : In (ty', q') (flat_map load_of l2)) by (apply loads_in; now exists t'). rewrite L2 in J. apply in_map_iff in J as (z & Ez & J). injection Ez as <- _.
    rewrite Forall_forall in N. now apply N.
Qed.
Lemma asks_form : forall y, asks y <-> exists sh, form (l_type y) Request_ sh.
Proof. intros y. unfold asks. cbn. split; [intros [E|[E|[]]]; rewrite <- E; [now exists false|now exists true]|intros ([] & E); cbn in E; rewrite E; auto]. Qed.
Lemma replies_form : forall y, replies y <-> exists sh, form (l_type y) Response_ sh.
Proof. intros y. unfold replies. cbn. split; [intros [E|[E|[]]]; rewrite <- E; [now exists false|now exists true]|intros ([] & E); cbn in E; rewrite E; auto]. Qed.
Lemma asks_replies : forall y, asks y -> replies y -> False.
Proof. intros y [A|[A|[]]] [B|[B|[]]]; congruence. Qed.
(** of a list ending in others, the elements of a kind with only such behind *)
Lemma suffix_in : forall (P : loaded -> Prop) (l r : list loaded) a y b, l ++ r = a ++ y :: b -> Forall P b -> P y -> (forall x, P x -> ~ P x -> False) -> (l = [] \/ exists m x, l = m ++ [x] /\ ~ P x) -> In y r.
Proof.
  intros P l r a y b E B Y _ D. destruct D as [->|(m & x & -> & N)].
  - cbn in E. rewrite E. apply in_app_iff. right. now left.
  - rewrite <- app_assoc in E. cbn in E. revert a E. induction m as [|z m IH]; intros a E.
    + cbn in E. destruct a as [|w a]; [injection E as -> E; contradiction|]. injection E as _ ->. apply in_app_iff. right. now left.
    + destruct a as [|w a]; [|injection E as _ E; exact (IH _ E)]. injection E as -> <-. apply Forall_app in B as [_ B]. now inversion B.
Qed.
Lemma repeated_request : forall l a q r p, exchanges l (a ++ [(q, r)]) -> (repeated l Request_ p <-> r = [] /\ exists y, In y q /\ alike (l_payload y) p).
Proof.
  intros l a q r p H. rewrite (repeated_iff _ _ _ _ H). apply exchanges_iff in H as (_ & F & S). apply Forall_app in F as [Fa F]. apply Forall_inv in F as [Fq Fr]. cbn [fst snd] in *. apply formed_snoc in S as (S1 & S2 & _ & _).
  rewrite all_app. cbn [all_of flat_map fst snd]. rewrite app_nil_r. split.
  - intros (c & y & b & sh & E & Fo & Al & N). assert (Ay : asks y) by (apply asks_form; eauto). assert (Nb : Forall asks b) by (refine (Forall_impl _ _ N); intros z; apply asks_form).
    destruct (snoc_cases _ r) as [->|(r' & z & ->)].
    + split; [reflexivity|]. exists y. split; [|exact Al]. rewrite app_nil_r in E. refine (suffix_in asks _ _ _ _ _ E Nb Ay (fun x u v => v u) _). destruct (snoc_cases _ a) as [->|(a' & e & ->)]; [now left|]. right.
      rewrite all_app. cbn [all_of flat_map]. rewrite app_nil_r. apply Forall_app in Fa as [_ Fa]. apply Forall_inv in Fa as [_ Fe]. pose proof (S2 _ _ eq_refl) as Ne. destruct (snoc_cases _ (snd e)) as [Z|(m & z & Z)]; [contradiction|].
      rewrite Z in *. exists (all_of a' ++ fst e ++ m), z. split; [now rewrite <- !app_assoc|]. apply Forall_app in Fe as [_ Fe]. apply Forall_inv in Fe. intros X. exact (asks_replies _ X Fe).
    + exfalso. apply Forall_app in Fr as [_ Fr]. apply Forall_inv in Fr. assert (I : In y []); [|contradiction]. rewrite <- (app_nil_r (all_of a ++ q ++ r' ++ [z])) in E. refine (suffix_in asks _ _ _ _ _ E Nb Ay (fun x u v => v u) _).
      right. exists (all_of a ++ q ++ r'), z. split; [now rewrite <- !app_assoc|]. intros X. exact (asks_replies _ X Fr).
  - intros (-> & y & I & Al). rewrite app_nil_r. apply in_split in I as (q1 & q2 & ->). rewrite Forall_forall in Fq. destruct (proj1 (asks_form y) (Fq y ltac:(apply in_app_iff; right; now left))) as (sh & Fo).
    exists (all_of a ++ q1), y, q2, sh. split; [now rewrite <- app_assoc|]. split; [exact Fo|]. split; [exact Al|]. apply Forall_forall. intros z I. apply asks_form. apply Fq. apply in_app_iff. right. now right.
Qed.
Lemma repeated_response : forall l a q r p, exchanges l (a ++ [(q, r)]) -> (repeated l Response_ p <-> exists y, In y r /\ alike (l_payload y) p).
Proof.
  intros l a q r p H. rewrite (repeated_iff _ _ _ _ H). apply exchanges_iff in H as (_ & F & S). apply Forall_app in F as [Fa F]. apply Forall_inv in F as [Fq Fr]. cbn [fst snd] in *. apply formed_snoc in S as (S1 & S2 & S3 & _). cbn [fst] in S3.
  rewrite all_app. cbn [all_of flat_map fst snd]. rewrite app_nil_r. split.
  - intros (c & y & b & sh & E & Fo & Al & N). assert (Ay : replies y) by (apply replies_form; eauto). assert (Nb : Forall replies b) by (refine (Forall_impl _ _ N); intros z; apply replies_form).
    exists y. split; [|exact Al]. rewrite app_assoc in E. refine (suffix_in replies _ _ _ _ _ E Nb Ay (fun x u v => v u) _). destruct (snoc_cases _ q) as [->|(q' & z & ->)].
    + left. destruct a as [|e a]; [reflexivity|]. now elim S3.
    + right. exists (all_of a ++ q'), z. split; [now rewrite <- app_assoc|]. apply Forall_app in Fq as [_ Fq]. apply Forall_inv in Fq. intros X. exact (asks_replies _ Fq X).
  - intros (y & I & Al). apply in_split in I as (r1 & r2 & ->). rewrite Forall_forall in Fr. destruct (proj1 (replies_form y) (Fr y ltac:(apply in_app_iff; right; now left))) as (sh & Fo).
    exists (all_of a ++ q ++ r1), y, r2, sh. split; [now rewrite <- !app_assoc|]. split; [exact Fo|]. split; [exact Al|]. apply Forall_forall. intros z I. apply replies_form. apply Fr. apply in_app_iff. right. now right.
Qed.
Lemma repeated_nil : forall l k p, exchanges l [] -> ~ repeated l k p.
Proof. intros l k p H R. apply (repeated_iff _ _ _ _ H) in R as (a & y & b & sh & E & _). now destruct a. Qed.
