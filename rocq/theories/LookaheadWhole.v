From Verif Require Import Base StringUtility StringSpec StringProofs Regex RegexSpec ByteBuffer Markdown MarkdownSpec Keywords KeywordsSpec KeywordsProofs SectionsKeys
  SignatureSpec SignatureProofs SignatureWhole TypeTables TypeTablesProofs SourceMap Mson Signature TypeDefs TypeDefsSpec TypeDefsProofs MembersTree MembersSpec MembersLeaves Lookahead LookaheadSpec LookaheadText LookaheadFill LookaheadKinds.
From Verif Require SectionsSpec PayloadsSpec.
Import SectionsSpec(a_header, structures_h, type_section_h, type_h).
Import PayloadsSpec(the_text).
Local Open Scope string_scope.

(** ** one node *)
Definition next (t : tree) (c : place_in) : place_in := if is_header t then behind t c else c.
Definition said (t : tree) : list (places * remark) := match kind_ahead t with UndefinedSection => map (pair (spot t)) (typos t) | _ => [] end.
Definition noted (t : tree) (a : ahead) : ahead := Ahead (a_tables a) (a_error a) (a_notes a ++ said t)%list.
Lemma note_same : forall (t : tree) (a : ahead),
  match kind_ahead t with UndefinedSection => Ahead (a_tables a) (a_error a) (a_notes a ++ map (pair (spot t)) (typos t))%list | _ => a end = noted t a.
Proof. intros t a. unfold noted, said. destruct (kind_ahead t); try reflexivity; rewrite app_nil_r; now destruct a. Qed.
Lemma resource_name_unique : forall h n n', n <> "" -> n' <> "" -> resource_named h n -> resource_named h n' -> n = n'.
Proof. intros h n n' N N' R R'. apply attributes_name_iff in R; [|exact N]. apply attributes_name_iff in R'; [|exact N']. congruence. Qed.
Lemma type_header : forall t, type_h t -> is_header t = true.
Proof. intros t H. apply header_is. now destruct H. Qed.
Lemma header_no_attributes : forall b t name, is_header t = true -> ~ attributes_of b t name.
Proof. intros b [[] x z m cs] name Hd [H _]; try discriminate Hd; exact H. Qed.
Lemma look_cases : forall b c t, stands b c -> one_line t -> stands (b ++ [t]) (next t c) /\
  ((~ names_a_type b t /\ (forall name, ~ attributes_of b t name) /\ forall a, look_at t c a = Val (next t c, noted t a)) \/
   (names_a_type b t /\ (forall name, ~ attributes_of b t name) /\
     forall a, look_at t c a = andthen (filled (fill_named t (the_text t) "" (a_tables a)) a) (fun a => Val (next t c, noted t a))) \/
   (exists name, ~ names_a_type b t /\ attributes_of b t name /\ (forall name', attributes_of b t name' -> name' = name) /\
     forall a, look_at t c a = andthen (filled (fill_named t (first_text t) name (a_tables a)) a) (fun a => Val (next t c, noted t a)))).
Proof.
  intros b c t S1 O. destruct (is_header t) eqn:Hd.
  - destruct (stands_header b c t S1 O Hd) as [S2 Nt]. unfold next. rewrite Hd. split; [exact S2|]. pose proof (fun name => header_no_attributes b t name Hd) as Na. pose proof (type_ahead t Hd) as Kt.
    destruct (entered t c) eqn:E.
    + left. split; [rewrite <- Nt; intuition discriminate|]. split; [exact Na|]. intros a. unfold look_at. rewrite Hd, E. cbn [andthen]. now rewrite note_same.
    + left. split; [rewrite <- Nt; intuition discriminate|]. split; [exact Na|]. intros a. unfold look_at. rewrite Hd, E. cbn [andthen]. now rewrite note_same.
    + assert (D : kind_ahead t = UndefinedSection \/ kind_ahead t <> UndefinedSection) by (destruct (kind_ahead t); (now left) || (right; discriminate)). destruct D as [K|K].
      * right. left. split; [apply Nt; split; [reflexivity|now apply Kt]|]. split; [exact Na|]. intros a. unfold look_at. rewrite Hd, E, K. cbv zeta. unfold behind. rewrite E, K. cbn [stays].
        assert (Et : t_text t = the_text t) by now destruct t. rewrite Et. destruct (fill_named t (the_text t) "" (a_tables a)) as [[tb e]| | |]; try reflexivity. cbn [filled andthen]. unfold noted, said. now rewrite K.
      * left. split; [rewrite <- Nt, <- Kt; tauto|]. split; [exact Na|]. intros a. unfold look_at. rewrite Hd, E. cbv zeta.
        replace (match kind_ahead t with UndefinedSection => andthen (filled (fill_named t (t_text t) "" (a_tables a)) a) (fun a => Val (InStructures, a)) | _ => Val (behind t c, a) end)
          with (@Val (place_in * ahead) (behind t c, a)) by (destruct (kind_ahead t); congruence). cbn [andthen]. now rewrite note_same.
  - assert (Nt : ~ names_a_type b t) by (intros [H _]; apply type_header in H; congruence). unfold next. rewrite Hd. split; [exact (stands_other b c t S1 Hd)|].
    assert (Plain : (forall name, ~ attributes_of b t name) -> (forall a, look_at t c a = Val (c, noted t a)) -> (~ names_a_type b t /\ (forall name, ~ attributes_of b t name) /\ forall a, look_at t c a = Val (c, noted t a)) \/
      (names_a_type b t /\ (forall name, ~ attributes_of b t name) /\ forall a, look_at t c a = andthen (filled (fill_named t (the_text t) "" (a_tables a)) a) (fun a => Val (c, noted t a))) \/
      (exists name, ~ names_a_type b t /\ attributes_of b t name /\ (forall name', attributes_of b t name' -> name' = name) /\
        forall a, look_at t c a = andthen (filled (fill_named t (first_text t) name (a_tables a)) a) (fun a => Val (c, noted t a)))) by (intros H H'; now left).
    destruct (is_item t) eqn:Hi.
    + pose proof (kind_attributes t Hd O) as Ka. assert (D : kind_ahead t = AttributesSection \/ kind_ahead t <> AttributesSection) by (destruct (kind_ahead t); (now left) || (right; discriminate)).
      destruct D as [K|K].
      * destruct c as [|h|]; cbn [stands] in S1; destruct S1 as [A B].
        -- apply Plain; [intros name (_ & h & H & _); exact (B h H)|]. intros a. unfold look_at. rewrite Hd, Hi. cbn [andthen]. now rewrite note_same.
        -- destruct (String.eqb_spec (attributes_name h) "") as [N|N].
           ++ apply Plain.
              ** intros name (_ & h' & H & R & N'). apply B in H as ->. apply attributes_name_iff in R; [congruence|exact N'].
              ** intros a. unfold look_at. rewrite Hd, Hi, K. cbv zeta. apply String.eqb_eq in N. rewrite N. cbn [andthen]. unfold noted, said. rewrite K, app_nil_r. now destruct a.
           ++ right. right. exists (attributes_name h). split; [exact Nt|]. split; [|split].
              ** split; [now apply Ka|]. exists h. split; [now apply B|]. split; [now apply attributes_name_iff|exact N].
              ** intros name (_ & h' & H & R & N'). apply B in H as ->. apply attributes_name_iff in R; [congruence|exact N'].
              ** intros a. apply Ka in K as I. unfold look_at. rewrite Hd, Hi, K. cbv zeta. apply String.eqb_neq in N. rewrite N. destruct t as [ty x z m [|y cs]]; [destruct ty; contradiction|]. cbn [t_children first_text].
                 assert (Et : t_text y = the_text y) by now destruct y. rewrite Et. destruct (fill_named _ (the_text y) (attributes_name h) (a_tables a)) as [[tb e]| | |]; try reflexivity. cbn [filled andthen]. unfold noted, said. now rewrite K, app_nil_r.
        -- apply Plain; [intros name (_ & h & H & _); exact (B h H)|]. intros a. unfold look_at. rewrite Hd, Hi. cbn [andthen]. now rewrite note_same.
      * apply Plain; [intros name (I & _); apply K; now apply Ka|]. intros a. unfold look_at. rewrite Hd, Hi. cbv zeta.
        replace (match c with InResource h => match kind_ahead t with AttributesSection => if String.eqb (attributes_name h) "" then Val (c, a) else match t_children t with
                    | x :: _ => andthen (filled (fill_named t (t_text x) (attributes_name h) (a_tables a)) a) (fun a => Val (c, a)) | [] => ByteBuffer.Wild end | _ => Val (c, a) end | _ => Val (c, a) end)
          with (@Val (place_in * ahead) (c, a)) by (destruct c; [reflexivity| |reflexivity]; destruct (kind_ahead t); congruence). cbn [andthen]. now rewrite note_same.
    + apply Plain; [intros name (I & _); destruct t as [[] x z m cs]; try discriminate Hi; exact I|]. intros a. unfold look_at. rewrite Hd, Hi. cbn [andthen]. now rewrite note_same.
Qed.

(** ** what is said about a node *)
Definition warned (w : places * string) : places * remark := let (m, x) := w in (m, Warns 12 x).
Lemma said_relative : forall t, relative_h t -> said t = [(lies t, Warns 12 ("URI path in '" +++ the_text t +++ "' is not absolute, it should have a leading forward slash"))].
Proof.
  intros t [Ty X]. assert (Hd := type_header t Ty). apply (type_ahead t Hd) in Ty. apply typo_iff in X. unfold said. rewrite Ty. unfold typos. assert (Et : t_text t = the_text t) by now destruct t. rewrite Hd, Et, X.
  cbn [map]. destruct t. reflexivity.
Qed.
Lemma said_other : forall t, ~ relative_h t -> said t = [].
Proof.
  intros t N. unfold said. destruct (kind_ahead t) eqn:K; try reflexivity. unfold typos. destruct (is_header t) eqn:Hd; [|reflexivity]. assert (Et : t_text t = the_text t) by now destruct t. rewrite Et.
  destruct (regex_match (the_text t) NamedActionNonAbsoluteURIRegex) eqn:R; [|reflexivity]. exfalso. apply N. split; [now apply (type_ahead t Hd)|now apply typo_iff].
Qed.
Lemma relative_dec : forall t, relative_h t \/ ~ relative_h t.
Proof.
  intros t. destruct (is_header t) eqn:Hd; [|right; intros [Ty _]; apply type_header in Ty; congruence].
  assert (D : kind_ahead t = UndefinedSection \/ kind_ahead t <> UndefinedSection) by (destruct (kind_ahead t); (now left) || (right; discriminate)).
  destruct D as [K|K]; [|right; intros [Ty _]; apply K; now apply (type_ahead t Hd)]. destruct (regex_match (the_text t) NamedActionNonAbsoluteURIRegex) eqn:R.
  - left. split; [now apply (type_ahead t Hd)|now apply typo_iff].
  - right. intros [_ X]. apply typo_iff in X. congruence.
Qed.
Lemma mistakes_cons : forall t l ws, mistakes (t :: l) ws <-> exists w ws', ws = (w ++ ws')%list /\ map warned w = said t /\ (relative_h t /\ w = [(lies t, "URI path in '" +++ the_text t +++ "' is not absolute, it should have a leading forward slash")] \/ ~ relative_h t /\ w = []) /\ mistakes l ws'.
Proof.
  intros t l ws. split.
  - intros H. inversion H as [|t0 r l0 R M|t0 r l0 R M]; subst.
    + exists [(lies t, "URI path in '" +++ the_text t +++ "' is not absolute, it should have a leading forward slash")], l0. split; [reflexivity|]. split; [now rewrite (said_relative t R)|]. split; [now left|exact M].
    + exists [], ws. split; [reflexivity|]. split; [now rewrite (said_other t R)|]. split; [now right|exact M].
  - intros (w & ws' & -> & _ & [[R ->]|[R ->]] & M); cbn; now constructor.
Qed.
Lemma mistakes_total : forall l, exists ws, mistakes l ws.
Proof. induction l as [|t l [ws IH]]; [eexists; constructor|]. destruct (relative_dec t); eexists; [apply mistakes_one; eassumption|apply mistakes_not; eassumption]. Qed.
Lemma mistakes_unique : forall l ws, mistakes l ws -> forall ws', mistakes l ws' -> ws = ws'.
Proof. induction 1; intros ws' H'; inversion H'; subst; try contradiction; try reflexivity; f_equal; auto. Qed.

(** ** declarations *)
Lemma says_once : forall t s p sp p' sp', subject_says t s p sp -> subject_says t s p' sp' -> p_id p = p_id p' /\ sp = sp'.
Proof.
  intros t s p sp p' sp' (m & e & S1 & T) (m' & e' & S2 & T'). pose proof (signed_ok names_traits _ _ _ S1 _ (enough_two _ _)) as E1. pose proof (signed_ok names_traits _ _ _ S2 _ (enough_two _ _)) as E2.
  rewrite E1 in E2. unfold sig_of in E2. injection E2 as Ei Ev Evs Ea Ec Er Em. split; [exact Ei|]. rewrite Ea in T. exact (type_unique _ _ _ _ _ T T').
Qed.
Lemma declares_once : forall b c t d d', stands b c -> one_line t -> declares b t d -> declares b t d' -> d = d'.
Proof.
  intros b c t d d' S1 O D D'. destruct (look_cases b c t S1 O) as [_ [(N & A & _)|[(N & A & _)|(name & N & A & U & _)]]].
  - inversion D; subst; [contradiction|]. exfalso. eapply A. eassumption.
  - inversion D as [p id sp N1 S2 B|name p sp A1 _]; subst; [|exfalso; exact (A _ A1)]. inversion D' as [p' id' sp' N1' S2' B'|name p' sp' A1 _]; subst; [|exfalso; exact (A _ A1)].
    destruct (says_once _ _ _ _ _ _ S2 S2') as [E ->]. rewrite E in B. now rewrite (bare_unique _ _ _ B B').
  - inversion D as [p id sp N1 S2 B|name1 p sp A1 S2]; subst; [contradiction|]. inversion D' as [p' id' sp' N1' S2' B'|name2 p' sp' A1' S2']; subst; [contradiction|].
    rewrite (U _ A1), (U _ A1'). destruct (says_once _ _ _ _ _ _ S2 S2') as [_ ->]. reflexivity.
Qed.
Definition declares_not (b : list tree) (t : tree) : Prop := ~ names_a_type b t /\ forall name, ~ attributes_of b t name.
Lemma not_declares : forall b t d, declares_not b t -> ~ declares b t d.
Proof. intros b t d [N A] D. inversion D; subst; [contradiction|]. eapply A. eassumption. Qed.
(** one node: declares something, nothing, or the behaviour is undefined *)
Lemma look_steps : forall b c t, stands b c -> one_line t ->
  (declares_not b t /\ forall a, look_at t c a = Val (next t c, noted t a)) \/
  (exists d, declares b t d /\ forall a, look_at t c a = Val (next t c, noted t (let (tb, e) := fill (a_tables a) d in Ahead tb (last_error (a_error a) e) (a_notes a)))) \/
  ((forall d, ~ declares b t d) /\ ~ declares_not b t /\
    (exists s, (names_a_type b t /\ s = the_text t \/ (exists name, attributes_of b t name) /\ s = first_text t) /\ signed names_shape (the_text t) s None) /\ forall a, look_at t c a = ByteBuffer.Wild).
Proof.
  intros b c t S1 O. destruct (look_cases b c t S1 O) as [_ [(N & A & L)|[(N & A & L)|(name & N & A & U & L)]]].
  - left. split; [now split|exact L].
  - right. destruct (signed_total names_traits (the_text t) (the_text t)) as [[[p m]|] S2].
    + left. destruct (type_total (p_attributes p)) as (ts & e & T). assert (Su : subject_says t (the_text t) p ts) by (exists m, e; now split). destruct (bare_total (p_id p)) as [id B].
      exists (Decl id ts). split; [now apply (declares_type b t p)|]. intros a. rewrite L, (fill_type _ _ _ _ _ _ Su B). cbn [filled andthen]. now destruct (fill (a_tables a) (Decl id ts)).
    + right. assert (W : forall a, look_at t c a = ByteBuffer.Wild).
      { intros a. rewrite L. unfold fill_named. assert (Et : t_text t = the_text t) by now destruct t. rewrite Et, (signed_ok names_traits _ _ _ S2 _ (enough_two _ _)). reflexivity. }
      split; [|split; [intros [X _]; contradiction|split; [exists (the_text t); split; [now left|exact S2]|exact W]]].
      intros d D. inversion D as [p id sp N1 (m & e & S3 & T) B|name p sp A1 _]; subst; [|exact (A _ A1)].
      pose proof (signed_ok names_traits _ _ _ S2 _ (enough_two _ _)) as E1. pose proof (signed_ok names_traits _ _ _ S3 _ (enough_two _ _)) as E2. rewrite E1 in E2. discriminate.
  - right. destruct (signed_total names_traits (the_text t) (first_text t)) as [[[p m]|] S2].
    + left. destruct (type_total (p_attributes p)) as (ts & e & T). assert (Su : subject_says t (first_text t) p ts) by (exists m, e; now split).
      exists (Decl name ts). split; [now apply (declares_attributes b t name p)|]. intros a. destruct A as (I & h & H & R & Nn). rewrite L, (fill_attributes _ _ _ _ _ _ Nn Su (attributes_plain t p ts I Su)).
      cbn [filled andthen]. now destruct (fill (a_tables a) (Decl name ts)).
    + right. assert (W : forall a, look_at t c a = ByteBuffer.Wild).
      { intros a. rewrite L. unfold fill_named. assert (Et : t_text t = the_text t) by now destruct t. rewrite Et, (signed_ok names_traits _ _ _ S2 _ (enough_two _ _)). reflexivity. }
      split; [|split; [intros [_ X]; exact (X _ A)|split; [exists (first_text t); split; [right; split; [now exists name|reflexivity]|exact S2]|exact W]]].
      intros d D. inversion D as [p id sp N1 _ B|name1 p sp A1 (m & e & S3 & T)]; subst; [contradiction|].
      pose proof (signed_ok names_traits _ _ _ S2 _ (enough_two _ _)) as E1. pose proof (signed_ok names_traits _ _ _ S3 _ (enough_two _ _)) as E2. rewrite E1 in E2. discriminate.
Qed.

(** ** all nodes *)
Lemma fill_all_cons : forall t e d ds, fill_all t e (d :: ds) = let (t', e') := fill t d in fill_all t' (last_error e e') ds.
Proof. reflexivity. Qed.
Theorem look_along_is : forall l b c a a', stands b c -> Forall one_line l ->
  (look_along l c a = Val a' <->
   exists ds ws, declared b l ds /\ mistakes l ws /\ fill_all (a_tables a) (a_error a) ds = (a_tables a', a_error a') /\ a_notes a' = (a_notes a ++ map warned ws)%list).
Proof.
  induction l as [|t l IH]; intros b c a a' S1 O.
  - cbn [look_along]. split.
    + intros E. injection E as <-. exists [], []. split; [constructor|]. split; [constructor|]. split; [reflexivity|]. cbn. now rewrite app_nil_r.
    + intros (ds & ws & D & M & F & N). inversion D; subst. inversion M; subst. cbn in F, N. rewrite app_nil_r in N. injection F as Ft Fe. destruct a, a'; cbn in *. congruence.
  - inversion O as [|t0 l0 Ot Ol]; subst. pose proof (proj1 (look_cases b c t S1 Ot)) as S2. cbn [look_along].
    destruct (look_steps b c t S1 Ot) as [(Dn & L)|[(d & Dd & L)|(Nd & Nn & _ & L)]].
    + rewrite L. cbn [andthen]. rewrite (IH _ _ (noted t a) a' S2 Ol). unfold noted. cbn [a_tables a_error a_notes]. split.
      * intros (ds & ws & D & M & F & N). destruct (relative_dec t) as [R|R].
        -- exists ds, ((lies t, "URI path in '" +++ the_text t +++ "' is not absolute, it should have a leading forward slash") :: ws). split; [destruct Dn; now apply declared_not|]. split; [now apply mistakes_one|]. split; [exact F|].
           rewrite N, (said_relative t R). cbn [map warned]. now rewrite <- app_assoc.
        -- exists ds, ws. split; [destruct Dn; now apply declared_not|]. split; [now apply mistakes_not|]. split; [exact F|]. now rewrite N, (said_other t R), app_nil_r.
      * intros (ds & ws & D & M & F & N). inversion D as [|t0 r d l0 D1 D2|t0 r l0 _ _ D2]; subst; [exfalso; now apply (not_declares _ _ _ Dn D1)|].
        apply mistakes_cons in M as (w & ws' & -> & Ew & _ & M). exists ds, ws'. split; [exact D2|]. split; [exact M|]. split; [exact F|]. rewrite N, map_app, Ew. now rewrite app_assoc.
    + rewrite L. cbn [andthen]. set (a1 := noted t _). rewrite (IH _ _ a1 a' S2 Ol). assert (E1 : fill_all (a_tables a1) (a_error a1) = fun ds => fill_all (a_tables a) (a_error a) (d :: ds)).
      { unfold a1, noted. cbn [fill_all]. destruct (fill (a_tables a) d) as [tb e]. reflexivity. }
      assert (E2 : a_notes a1 = (a_notes a ++ said t)%list) by (unfold a1, noted; now destruct (fill (a_tables a) d)). rewrite E1, E2. clearbody a1. split.
      * intros (ds & ws & D & M & F & N). destruct (relative_dec t) as [R|R].
        -- exists (d :: ds), ((lies t, "URI path in '" +++ the_text t +++ "' is not absolute, it should have a leading forward slash") :: ws). split; [now apply declared_one|]. split; [now apply mistakes_one|]. split; [exact F|].
           rewrite N, (said_relative t R). cbn [map warned]. now rewrite <- app_assoc.
        -- exists (d :: ds), ws. split; [now apply declared_one|]. split; [now apply mistakes_not|]. split; [exact F|]. now rewrite N, (said_other t R), app_nil_r.
      * intros (ds & ws & D & M & F & N). inversion D as [|t0 r d0 l0 D1 D2|t0 r l0 X Y D2]; subst; [|exfalso; now apply (not_declares b t d (conj X Y))].
        rewrite (declares_once _ _ _ _ _ S1 Ot D1 Dd) in *. apply mistakes_cons in M as (w & ws' & -> & Ew & _ & M). exists l0, ws'. split; [exact D2|]. split; [exact M|]. split; [exact F|]. rewrite N, map_app, Ew. now rewrite app_assoc.
    + rewrite L. split; [discriminate|]. intros (ds & ws & D & _). inversion D as [|t0 r d0 l0 D1 D2|t0 r l0 X Y D2]; subst; [exfalso; exact (Nd _ D1)|exfalso; exact (Nn (conj X Y))].
Qed.
(** either everything is declared, or a signature is undefined *)
Theorem look_along_total : forall l b c, stands b c -> Forall one_line l ->
  (exists ds, declared b l ds) \/
  ((forall a, look_along l c a = ByteBuffer.Wild) /\ exists p t q s, l = (p ++ t :: q)%list /\
    (names_a_type (b ++ p) t /\ s = the_text t \/ (exists name, attributes_of (b ++ p) t name) /\ s = first_text t) /\ signed names_shape (the_text t) s None).
Proof.
  induction l as [|t l IH]; intros b c S1 O.
  - left. exists []. constructor.
  - inversion O as [|t0 l0 Ot Ol]; subst. pose proof (proj1 (look_cases b c t S1 Ot)) as S2. cbn [look_along].
    destruct (look_steps b c t S1 Ot) as [((Dn1 & Dn2) & L)|[(d & Dd & L)|(Nd & Nn & (s & W & U) & L)]].
    + destruct (IH _ _ S2 Ol) as [[ds D]|[W (p & x & q & s & -> & H & U)]]; [left; exists ds; now apply declared_not|]. right. split; [intros a; rewrite L; cbn [andthen]; apply W|].
      exists (t :: p), x, q, s. rewrite <- app_assoc in H. now split.
    + destruct (IH _ _ S2 Ol) as [[ds D]|[W (p & x & q & s & -> & H & U)]]; [left; exists (d :: ds); now apply declared_one|]. right. split; [intros a; rewrite L; cbn [andthen]; apply W|].
      exists (t :: p), x, q, s. rewrite <- app_assoc in H. now split.
    + right. split; [intros a; now rewrite L|]. exists [], t, l, s. rewrite app_nil_r. now split.
Qed.
Lemma declared_unique : forall l b c ds, stands b c -> Forall one_line l -> declared b l ds -> forall ds', declared b l ds' -> ds = ds'.
Proof.
  induction l as [|t l IH]; intros b c ds S1 O D ds' D'; [inversion D; inversion D'; congruence|]. inversion O as [|t0 l0 Ot Ol]; subst. pose proof (proj1 (look_cases b c t S1 Ot)) as S2.
  inversion D as [|t0 r d0 l0 D1 D2|t0 r l0 X Y D2]; subst; inversion D' as [|t0 r d1 l1 D1' D2'|t0 r l1 X' Y' D2']; subst.
  - rewrite (declares_once _ _ _ _ _ S1 Ot D1 D1'). f_equal. exact (IH _ _ _ S2 Ol D2 _ D2').
  - exfalso. exact (not_declares b t d0 (conj X' Y') D1).
  - exfalso. exact (not_declares b t d1 (conj X Y) D1').
  - exact (IH _ _ _ S2 Ol D2 _ D2').
Qed.
