(** Lemmas for C82: named types and their groups as wholes *)
From Verif Require Import Base StringUtility StringSpec StringProofs ByteBuffer ByteSpec Markdown MarkdownSpec Regex Keywords KeywordsSpec KeywordsOrder
  Signature SignatureSpec SignatureProofs SignatureWhole TypeTables SourceMap Mson Prop_Bytes Prop_Strings TypeDefs TypeDefsSpec TypeDefsProofs MembersTree MembersSpec MembersRead MembersLeaves MembersMixin MembersParts MembersSteps
  MembersSections MembersEntries MembersWhole MembersEnds MsonTypes MsonTypesSpec MsonTypesRead.
From Verif Require Sections SectionsSpec SectionsKinds Payloads PayloadsSpec ParamsLine.
Import SectionsSpec(a_header, type_h, ends_resource).
Import PayloadsSpec(the_text, row).
Local Open Scope string_scope.

Section Wholes.
Context (known : list (string * base_type)) (source : string) (Small : (slen source < 2 ^ 64)%N).
Notation reads := (reads known).
Notation named := (named_type_says known source).

Lemma type_base_known : forall b, type_base b <> UndefinedBT.
Proof. intros []; discriminate. Qed.
(** what is behind the header *)
Definition behind (n : nat) (name : type_name) (td : type_def) (t : tree) (r : list tree) (s : st) : outcome (structure * list tree * st) :=
  let name_map := if name_empty name then [] else spot t in
  let type_map := if def_empty td then [] else spot t in
  andthen (descriptions source r []) (fun o =>
  match o with
  | None => Val (Str name (set_base (type_base (td_base td)) td) [] [] name_map type_map, r, s)
  | Some (sections, others) =>
    andthen (type_walk source (s_literal (n_symbol name)) n (S (List.length others)) others (sections, type_base (td_base td)) s) (fun '(a, rest, s) =>
    Val (Str name (set_base (snd a) td) (fst a) [] name_map type_map, rest, s))
  end).
Lemma behind_reads : forall n m v td t r, Forall (deep source n) r -> reads (behind n (TN UndefinedTN (Sym m v)) td t r)
  (fun x e => exists texts others l0 l rest, row text_node r texts others /\ adds_texts source texts [] l0 /\ below_says known source m (type_base (td_base td)) others l0 l rest e /\
    x = (Str (TN UndefinedTN (Sym m v)) (TD (type_base (td_base td)) (td_spec td) (td_attrs td)) l [] (lies_unless (String.eqb m "" && negb v) t) (lies_unless (def_empty td) t), rest)).
Proof.
  intros n m v td t r D. unfold behind. cbv zeta.
  assert (Fr : Forall (fits source) r) by (eapply Forall_impl; [|exact D]; intros u; apply deep_fits).
  refine (reads_ext _ _ (reads_pure _ (fun o x e => exists l0 others l rest, o = Some (l0, others) /\ below_says known source m (type_base (td_base td)) others l0 l rest e /\
    x = (Str (TN UndefinedTN (Sym m v)) (TD (type_base (td_base td)) (td_spec td) (td_attrs td)) l [] (lies_unless (String.eqb m "" && negb v) t) (lies_unless (def_empty td) t), rest))
    (fun o => descriptions_iff source Small r [] o (or_introl eq_refl) Fr) _) _).
  - intros o (texts & others & l0 & R & A & ->).
    assert (Do : Forall (deep source n) others) by (apply Forall_forall; intros u I; exact (proj1 (Forall_forall _ _) D u (in_row _ _ _ _ _ R I))).
    assert (Sg : single_text l0) by (apply single_of_most; exact (adds_most source _ _ _ A (or_introl eq_refl))).
    assert (W := type_walk_reads known source Small m n (S (List.length others)) others l0 (type_base (td_base td)) (Nat.lt_succ_diag_r _) (type_base_known _) Do Sg).
    assert (G : reads (fun s => andthen (type_walk source m n (S (List.length others)) others (l0, type_base (td_base td)) s) (fun '(x, s) => (fun (x : members * list tree) s =>
        Val (Str (TN UndefinedTN (Sym m v)) (set_base (snd (fst x)) td) (fst (fst x)) [] (if name_empty (TN UndefinedTN (Sym m v)) then [] else spot t) (if def_empty td then [] else spot t), snd x, s)) x s))
      (fun y e => exists x e1 e2, (below_says known source m (type_base (td_base td)) others l0 (fst (fst x)) (snd x) e1 /\ snd (fst x) = type_base (td_base td)) /\
        (y = (Str (TN UndefinedTN (Sym m v)) (set_base (snd (fst x)) td) (fst (fst x)) [] (if name_empty (TN UndefinedTN (Sym m v)) then [] else spot t) (if def_empty td then [] else spot t), snd x) /\ e2 = []) /\ e = (e1 ++ e2)%list)).
    { apply (reads_bind (fun (x : members * list tree) (y : structure * list tree) e2 => y = (Str (TN UndefinedTN (Sym m v)) (set_base (snd (fst x)) td) (fst (fst x)) []
        (if name_empty (TN UndefinedTN (Sym m v)) then [] else spot t) (if def_empty td then [] else spot t), snd x) /\ e2 = []) W). intros x e _. apply reads_val. }
    assert (Lm : forall b : bool, (if b then [] else spot t) = lies_unless b t) by (intros b; unfold lies_unless; destruct b; [reflexivity|now destruct t]).
    refine (reads_fun _ _ (reads_ext _ _ G _) _).
    + intros y e. rewrite !Lm. split.
      * intros ([[l b] rest] & e1 & e2 & (B & E) & (-> & ->) & ->). cbn [fst snd] in *. subst b. rewrite app_nil_r. exists l0, others, l, rest. split; [reflexivity|]. split; [exact B|reflexivity].
      * intros (l1 & o1 & l & rest & H & B & ->). injection H as <- <-. exists ((l, type_base (td_base td)), rest), e, []. cbn [fst snd]. rewrite app_nil_r. split; [split; [exact B|reflexivity]|]. split; [split; reflexivity|reflexivity].
    + intros s. cbn [n_symbol s_literal]. now destruct (type_walk source m n (S (List.length others)) others (l0, type_base (td_base td)) s) as [[[[l b] rest] s1]| | |].
  - intros x e. split.
    + intros (o & (texts & others & l0 & R & A & ->) & l1 & o1 & l & rest & H & B & ->). injection H as <- <-. exists texts, others, l0, l, rest. auto.
    + intros (texts & others & l0 & l & rest & R & A & B & ->). exists (Some (l0, others)). split; [eauto 8|]. exists l0, others, l, rest. auto.
Qed.
Definition named_body (n : nat) (t : tree) (r : list tree) (s : st) : outcome (structure * list tree * st) :=
  andthen (signature_of attributes_traits "" t s) (fun '(sg, s) => andthen (parse_type_name (identifier sg) false) (fun name => andthen (define "" t (attributes sg) s) (fun '(td, s) =>
  behind n name td t r (note (spot t) (odd_name (t_text t) (s_literal (n_symbol name))) s)))).
Lemma named_body_is : forall n t r s, parse_named_type source n (t :: r) s = if is_header t then named_body n t r s else Thrown.
Proof. intros n t r s. unfold parse_named_type, named_body, behind. change given_base with type_base. reflexivity. Qed.
Lemma named_reads : forall n l, Forall (deep source n) l -> reads (parse_named_type source n l) (fun x e => named l (fst x) (snd x) e).
Proof.
  intros n [|t r] D.
  { refine (reads_fun (fun _ => ByteBuffer.Wild) _ (reads_fail known ByteBuffer.Wild _ _ _) _); [discriminate| |reflexivity]. intros x e H. inversion H. }
  inversion D as [|t0 r0 Dt Dr]; subst. destruct (is_header t) eqn:Hd.
  2: { refine (reads_fun (fun _ => Thrown) _ (reads_fail known Thrown _ _ _) _); [discriminate| |intros s; rewrite named_body_is; now rewrite Hd]. intros x e H. inversion H; subst. assert (X : is_header t = true) by now apply header_iff. congruence. }
  assert (Hh : a_header t) by now apply header_iff. refine (reads_fun (named_body n t r) _ _ (fun s => eq_trans (named_body_is n t r s) _)); [|now rewrite Hd]. unfold named_body.
  set (tail := fun (m : string) (v : bool) (td : type_def) (x : structure * list tree) (e : located) => exists texts others l0 l rest, row text_node r texts others /\ adds_texts source texts [] l0 /\
    below_says known source m (type_base (td_base td)) others l0 l rest e /\
    x = (Str (TN UndefinedTN (Sym m v)) (TD (type_base (td_base td)) (td_spec td) (td_attrs td)) l [] (lies_unless (String.eqb m "" && negb v) t) (lies_unless (def_empty td) t), rest)).
  refine (reads_ext _ _ (reads_bind (fun sg x e => exists p m v td ed w e', sg = sig_of p /\ value_says (p_id p) (MV m v) /\ definition_says known "" (p_attributes p) td ed /\ name_remark (the_text t) m w /\ tail m v td x e' /\
    e = (on t ed ++ on t w ++ e')%list) (signature_reads known attributes_traits "" t) _) _).
  - intros sg e0 (p & mm & S1 & -> & ->).
    refine (reads_ext _ _ (reads_pure _ (fun name x e => exists m v td ed w e', name = TN UndefinedTN (Sym m v) /\ definition_says known "" (p_attributes p) td ed /\ name_remark (the_text t) m w /\ tail m v td x e' /\
      e = (on t ed ++ on t w ++ e')%list) (type_name_iff (p_id p)) _) _).
    + intros name (m & v & V & ->).
      refine (reads_ext _ _ (reads_bind (fun td x e => exists w e', name_remark (the_text t) m w /\ tail m v td x e' /\ e = (on t w ++ e')%list) (define_reads known "" t (p_attributes p)) _) _).
      * intros td ed _.
        refine (reads_fun _ _ (reads_ext _ _ (reads_bind (fun (_ : unit) x e => tail m v td x e) (odd_reads known t m) (fun _ e1 _ => behind_reads n m v td t r Dr)) _) _).
        -- intros x e. split.
           ++ intros ([] & e1 & e2 & (w & N & ->) & T & ->). eauto 6.
           ++ intros (w & e' & N & T & ->). exists tt, (on t w), e'. eauto.
        -- intros s. reflexivity.
      * intros x e. split.
        -- intros (td & e1 & e2 & (ed & Dd & ->) & (w & e' & N & T & ->) & ->). exists m, v, td, ed, w, e'. auto 6.
        -- intros (m' & v' & td & ed & w & e' & E & Dd & N & T & ->). injection E as <- <-. exists td, (on t ed), (on t w ++ e')%list. split; [eauto|]. split; [|reflexivity]. eauto 6.
    + intros x e. split.
      * intros (name & (m & v & V & ->) & m' & v' & td & ed & w & e' & E & Dd & N & T & ->). injection E as <- <-. exists p, m, v, td, ed, w, e'. do 5 (split; [first [reflexivity|assumption]|]). reflexivity.
      * intros (q & m & v & td & ed & w & e' & E & V & Dd & N & T & ->).
        assert (p = q) as <- by (unfold sig_of in E; destruct p, q; cbn in E; now injection E as -> -> -> -> -> ->).
        exists (TN UndefinedTN (Sym m v)). split; [now exists m, v|]. exists m, v, td, ed, w, e'. do 4 (split; [first [reflexivity|assumption]|]). reflexivity.
  - intros [x rest] e. cbn [fst snd]. split.
    + intros (sg & f1 & f2 & (p & mm & S1 & -> & ->) & (q & m & v & td & ed & w & e' & E & V & Dd & N & (texts & others & l0 & l & rest' & R & A & B & Ex) & ->) & ->).
      assert (p = q) as <- by (unfold sig_of in E; destruct p, q; cbn in E; now injection E as -> -> -> -> -> ->). injection Ex as -> ->.
      assert (Q : (on t (map (Says 6) mm) ++ on t ed ++ on t w ++ e')%list = (on t (map (Says 6) mm ++ ed ++ w) ++ e')%list) by now rewrite !on_app, <- !app_assoc.
      rewrite Q. eapply named_type_by; eassumption.
    + intros H. inversion H as [t0 r0 p mm m v td texts others l0 l rest' ed w e' Hh' S1 V Dd N R A B]; subst.
      exists (sig_of p), (on t (map (Says 6) mm)), (on t ed ++ on t w ++ e')%list. split; [now exists p, mm|]. split; [|now rewrite !on_app, <- !app_assoc].
      exists p, m, v, td, ed, w, e'. split; [reflexivity|]. split; [exact V|]. split; [exact Dd|]. split; [exact N|]. split; [|reflexivity]. exists texts, others, l0, l, rest. auto.
Qed.

(** ** groups *)
Fixpoint seen (x : belement) : found := match x with BResource n => AResource n | BStructure n => AStructure n | BCategory l => AGroup (map seen l) | BOther => Another end.
Lemma duplicate_iff : forall bp name, is_duplicate bp name = true <-> taken_name (map seen bp) name.
Proof.
  intros bp name. unfold is_duplicate, taken_name. rewrite existsb_exists. split.
  - intros ([n|n|l|] & I & H); try discriminate.
    + apply String.eqb_eq in H as ->. left. apply in_map_iff. now exists (BResource name).
    + right. exists (map seen l). split; [apply in_map_iff; now exists (BCategory l)|]. apply existsb_exists in H as ([n|n|l'|] & J & H); try discriminate; apply String.eqb_eq in H as ->; [left|right]; apply in_map_iff; [now exists (BResource name)|now exists (BStructure name)].
  - intros [I|(l & I & J)].
    + apply in_map_iff in I as ([n|n|l|] & E & I); try discriminate. injection E as ->. exists (BResource name). split; [exact I|apply String.eqb_refl].
    + apply in_map_iff in I as ([n|n|l'|] & E & I); try discriminate. injection E as <-. exists (BCategory l'). split; [exact I|]. apply existsb_exists.
      destruct J as [J|J]; apply in_map_iff in J as ([n|n|l|] & E & J); try discriminate; injection E as ->; eexists; (split; [exact J|apply String.eqb_refl]).
Qed.
Lemma below_rest : forall name b l a a' rest e, below_says known source name b l a a' rest e -> exists d, l = (d ++ rest)%list.
Proof.
  intros name b l a a' rest e H. induction H as [l|t r l l' l'' rest e e' N S1 H [d ->]|t r l l' e N S1|t r k s s' r' l l' rest e e' e'' Hh K Hd R H [d ->]|t r k s l e Hh K Hd]; [now exists []|now exists (t :: d)|now exists []| |now exists []].
  apply read_to_rest in R as [d' ->]. exists (t :: d' ++ d)%list. cbn. now rewrite app_assoc.
Qed.
Lemma named_rest : forall l x rest e, named l x rest e -> exists t d, l = (t :: d ++ rest)%list /\ a_header t.
Proof.
  intros l x rest e H. destruct H as [t r p m n v td texts others l0 l rest e w e' Hh S1 V D N R A B]. apply below_rest in B as [d B]. destruct R as (-> & _). exists t, (texts ++ d)%list. split; [|exact Hh]. rewrite B. now rewrite app_assoc.
Qed.
Section Group.
Context (n : nat) (bp : list belement).
Notation below := (structures_below known source (map seen bp)).
Lemma unexpected_upper : forall t, one_line t -> named_type_type t <> MSONNamedTypeSection -> (Sections.base_is_unexpected data_structures_upper t = true <-> ~ ends_resource t).
Proof.
  intros t O N. destruct (SectionsKinds.upper_iff t O) as (_ & _ & _ & U). unfold Sections.base_is_unexpected. rewrite <- U. destruct (Sections.among data_structures_upper (section_keyword t)) eqn:A; cbn [negb].
  - split; [|intros H; now elim H]. intros H. exfalso. destruct (section_keyword t); discriminate.
  - split; [discriminate|reflexivity].
Qed.
Lemma type_not_end : forall t, type_h t -> ~ ends_resource t.
Proof. intros t T. unfold type_h, ends_resource, SectionsSpec.ends_group in *. tauto. Qed.
Lemma structures_walk_reads : forall m l acc, List.length l < m -> Forall (deep source n) l -> Forall one_line l ->
  reads (structures_walk source n bp m l acc) (fun x e => exists xs, fst x = (acc ++ xs)%list /\ below l xs (snd x) e).
Proof.
  induction m as [|m IH]; intros l acc L D O; [lia|]. cbn [structures_walk]. destruct l as [|t r].
  { refine (reads_ext _ _ (reads_val known (acc, [])) _). intros [y rest] e. cbn [fst snd]. split.
    - intros [E ->]. injection E as -> ->. exists []. rewrite app_nil_r. split; [reflexivity|constructor].
    - intros (xs & -> & B). inversion B; subst. now rewrite app_nil_r. }
  cbn [List.length] in L. inversion D as [|t0 r0 Dt Dr]; subst. inversion O as [|t0 r0 Ot Or]; subst.
  assert (Cases : named_type_type t = MSONNamedTypeSection \/ named_type_type t = UndefinedSection).
  { unfold named_type_type. destruct (section_keyword t); auto. apply SectionsKinds.if_range. }
  destruct Cases as [E|E]; rewrite E.
  - assert (T : type_h t) by now apply SectionsKinds.named_iff.
    set (Q := fun (x : structure * list tree) (y : list structure * list tree) e => (~ taken_name (map seen bp) (name_of (fst x)) /\ exists xs, fst y = (acc ++ fst x :: xs)%list /\ below (snd x) xs (snd y) e) \/
       (taken_name (map seen bp) (name_of (fst x)) /\ exists xs e', fst y = (acc ++ xs)%list /\ below (snd x) xs (snd y) e' /\ e = (on t [Says 2 ("named type with name '" +++ name_of (fst x) +++ "' already exists")] ++ e')%list)).
    refine (reads_fun _ _ (reads_ext _ _ (reads_bind (f := parse_named_type source n (t :: r)) (g := fun x s =>
        let '(acc', s) := if is_duplicate bp (name_of (fst x)) then (acc, note (spot t) [Warns 2 (taken_text (name_of (fst x)))] s) else ((acc ++ [fst x])%list, s) in
        if Sections.same (t :: r) (snd x) then Val (acc', snd x, s) else structures_walk source n bp m (snd x) acc' s) Q (named_reads n (t :: r) D) _) _) _).
    + intros [x rest] e1 N. cbn [fst snd]. apply named_rest in N as (t1 & d & El & _). injection El as <- ->.
      assert (Same : Sections.same (t :: d ++ rest) rest = false) by (unfold Sections.same; apply Nat.eqb_neq; cbn; rewrite app_length; lia).
      apply Forall_app in Dr as [_ Dr]. apply Forall_app in Or as [_ Or]. rewrite app_length in L. assert (L' : List.length rest < m) by lia.
      unfold Q. cbn [fst snd]. destruct (is_duplicate bp (name_of x)) eqn:Du.
      * apply duplicate_iff in Du.
        refine (reads_fun _ _ (reads_ext _ _ (reads_bind (f := fun s => Val (tt, note (spot t) [Warns 2 (taken_text (name_of x))] s)) (g := fun _ s => structures_walk source n bp m rest acc s)
          (fun _ y e => exists xs, fst y = (acc ++ xs)%list /\ below rest xs (snd y) e) (R := fun _ e => e = on t [Says 2 (taken_text (name_of x))]) _ (fun _ _ _ => IH rest acc L' Dr Or)) _) _).
        -- refine (reads_ext _ _ (reads_fun _ _ (reads_ret known tt (on t [Says 2 (taken_text (name_of x))])) _) _).
           ++ intros s. exact (f_equal (fun z => Val (tt, z)) (perform_warns t 2 [taken_text (name_of x)] s)).
           ++ intros [] e. tauto.
        -- intros y e. split.
           ++ intros ([] & e2 & e3 & -> & (xs & Ey & B) & ->). right. split; [exact Du|]. exists xs, e3. auto.
           ++ intros [(N & _)|(_ & xs & e' & Ey & B & ->)]; [contradiction|]. exists tt, (on t [Says 2 (taken_text (name_of x))]), e'. split; [reflexivity|]. split; [eauto|reflexivity].
        -- intros s. cbn [andthen fst snd]. cbv beta iota. now rewrite Same.
      * assert (Nd : ~ taken_name (map seen bp) (name_of x)) by (intros H; apply duplicate_iff in H; congruence).
        refine (reads_fun _ _ (reads_ext _ _ (IH rest (acc ++ [x])%list L' Dr Or) _) _).
        -- intros y e. split.
           ++ intros (xs & Ey & B). left. split; [exact Nd|]. exists xs. rewrite Ey, <- app_assoc. auto.
           ++ intros [(_ & xs & Ey & B)|(N & _)]; [|contradiction]. exists xs. rewrite <- app_assoc. auto.
        -- intros s. now rewrite Same.
    + intros [y rest'] e. unfold Q. cbn [fst snd]. split.
      * intros ([x rest] & e1 & e2 & N & [(Nt & xs & Ey & B)|(Tk & xs & e3 & Ey & B & ->)] & ->); cbn [fst snd] in *; subst y.
        -- exists (x :: xs). split; [reflexivity|]. now apply (structures_type known source (map seen bp) t r x rest).
        -- exists xs. split; [reflexivity|]. now apply (structures_taken known source (map seen bp) t r x rest).
      * intros (xs & -> & B). inversion B as [|t1 r1 x rest l1 rest1 e1 e2 T1 N1 Nt B1|t1 r1 x rest l1 rest1 e1 e2 T1 N1 Tk B1|t1 r1 l1 rest1 e1 Nt Ne B1|t1 r1 En]; subst.
        -- exists (x, rest), e1, e2. cbn [fst snd]. split; [exact N1|]. split; [|reflexivity]. left. eauto.
        -- exists (x, rest), e1, (on t [Says 2 ("named type with name '" +++ name_of x +++ "' already exists")] ++ e2)%list. cbn [fst snd]. split; [exact N1|]. split; [|reflexivity]. right. split; [exact Tk|]. eauto 6.
        -- contradiction.
        -- now elim (type_not_end t T).
    + intros s. destruct (parse_named_type source n (t :: r) s) as [[[x rest] s1]| | |]; try reflexivity.
  - assert (Nt : ~ type_h t) by (intros H; apply SectionsKinds.named_iff in H; congruence).
    assert (U := unexpected_upper t Ot ltac:(congruence)).
    destruct (Sections.base_is_unexpected data_structures_upper t).
    + assert (Ne : ~ ends_resource t) by now apply U.
      refine (reads_fun _ _ (reads_ext _ _ (reads_bind (f := fun s => Val (tt, unexpected t s)) (g := fun _ s => structures_walk source n bp m r acc s)
        (fun _ y e => exists xs, fst y = (acc ++ xs)%list /\ below r xs (snd y) e) (R := fun _ e => e = unexpected_node t) _ (fun _ _ _ => IH r acc ltac:(lia) Dr Or)) _) _).
      * refine (reads_ext _ _ (reads_fun _ _ (reads_ret known tt (unexpected_node t)) _) _); [intros s; now rewrite unexpected_performs|]. intros [] e. tauto.
      * intros y e. split.
        -- intros ([] & e1 & e2 & -> & (xs & Ey & B) & ->). exists xs. split; [exact Ey|]. now apply structures_other.
        -- intros (xs & Ey & B). inversion B as [|t1 r1 x rest l1 rest1 e1 e2 T1 N1 Nt1 B1|t1 r1 x rest l1 rest1 e1 e2 T1 N1 Tk B1|t1 r1 l1 rest1 e1 Nt1 Ne1 B1|t1 r1 En]; subst; try contradiction.
           exists tt, (unexpected_node t), e1. split; [reflexivity|]. split; [eauto|reflexivity].
      * reflexivity.
    + assert (En : ends_resource t).
      { destruct (SectionsKinds.upper_iff t Ot) as (_ & _ & _ & V). apply V. destruct (Sections.among data_structures_upper (section_keyword t)) eqn:A; [reflexivity|].
        assert (X : ~ ends_resource t) by (intros H; apply V in H; congruence). apply U in X. discriminate. }
      refine (reads_ext _ _ (reads_val known (acc, t :: r)) _). intros [y rest] e. cbn [fst snd]. split.
      * intros [Ey ->]. injection Ey as -> ->. exists []. rewrite app_nil_r. split; [reflexivity|]. now constructor.
      * intros (xs & -> & B). inversion B; subst; try contradiction. now rewrite app_nil_r.
Qed.
Lemma structures_read : forall l, Forall (deep source n) l -> Forall one_line l -> reads (parse_structures source n bp l) (fun x e => structures_say known source (map seen bp) l (fst x) (snd x) e).
Proof.
  intros [|t r] D O.
  { refine (reads_fun (fun _ => ByteBuffer.Wild) _ (reads_fail known ByteBuffer.Wild _ _ _) _); [discriminate| |reflexivity]. intros x e H. inversion H. }
  inversion D as [|t0 r0 Dt Dr]; subst. inversion O as [|t0 r0 Ot Or]; subst. destruct (is_header t) eqn:Hd.
  - refine (reads_fun _ _ (reads_ext _ _ (structures_walk_reads (S (List.length r)) r [] (Nat.lt_succ_diag_r _) Dr Or) _) _); [|intros s; unfold parse_structures; now rewrite Hd]. intros [y rest] e. cbn [fst snd]. split.
    + intros (xs & -> & B). constructor; [now apply header_iff|exact B].
    + intros H. inversion H; subst. exists y. auto.
  - refine (reads_fun (fun _ => Thrown) _ (reads_fail known Thrown _ _ _) _); [discriminate| |intros s; unfold parse_structures; now rewrite Hd]. intros x e H. inversion H; subst. assert (X : is_header t = true) by now apply header_iff. congruence.
Qed.
End Group.
End Wholes.
