(** Lemmas for C82: named types *)
From Verif Require Import Base StringUtility StringSpec StringProofs ByteBuffer ByteSpec Markdown MarkdownSpec Regex RegexSpec RegexProofs RegexCaps Keywords KeywordsSpec KeywordsProofs Prop_Keywords
  Signature SignatureSpec SignatureProofs SignatureWhole TypeTables SourceMap Mson Prop_Bytes Prop_Strings TypeDefs TypeDefsSpec TypeDefsProofs MembersTree MembersSpec MembersRead MembersLeaves MembersMixin MembersParts MembersSteps
  MembersSections MembersEntries MembersWhole MsonTypes MsonTypesSpec.
From Verif Require SectionsSpec SectionsItems SectionsKinds SectionsDoc SectionsLoop Payloads PayloadsSpec PayloadsText PayloadsNodes Params ParamsText ParamsLine.
Import SectionsSpec(a_header, an_item, include_item, one_of_item, object_base, value_base, primitive_base).
Import PayloadsSpec(the_text, place, opens, row, padded).
Local Open Scope string_scope.

(** ** names *)
Lemma escaped_iff : forall text, escaped text = true <-> in_backticks text.
Proof.
  intros text. unfold escaped, in_backticks. split.
  - intros H. destruct (trim text) as [|c x] eqn:E; [discriminate|]. apply Ascii.eqb_eq in H as ->. exists x. apply ParamsLine.trims_is'. now symmetry.
  - intros (x & T). apply ParamsLine.trims_is' in T. now rewrite <- T.
Qed.
Definition reserved_re : re := Set_ false [(93, 93); (58, 58); (40, 40); (41, 41); (60, 60); (62, 62); (123, 123); (125, 125); (91, 91); (95, 95); (42, 42); (43, 43); (96, 96); (45, 45)]%N.
Lemma reserved_compiled : compile MSONReservedCharsRegex = Some (false, Cat (Cat reserved_re (Star reserved_re)) Eps, false).
Proof. vm_compute. reflexivity. Qed.
Lemma reserved_set : forall c, in_set false [(93, 93); (58, 58); (40, 40); (41, 41); (60, 60); (62, 62); (123, 123); (125, 125); (91, 91); (95, 95); (42, 42); (43, 43); (96, 96); (45, 45)]%N c = true <-> In c reserved.
Proof.
  intros c. etransitivity; [exact (PayloadsText.pick_set ["]"; ":"; "("; ")"; "<"; ">"; "{"; "}"; "["; "_"; "*"; "+"; "`"; "-"]%char c)|]. unfold reserved. cbn [In]. tauto.
Qed.
Lemma reserved_iff : forall n, regex_match n MSONReservedCharsRegex = true <-> reserved_name n.
Proof.
  intros n. rewrite (ParamsLine.match_inside MSONReservedCharsRegex _ n ltac:(discriminate) reserved_compiled). split.
  - intros (_ & a & u & b & E & L). apply lang_cat_iff in L as (x & y & -> & L & K). apply lang_cat_iff in L as (x1 & x2 & -> & L & K2). apply lang_set_iff in L as (c & -> & L). apply reserved_set in L.
    exists (c_text n), c. split; [now apply ParamsText.before_is|]. split; [exact L|]. rewrite E. apply has_app. right. now left.
  - intros (v & c & V & I & H). apply ParamsText.before_is in V. subst v. split; [intros ->; destruct H|]. apply has_split in H as (a & b & E & _). exists a, (String c ""), b. split; [exact E|].
    apply lang_cat_iff. exists (String c ""), "". split; [reflexivity|]. split; [|apply lang_eps]. apply lang_cat_iff. exists (String c ""), "". split; [reflexivity|]. split; [|apply lang_none].
    apply lang_set_iff. exists c. split; [reflexivity|]. now apply reserved_set.
Qed.
Lemma odd_cases : forall text n, exists w, name_remark text n w /\ (forall w', name_remark text n w' -> w' = w) /\ forall t s, note (spot t) (odd_name text n) s = perform (on t w) s.
Proof.
  intros text n. unfold odd_name. destruct (escaped text) eqn:E.
  - apply escaped_iff in E. exists []. split; [apply remark_none; now left|]. split; [intros w' H; now inversion H|]. intros t s. apply note_nil.
  - assert (E' : ~ in_backticks text) by (intros H; apply escaped_iff in H; congruence). destruct (regex_match n MSONReservedCharsRegex) eqn:R.
    + apply reserved_iff in R. eexists. split; [now apply remark_odd|]. split; [intros w' H; inversion H as [A B|[A|A]]; subst; [reflexivity|now elim E'|now elim A]|].
      intros t s. exact (perform_warns t 3 [_] s).
    + assert (R' : ~ reserved_name n) by (intros H; apply reserved_iff in H; congruence). exists []. split; [apply remark_none; now right|]. split; [intros w' H; now inversion H|]. intros t s. apply note_nil.
Qed.

Section Named.
Context (known : list (string * base_type)) (source : string) (Small : (slen source < 2 ^ 64)%N).
Notation reads := (reads known).

Lemma odd_reads : forall t n, reads (fun s => Val (tt, note (spot t) (odd_name (t_text t) n) s)) (fun _ e => exists w, name_remark (the_text t) n w /\ e = on t w).
Proof.
  intros t n. assert (T : t_text t = the_text t) by now destruct t. rewrite T. destruct (odd_cases (the_text t) n) as (w & H & U & P).
  refine (reads_ext _ _ (reads_fun _ _ (reads_ret known tt (on t w)) _) _).
  - intros s. now rewrite P.
  - intros [] e. split; [intros [_ ->]; now exists w|]. intros (w' & H' & ->). now rewrite (U _ H').
Qed.
Lemma type_name_iff : forall id x, parse_type_name id false = Val x <-> exists n v, value_says id (MV n v) /\ x = TN UndefinedTN (Sym n v).
Proof.
  intros id x. unfold parse_type_name, parse_symbol. cbn [andb]. destruct (value_total id) as [[n v] V]. rewrite (value_ok _ _ V). cbn. split.
  - intros H. injection H as <-. now exists n, v.
  - intros (n' & v' & V' & ->). pose proof (value_unique _ _ _ V V') as E. now injection E as -> ->.
Qed.

(** ** walks that tell what is left *)
Lemma walk_to_reads : forall {A} (step : tree -> A -> st -> outcome (A * bool * st)) (R : tree -> A -> A -> located -> bool -> Prop) l,
  (forall t a, In t l -> reads (step t a) (fun x e => R t a (fst x) e (snd x))) -> forall a, reads (walk_to step l a) (fun x e => read_to R l a (fst x) (snd x) e).
Proof.
  intros A step R l. induction l as [|t r IH]; intros H a.
  - cbn [walk_to]. refine (reads_ext _ _ (reads_val known (a, [])) _). intros [x l] e. cbn [fst snd]. split; [intros [E ->]; injection E as -> ->; constructor|intros Q; now inversion Q; subst].
  - cbn [walk_to]. pose proof (H t a (or_introl eq_refl)) as F.
    assert (G : reads (fun s : st => andthen (step t a s) (fun '(x, s) => (fun (x : A * bool) s => if snd x then walk_to step r (fst x) s else Val (fst x, t :: r, s)) x s))
       (fun (y : A * list tree) (e : located) => exists (x : A * bool) e1 e2, R t a (fst x) e1 (snd x) /\
          (if snd x then read_to R r (fst x) (fst y) (snd y) e2 else y = (fst x, t :: r) /\ e2 = []) /\ e = (e1 ++ e2)%list)).
    { apply (reads_bind (fun (x : A * bool) y e2 => if snd x then read_to R r (fst x) (fst y) (snd y) e2 else y = (fst x, t :: r) /\ e2 = [])); [exact F|]. intros [x []] e Rx; cbn [fst snd].
      - apply IH. intros u b Iu; apply H; now right.
      - apply reads_val. }
    refine (reads_fun _ _ (reads_ext _ _ G _) _).
    + intros [y rest] e. cbn [fst snd]. split.
      * intros ([x []] & e1 & e2 & R1 & R2 & ->); cbn [fst snd] in *; [now apply (read_next R t r a x)|]. destruct R2 as [E ->]. injection E as -> ->. rewrite app_nil_r. now constructor.
      * intros Q. inversion Q as [|t0 r0 a0 a1 a2 rest0 e1 e2 S1 N1|t0 r0 a0 a1 e1 S1]; subst.
        { exists (a1, true), e1, e2. cbn [fst snd]. auto. }
        { exists (y, false), e, []. cbn [fst snd]. rewrite app_nil_r. auto. }
    + intros s. destruct (step t a s) as [[[y []] s1]| | |]; reflexivity.
Qed.
Lemma read_to_rest : forall {A} (R : tree -> A -> A -> located -> bool -> Prop) l a a' rest e, read_to R l a a' rest e -> exists d, l = (d ++ rest)%list.
Proof.
  intros A R l a a' rest e H. induction H as [a|t r a a' a'' rest e e' S1 H [d ->]|t r a a' e S1]; [now exists []|now exists (t :: d)|now exists []].
Qed.

(** ** below the header *)
Section Below.
Context (context : string) (n : nat).
Notation P := (deep source n).
Notation Member := (member_says known source context).
Notation OneOf := (one_of_says known source context).
Notation Section_ := (section_says known source context).
Notation node_says := (node_says known source context Member OneOf Section_).
Notation below := (below_says known source context).

Lemma no_blocks : forall k b t s e, Section_ k b t s e -> sc_class s <> BlockDescriptionClass.
Proof. intros k b t s e H. inversion H as [k0 b0 i s0 e0 H0]; subst. exact (section_class _ _ _ _ _ _ _ _ _ _ H0). Qed.
Lemma head_section_class : forall b t s e on_, head_says b t s e on_ -> sc_class s <> BlockDescriptionClass.
Proof. intros b t s e on_ H. destruct H as [p m c v es k w S1 W O| | |]; cbn; try discriminate. destruct W; discriminate. Qed.
Lemma read_to_class : forall k b r s s' rest e, read_to (entry_says known source context Member OneOf k b) r s s' rest e -> sc_class s' = sc_class s.
Proof.
  assert (He : forall k b t s s' e on_, entry_says known source context Member OneOf k b t s s' e on_ -> sc_class s' = sc_class s) by (intros k b t s s' e on_ H; destruct H; reflexivity).
  intros k b r s s' rest e H. induction H as [a|t0 r0 a a' a'' rest e1 e2 S1 N IH|t0 r0 a a' e1 S1]; [reflexivity|..].
  - rewrite IH. exact (He _ _ _ _ _ _ _ S1).
  - exact (He _ _ _ _ _ _ _ S1).
Qed.
Lemma with_keep : forall t x l, keep_section t x l = with_section t x l.
Proof. intros [ty x0 z mm cs] [[] d v es m [|k0 k]] l; reflexivity. Qed.
Lemma node_base : forall t l b l' b' e on_, b <> UndefinedBT -> node_says t (l, b) (l', b') e on_ -> b' = b.
Proof.
  intros t l b l' b' e on_ N H. inversion H; subst; try reflexivity;
    repeat match goal with Y : told_by_member _ _ _ |- _ => inversion Y; subst; clear Y | Y : told_by_section _ _ _ |- _ => inversion Y; subst; clear Y end; try reflexivity; now elim N.
Qed.

Definition step_says (t : tree) (r : list tree) (a : sections) (b : base_type) (x : members * option (list tree)) (e : located) : Prop :=
  snd (fst x) = b /\
  ((~ section_node t /\ exists on_ : bool, node_says t (a, b) (fst (fst x), b) e on_ /\ snd x = if on_ then Some r else None) \/
   (exists k s s' r' e1 e2, kind_says t k /\ a_header t /\ head_says b t s e1 true /\ read_to (entry_says known source context Member OneOf k b) r s s' r' e2 /\
      fst (fst x) = with_section t s' a /\ snd x = Some r' /\ e = (e1 ++ e2)%list) \/
   (exists k s, kind_says t k /\ a_header t /\ head_says b t s e false /\ fst (fst x) = a /\ snd x = None)).
Lemma type_step_reads : forall t r a b, b <> UndefinedBT -> P t -> Forall P r -> single_text a -> reads (type_step source context n t r (a, b)) (step_says t r a b).
Proof.
  intros t r a b Nb Pt Pr Sg. destruct (all_read known source context Small n) as (IM & IO & IS). destruct (kind_cases t) as [(k & K & E)|[N E]].
  - assert (M : member_nested_type t = kind_section k) by (unfold member_nested_type; rewrite E; now destruct k).
    assert (Q : forall s, type_step source context n t r (a, b) s = andthen (header_section source context n (kind_section k) b t r s) (fun '(x, rest, s) => Val ((keep_section t x a, b), rest, s))).
    { intros s. unfold type_step. rewrite M. assert (Rb : forall ty, resolve t ty b = b) by (intros ty; destruct b; [now elim Nb|reflexivity..]). destruct k; cbn [kind_section]; now rewrite Rb. }
    destruct (is_header t) eqn:Hd.
    + assert (Hh : a_header t) by now apply header_iff. 
      assert (W : forall x0, reads (walk_to (section_step source context (parse_member source context n) (parse_one_of source context n) (kind_section k) b) r x0)
        (fun x e => read_to (entry_says known source context Member OneOf k b) r x0 (fst x) (snd x) e)).
      { intros x0. apply walk_to_reads. intros u x I. exact (entry_reads known source context Small _ _ Member OneOf P (deep_fits source n) IM IO k b u x (proj1 (Forall_forall _ _) Pr u I)). }
      assert (G : reads (fun s : st => andthen (section_head b t s) (fun '(x, s) => (fun (x : msection melement * bool) s =>
          if snd x then andthen (walk_to (section_step source context (parse_member source context n) (parse_one_of source context n) (kind_section k) b) r (fst x) s)
            (fun '(x, s) => (fun (x : msection melement * list tree) s => Val ((keep_section t (fst x) a, b), Some (snd x), s)) x s)
          else Val ((keep_section t (fst x) a, b), None, s)) x s))
        (fun y e => exists x e1 e2, head_says b t (fst x) e1 (snd x) /\
          (if snd x : bool then exists z f1 f2, read_to (entry_says known source context Member OneOf k b) r (fst x) (fst z) (snd z) f1 /\ (y = ((keep_section t (fst z) a, b), Some (snd z)) /\ f2 = []) /\ e2 = (f1 ++ f2)%list
           else y = ((keep_section t (fst x) a, b), None) /\ e2 = []) /\ e = (e1 ++ e2)%list)).
      { apply (reads_bind (fun (x : msection melement * bool) y e2 => if snd x : bool then exists z f1 f2, read_to (entry_says known source context Member OneOf k b) r (fst x) (fst z) (snd z) f1 /\ (y = ((keep_section t (fst z) a, b), Some (snd z)) /\ f2 = []) /\ e2 = (f1 ++ f2)%list
           else y = ((keep_section t (fst x) a, b), None) /\ e2 = []) (head_reads known b t)).
        intros [x0 []] e _; cbn [fst snd]; [|apply reads_val].
        apply (reads_bind (fun (z : msection melement * list tree) (y : members * option (list tree)) f2 => y = ((keep_section t (fst z) a, b), Some (snd z)) /\ f2 = []) (W x0)). intros z f1 _. apply reads_val. }
      refine (reads_fun _ _ (reads_ext _ _ G _) _).
      * intros [[l b'] o] e. unfold step_says. cbn [fst snd]. split.
        -- intros ([x0 []] & e1 & e2 & H & R & ->); cbn [fst snd] in *.
           ++ destruct R as ([s' r'] & f1 & f2 & R & [E1 ->] & ->). cbn [fst snd] in *. injection E1 as -> -> ->. split; [reflexivity|]. right. left.
              exists k, x0, s', r', e1, f1. rewrite app_nil_r, with_keep. auto 8.
           ++ destruct R as [E1 ->]. injection E1 as -> -> ->. split; [reflexivity|]. right. right. exists k, x0. rewrite app_nil_r. split; [exact K|]. split; [exact Hh|]. split; [exact H|]. split; [|reflexivity]. inversion H; subst. reflexivity.
        -- intros (-> & [(Ns & _)|[(k' & s & s' & r' & e1 & e2 & K' & _ & H & R & -> & -> & ->)|(k' & s & K' & _ & H & -> & ->)]]).
           ++ elim Ns. now exists k.
           ++ pose proof (kind_unique _ _ _ K K') as <-. exists (s, true), e1, e2. cbn [fst snd]. split; [exact H|]. split; [|reflexivity]. exists (s', r'), e2, []. cbn [fst snd]. rewrite with_keep, app_nil_r. auto.
           ++ exists (s, false), e, []. cbn [fst snd]. rewrite app_nil_r. split; [exact H|]. split; [|reflexivity]. split; [|reflexivity]. inversion H; subst. reflexivity.
      * intros s. rewrite Q. unfold header_section. rewrite Hd. destruct (section_head b t s) as [[[y []] s1]| | |]; try reflexivity. cbn [andthen fst snd].
        destruct (walk_to _ r y s1) as [[[z rest] s2]| | |]; reflexivity.
    + refine (reads_fun (fun _ => Thrown) _ (reads_fail known Thrown _ _ _) _); [discriminate| |intros s; rewrite Q; unfold header_section; now rewrite Hd].
      assert (Nh : ~ a_header t) by (intros H; apply header_iff in H; congruence).
      intros [[l b'] o] e (_ & [(Ns & _)|[(k' & s & s' & r' & e1 & e2 & _ & Hh & _)|(k' & s & _ & Hh & _)]]); [elim Ns; now exists k|contradiction..].
  - assert (Q : forall s, type_step source context n t r (a, b) s =
      andthen (member_step source context (parse_member source context n) (parse_one_of source context n) (parse_section source context n) t (a, b) s) (fun '(a, on, s) => Val (a, if on : bool then Some r else None, s))).
    { intros s. unfold type_step, member_step, member_nested_type. rewrite E. cbn [or_else].
      pose proof (SectionsItems.member_kind t) as M. unfold type_section_nested_type in M. destruct M as [(_ & _ & ->)|[(_ & _ & ->)|(_ & _ & ->)]]; reflexivity. }
    assert (M := step_reads known source context Small _ _ _ Member OneOf Section_ P (deep_fits source n) IM IO IS t (a, b) Pt Sg).
    assert (G : reads (fun s => andthen (member_step source context (parse_member source context n) (parse_one_of source context n) (parse_section source context n) t (a, b) s)
       (fun '(x, s) => (fun (x : members * bool) s => Val (fst x, (if snd x then Some r else None), s)) x s))
       (fun y e => exists x e1 e2, node_says t (a, b) (fst x) e1 (snd x) /\ (y = (fst x, if snd x then Some r else None) /\ e2 = []) /\ e = (e1 ++ e2)%list)).
    { apply (reads_bind (fun (x : members * bool) (y : members * option (list tree)) e2 => y = (fst x, if snd x then Some r else None) /\ e2 = []) M). intros x e _. apply reads_val. }
    refine (reads_fun _ _ (reads_ext _ _ G _) _).
    + intros [[l b'] o] e. unfold step_says. cbn [fst snd]. split.
      * intros ([[l1 b1] on_] & e1 & e2 & H & [E1 ->] & ->). cbn [fst snd] in *. injection E1 as -> -> ->. rewrite app_nil_r. pose proof (node_base _ _ _ _ _ _ _ Nb H) as ->. split; [reflexivity|]. left. split; [exact N|]. now exists on_.
      * intros (-> & [(_ & on_ & H & ->)|[(k & s & s' & r' & e1 & e2 & K & _)|(k & s & K & _)]]); [|elim N; now exists k..]. exists ((l, b), on_), e, []. cbn [fst snd]. rewrite app_nil_r. auto.
    + intros s. rewrite Q. now destruct (member_step _ _ _ _ _ t (a, b) s) as [[[y []] s1]| | |].
Qed.
Lemma step_single : forall t r a b x e, step_says t r a b x e -> single_text a -> single_text (fst (fst x)).
Proof.
  intros t r a b [[l b'] o] e (_ & [(_ & on_ & H & _)|[(k & s & s' & r' & e1 & e2 & K & _ & Hd & R & El & _)|(k & s & K & _ & Hd & El & _)]]) Sg; cbn [fst snd] in *.
  - exact (node_single known source context Member OneOf Section_ no_blocks t (a, b) (l, b) e on_ Sg H).
  - subst l. apply read_to_class in R. apply head_section_class in Hd. rewrite <- R in Hd. destruct s' as [[] d v es m k0]; cbn [with_section]; cbn [sc_class] in Hd; try exact Sg; try (now elim Hd); intros T; unfold told in T; rewrite last_snoc in T; discriminate.
  - now subst l.
Qed.
Lemma step_rest : forall t r a b x e rest, step_says t r a b x e -> snd x = Some rest -> exists d, r = (d ++ rest)%list.
Proof.
  intros t r a b [[l b'] o] e rest (_ & [(_ & on_ & H & E)|[(k & s & s' & r' & e1 & e2 & K & _ & Hd & R & El & E & _)|(k & s & K & _ & Hd & El & E)]]) E'; cbn [fst snd] in *; subst o.
  - destruct on_; [|discriminate]. injection E' as ->. now exists [].
  - injection E' as ->. exact (read_to_rest _ _ _ _ _ _ R).
  - discriminate.
Qed.
Lemma below_iff : forall b t r a l rest e, below b (t :: r) a l rest e <->
  exists x e1 e2, step_says t r a b x e1 /\ (match snd x with Some r' => below b r' (fst (fst x)) l rest e2 | None => l = fst (fst x) /\ rest = t :: r /\ e2 = [] end) /\ e = (e1 ++ e2)%list.
Proof.
  intros b t r a l rest e. split.
  - intros H. inversion H as [|t0 r0 a0 l1 l2 rest0 e1 e2 N S1 B|t0 r0 a0 l1 e1 N S1|t0 r0 k s s' r' a0 l1 rest0 e1 e2 e3 Hh K Hd R B|t0 r0 k s a0 e1 Hh K Hd]; subst.
    + exists ((l1, b), Some r), e1, e2. unfold step_says. cbn [fst snd]. split; [|auto]. split; [reflexivity|]. left. split; [exact N|]. now exists true.
    + exists ((l, b), None), e, []. unfold step_says. cbn [fst snd]. rewrite app_nil_r. split; [|auto]. split; [reflexivity|]. left. split; [exact N|]. now exists false.
    + exists ((with_section t s' a, b), Some r'), (e1 ++ e2)%list, e3. unfold step_says. cbn [fst snd]. rewrite app_assoc. split; [|auto]. split; [reflexivity|]. right. left. exists k, s, s', r', e1, e2. auto 8.
    + exists ((l, b), None), e, []. unfold step_says. cbn [fst snd]. rewrite app_nil_r. split; [|auto]. split; [reflexivity|]. right. right. exists k, s. auto.
  - intros ([[l1 b'] o] & e1 & e2 & (E & [(N & on_ & H & Eo)|[(k & s & s' & r' & f1 & f2 & K & Hh & Hd & R & El & Eo & ->)|(k & s & K & Hh & Hd & El & Eo)]]) & M & ->); cbn [fst snd] in *; subst b' o.
    + destruct on_; [now apply (below_next known source context b t r a l1)|]. destruct M as (-> & -> & ->). rewrite app_nil_r. now apply below_stop.
    + subst l1. rewrite <- app_assoc. now apply (below_section known source context b t r k s s' r').
    + subst l1. destruct M as (-> & -> & ->). rewrite app_nil_r. now apply (below_refused known source context b t r k s).
Qed.
Lemma type_walk_reads : forall m l a b, List.length l < m -> b <> UndefinedBT -> Forall P l -> single_text a ->
  reads (type_walk source context n m l (a, b)) (fun x e => below b l a (fst (fst x)) (snd x) e /\ snd (fst x) = b).
Proof.
  induction m as [|m IH]; intros l a b L Nb Pl Sg; [lia|]. cbn [type_walk]. destruct l as [|t r].
  - refine (reads_ext _ _ (reads_val known ((a, b), [])) _). intros [[l b'] rest] e. cbn [fst snd]. split; [intros [E ->]; injection E as -> -> ->; split; [constructor|reflexivity]|].
    intros [Q ->]. inversion Q; subst. split; reflexivity.
  - inversion Pl as [|t0 r0 Pt Pr]; subst. cbn [List.length] in L.
    assert (G : reads (fun s => andthen (type_step source context n t r (a, b) s) (fun '(x, s) => (fun (x : members * option (list tree)) s =>
        match snd x with Some rest => type_walk source context n m rest (fst x) s | None => Val (fst x, t :: r, s) end) x s))
      (fun y e => exists x e1 e2, step_says t r a b x e1 /\ (match snd x with Some rest => below b rest (fst (fst x)) (fst (fst y)) (snd y) e2 /\ snd (fst y) = b | None => y = (fst x, t :: r) /\ e2 = [] end) /\ e = (e1 ++ e2)%list)).
    { apply (reads_bind (fun (x : members * option (list tree)) y e2 => match snd x with Some rest => below b rest (fst (fst x)) (fst (fst y)) (snd y) e2 /\ snd (fst y) = b | None => y = (fst x, t :: r) /\ e2 = [] end)
        (type_step_reads t r a b Nb Pt Pr Sg)).
      intros [[l1 b1] [rest|]] e St; cbn [fst snd].
      - pose proof (step_rest _ _ _ _ _ _ rest St eq_refl) as [d ->]. rewrite app_length in L. apply Forall_app in Pr as [_ Pr]. pose proof (step_single _ _ _ _ _ _ St Sg) as S1. cbn [fst] in S1.
        assert (b1 = b) as -> by exact (proj1 St). apply IH; [lia|assumption..].
      - apply reads_val. }
    refine (reads_fun _ _ (reads_ext _ _ G _) _).
    + intros [[l b'] rest] e. cbn [fst snd]. split.
      * intros (x & e1 & e2 & St & M & ->). destruct (snd x) as [r'|] eqn:Ex.
        -- destruct M as [M ->]. split; [|reflexivity]. apply below_iff. exists x, e1, e2. rewrite Ex. auto.
        -- destruct M as [E ->]. injection E as E1 ->. split; [|rewrite <- (proj1 St); now rewrite <- E1]. apply below_iff. exists x, e1, []. rewrite Ex, <- E1. cbn [fst]. auto.
      * intros [B ->]. apply below_iff in B as (x & e1 & e2 & St & M & ->). exists x, e1, e2. split; [exact St|]. split; [|reflexivity]. destruct (snd x) as [r'|]; [now split|]. destruct M as (-> & -> & ->). split; [|reflexivity].
        destruct St as [E _]. destruct x as [[l1 b1] o]. cbn [fst snd] in *. now subst.
    + intros s. destruct (type_step source context n t r (a, b) s) as [[[y [rest|]] s1]| | |]; reflexivity.
Qed.
End Below.
End Named.
