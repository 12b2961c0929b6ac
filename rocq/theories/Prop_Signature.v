(** C74: signatures of sections *)
From Verif Require Import Base ByteBuffer StringUtility StringSpec StringProofs Signature SignatureSpec SignatureProofs SignatureAttributes SignatureWhole.
Local Open Scope string_scope.
Local Open Scope nat_scope.

(** every text has exactly one reading, and parseSignature finds it; it never loops and never throws *)
Theorem C74_signature : forall tr text given, exists o, signed (shape_of tr) text given o /\
  (forall o', signed (shape_of tr) text given o' -> o' = o) /\
  forall fuel, String.length text + String.length given < fuel ->
    parse_signature fuel tr text given = match o with Some (p, w) => Val (sig_of p, w) | None => Wild end.
Proof.
  intros tr text given. destruct (signed_total tr text given) as [o H]. exists o. split; [exact H|]. split; [|now apply signed_ok].
  intros o' H'. assert (E := signed_ok _ _ _ _ H _ (Nat.lt_succ_diag_r _)). rewrite (signed_ok _ _ _ _ H' _ (Nat.lt_succ_diag_r _)) in E.
  destruct o as [[[a b c d e f] w]|], o' as [[[a' b' c' d' e' f'] w']|]; try discriminate; [|reflexivity].
  cbn in E. now injection E as -> -> -> -> -> -> ->.
Qed.
Print Assumptions C74_signature.

(** the behaviour is undefined exactly for attributes of which the last is empty, or which are not closed and end with a comma *)
Inductive broken : string -> Prop :=
| broken_empty : forall s d r, item "(" s "" d r -> d <> Some ","%char -> broken s
| broken_comma : forall s p r, item "(" s (p +++ ",") None r -> broken s
| broken_later : forall s p r, item "(" s p (Some ","%char) r -> broken r -> broken s.
Theorem C74_undefined : forall fuel s, String.length s < fuel -> parse_attributes fuel (String "(" s) = Wild <-> broken s.
Proof.
  intros fuel s L. destruct (attributed_total s) as [o O].
  assert (E : parse_attributes fuel (String "(" s) = match o with Some (l, r) => Val (l, trim r) | None => Wild end).
  { unfold parse_attributes. change (at_ (String "(" s) 0) with (Val "("%char). cbn [andthen Ascii.eqb Bool.eqb negb].
    rewrite (attributes_loop_ok _ _ O) by lia. now destruct o as [[l r]|]. }
  rewrite E. split.
  - intros W. assert (No : o = None) by (destruct o as [[l r]|]; [discriminate|reflexivity]). clear E W L. revert No.
    induction O as [s p d r a I D N Q T|s p r a o I T O IH|s d r I D|s p r I]; intros No; try discriminate.
    + destruct o as [[l r']|]; [discriminate|]. eapply broken_later; eauto.
    + eapply broken_empty; eauto.
    + eapply broken_comma; eauto.
  - intros B. assert (A : attributed s None).
    { clear E O L o. induction B as [s d r I D|s p r I|s p r I _ IH]; [eapply attributed_empty; eauto|eapply attributed_comma; eauto|].
      exact (attributed_more _ _ _ _ _ I (trim_trims p) IH). }
    assert (X := attributes_loop_ok _ _ A _ _ [] L L). rewrite (attributes_loop_ok _ _ O _ _ [] L L) in X. destruct o as [[l r]|]; [discriminate|reflexivity].
Qed.
Print Assumptions C74_undefined.
Theorem C74_empty_refuted : forall tr, has_identifier tr = false -> has_values tr = false -> has_attributes tr = true -> content_delimiter tr = "-" ->
  forall fuel s, In s ["()"; "(a,)"; "("; "(a,"; "([x,"] -> 9 < fuel -> parse_signature fuel tr "" s = Wild.
Proof.
  intros [i v a c d cd] I V A C fuel s Hs F. cbn in I, V, A, C. subst.
  assert (E : parse_signature fuel (Traits false false true c d "-") "" s = parse_signature 10 (Traits false false true c d "-") "" s).
  { destruct (C74_signature (Traits false false true c d "-") "" s) as (o & _ & _ & H).
    assert (L : String.length "" + String.length s < 10) by (cbn in Hs; decompose [or] Hs; subst; cbn; lia || contradiction).
    now rewrite (H fuel ltac:(lia)), (H 10 L). }
  rewrite E. cbn in Hs. destruct c; decompose [or] Hs; subst; try contradiction; reflexivity.
Qed.
Print Assumptions C74_empty_refuted.

(** no text is lost before the attributes: the identifier and the values are what stands in front of the rest *)
Theorem C74_nothing_lost : forall t s id s' w, identified t s id s' w -> exists a b, s = a +++ s' +++ b /\ all white b /\ (with_id t = false -> a = "") /\
  trims a id.
Proof.
  intros t s id s' w H. destruct H as [s D|s s1 p r id s' I N T Tk Ti Tr].
  - exists "", "". repeat split; [now rewrite append_nil_r|constructor|]. exists "", "". repeat split; try constructor; discriminate || now intros [].
  - apply taken_split in Tk. subst s1. assert (No := trims_no_tail _ _ T). apply no_tail_suffix in No.
    destruct (no_tail_trims _ _ No Tr) as [x ->]. destruct Tr as (x' & y' & Er & Wx & Wy & Hd & Tl).
    destruct T as (a & b & E & Wa & Wb & Hd' & Tl'). exists (a +++ p +++ x), b. split; [now rewrite E, !append_assoc|]. split; [exact Wb|].
    split; [intros X; rewrite I in X; discriminate|].
    apply trims_iff. apply trims_iff in Ti. subst id.
    assert (x = x' /\ y' = "") as [-> ->].
    { destruct y' as [|y0 y'].
      - rewrite append_nil_r in Er. assert (L := f_equal String.length Er). rewrite !length_append in L.
        destruct (app_cut x s' x' s' Er) as [-> _]; [lia|now split].
      - exfalso. destruct (last_char y0 y') as (q & z & Z). rewrite Z in Er, Wy. apply (No (x' +++ s' +++ q) z).
        + now rewrite Er, !append_assoc.
        + apply all_app in Wy as [_ Wy]. now apply all_cons in Wy as [Wy _]. }
    destruct (trim_spec p) as (u & v & Eu & Wu & Wv & Hu & Hv). symmetry. apply (trimmed_unique (a +++ u) _ _ (v +++ x')).
    split; [rewrite Eu at 1; now rewrite !append_assoc|]. split; [now apply all_app|]. split; [now apply all_app|now split].
Qed.
Print Assumptions C74_nothing_lost.

(** ** plain signatures *)
Definition special : list ascii := ["*"; "_"; "`"; ":"; "("; ")"; "["; "]"; ","; "-"; "010"]%char.
(** a word: trimmed, and without any special char *)
Definition word (w : string) : Prop := w <> "" /\ trims w w /\ all (fun c => ~ In c special) w.
Fixpoint join (l : list string) : string := match l with [] => "" | [w] => w | w :: l => w +++ ", " +++ join l end.
Definition every_part : traits := Traits true true true true ":" "-".
Definition line_of (id : string) (vs attrs : list string) (c : string) : string :=
  id +++ ": " +++ join vs +++ " (" +++ join attrs +++ ") - " +++ c.

Lemma all_imp : forall (P Q : ascii -> Prop) s, (forall c, P c -> Q c) -> all P s -> all Q s.
Proof. intros P Q s H. unfold all. apply Forall_impl. exact H. Qed.
Lemma plain_special : forall c l, ~ In c special -> incl l special -> ~ In c l.
Proof. intros c l N I X. apply N, I, X. Qed.
Lemma taken_plain : forall esc (stop : string -> Prop) w r, all (fun c => ~ In c esc /\ forall s, ~ stop (String c s)) w ->
  (exists c s, r = String c s /\ ~ In c esc /\ stop r) -> taken esc stop (w +++ r) w r.
Proof.
  intros esc stop w r H (c & s & E & N & Hs). induction w as [|x w IH]; cbn [append].
  - rewrite E in *. now constructor.
  - apply all_cons in H as [[Hx Hn] Hw]. change (String x w) with (String x "" +++ w). eapply taken_step; [now apply piece_plain|now right; apply Hn|now apply IH].
Qed.
Definition no_head (s : string) : Prop := forall c r, s = String c r -> ~ white c.
Lemma trims_pad : forall a t b, all white a -> all white b -> no_head t -> no_tail t -> trims (a +++ t +++ b) t.
Proof. intros a t b Wa Wb H T. exists a, b. repeat split; auto. Qed.
Lemma trims_self : forall t, no_head t -> no_tail t -> trims t t.
Proof. intros t H T. assert (X := trims_pad "" t "" ltac:(constructor) ltac:(constructor) H T). now rewrite append_nil_r in X. Qed.
Lemma self_ends : forall t, trims t t -> no_head t /\ no_tail t.
Proof. intros t (a & b & _ & _ & _ & H & T). now split. Qed.
Lemma no_tail_app : forall a b, b <> "" -> no_tail b -> no_tail (a +++ b).
Proof.
  intros a b N T q c E. destruct b as [|x b]; [congruence|]. destruct (last_char x b) as (q' & z & E'). rewrite E' in *.
  rewrite <- append_assoc in E. apply snoc_inj in E as [_ <-]. now apply (T q').
Qed.
Lemma no_head_app : forall a b, a <> "" -> no_head a -> no_head (a +++ b).
Proof. intros [|x a] b N H c r E; [congruence|]. cbn in E. injection E as <- _. now apply (H x a). Qed.
Lemma white_space : all white " ".
Proof. repeat constructor. Qed.
Lemma join_word : forall l, l <> [] -> Forall word l -> join l <> "" /\ no_head (join l) /\ no_tail (join l) /\ all (fun c => In c special -> c = ","%char) (join l).
Proof.
  intros l N H. induction H as [|w l (Nw & Tw & Aw) Hl IH]; [congruence|]. apply self_ends in Tw as [Hh Ht].
  assert (Aw' : all (fun c => In c special -> c = ","%char) w) by (refine (all_imp _ _ _ _ Aw); intros c X Y; tauto).
  destruct l as [|w' l]; [now split|]. destruct (IH ltac:(discriminate)) as (N' & H' & T' & A'). cbn [join] in *. repeat split.
  - now destruct w.
  - now apply no_head_app.
  - do 2 (apply no_tail_app; [now destruct w' || discriminate|]). exact T'.
  - apply all_app. split; [exact Aw'|]. apply all_app. split; [|exact A']. apply all_cons. split; [auto|]. apply all_cons. split; [|constructor].
    cbn. intros X. decompose [or] X; try discriminate; contradiction.
Qed.
Lemma word_bare : forall w, all (fun c => In c special -> c = ","%char) w -> bare w w.
Proof.
  intros w A. apply bare_other. left. intros r ->. apply all_cons in A as [A _]. assert (X : backtick = ","%char) by (apply A; cbn; auto). discriminate.
Qed.
Lemma word_plain : forall w esc (stop : string -> Prop), word w -> incl esc special -> (forall c s, stop (String c s) -> In c special) ->
  all (fun c => ~ In c esc /\ forall s, ~ stop (String c s)) w.
Proof.
  intros w esc stop (_ & _ & A) I S'. refine (all_imp _ _ _ _ A). intros c X. split; [intros Y; apply X, I, Y|intros s Y; now apply X, (S' c s)].
Qed.
Lemma every_id_stop : forall c s, id_stop every_part (String c s) <-> In c [":"; "("; "-"]%char.
Proof.
  intros c s. unfold id_stop, opens_values, opens_attributes, opens_content. cbn [every_part shape_of with_values with_attributes with_content before_values before_content has_values has_attributes has_content values_delimiter content_delimiter].
  rewrite !starts_char. cbn. intuition congruence.
Qed.
Lemma every_value_stop : forall c s, (starts "," (String c s) \/ value_stop every_part (String c s)) <-> In c [","; "("; "-"]%char.
Proof.
  intros c s. unfold value_stop, opens_attributes, opens_content. cbn [every_part shape_of with_attributes with_content before_content has_attributes has_content content_delimiter].
  rewrite !starts_char. cbn. intuition congruence.
Qed.
Ltac sub_special := intros ? X; cbn in X; cbn; intuition congruence.
Lemma listed_words : forall vs r, vs <> [] -> Forall word vs -> r <> "" -> no_tail r -> listed (value_stop every_part) (join vs +++ " (" +++ r) vs ("(" +++ r).
Proof.
  intros vs r N H. induction H as [|w vs W Hl IH]; intros Nr Tr; [congruence|].
  assert (Pl : all (fun c => ~ In c [backtick] /\ forall s, ~ (starts "," (String c s) \/ value_stop every_part (String c s))) w).
  { apply (word_plain w [backtick] (fun s => starts "," s \/ value_stop every_part s)); [exact W|sub_special|]. intros c s X. apply every_value_stop in X. cbn in X; cbn; intuition congruence. }
  destruct W as (Nw & Tw & Aw). destruct vs as [|w' vs].
  - cbn [join]. assert (Kw : [w] = kept w) by (destruct w; [congruence|reflexivity]). rewrite Kw.
    apply (listed_last _ _ (w +++ " ") _ w).
    + change (w +++ " (" +++ r) with (w +++ " " +++ String "(" r). rewrite <- append_assoc.
      apply (taken_plain [backtick] (fun s => starts "," s \/ value_stop every_part s)).
      * apply all_app. split; [exact Pl|]. apply all_cons. split; [|constructor]. split; [cbn; intros [X|[]]; discriminate|].
        intros s X. apply every_value_stop in X. cbn in X. decompose [or] X; try discriminate; contradiction.
      * exists "("%char, r. split; [reflexivity|]. split; [cbn; intros [X|[]]; discriminate|]. apply every_value_stop. cbn. auto.
    + intros (x & E). discriminate.
    + apply self_ends in Tw as [Hh Ht]. exact (trims_pad "" w " " ltac:(constructor) white_space Hh Ht).
  - cbn [join] in *. rewrite !append_assoc. change (", " +++ join (w' :: vs) +++ " (" +++ r) with (String "," (" " +++ join (w' :: vs) +++ " (" +++ r)).
    destruct (join_word (w' :: vs) ltac:(discriminate) Hl) as (Nj & Hj & Tj & Aj).
    eapply (listed_more _ _ w _ w w).
    + apply (taken_plain [backtick] (fun s => starts "," s \/ value_stop every_part s)); [exact Pl|]. exists ","%char. eexists. split; [reflexivity|]. split; [cbn; intros [X|[]]; discriminate|]. apply every_value_stop. cbn. auto.
    + exact Tw.
    + apply word_bare. refine (all_imp _ _ _ _ Aw). intros c X Y. tauto.
    + assert (X := trims_pad " " (join (w' :: vs) +++ " (" +++ r) "" white_space ltac:(constructor)). rewrite append_nil_r in X. apply X.
      * now apply no_head_app.
      * apply no_tail_app; [discriminate|]. now apply no_tail_app.
    + apply IH; [discriminate|assumption|assumption].
Qed.
Lemma item_word : forall d r w h, all (fun c => ~ In c ["`"; "["; "("; ")"; ","]%char) w -> In d [","; ")"]%char -> item h (w +++ String d r) w (Some d) r.
Proof.
  intros d r w. induction w as [|x w IH]; intros h A D; cbn [append].
  - destruct D as [<-|[<-|[]]]; constructor.
  - apply all_cons in A as [Ax Aw]. eapply item_char; [|apply piece_plain|now apply IH].
    + intros X. apply Ax. cbn in *. tauto.
    + intros X. apply Ax. cbn in *. tauto.
Qed.
Lemma word_no_bracket : forall p w, all white p -> word w -> all (fun c => ~ In c ["`"; "["; "("; ")"; ","]%char) (p +++ w).
Proof.
  intros p w Wp (_ & _ & A). apply all_app. split; [|refine (all_imp _ _ _ _ A); intros c X Y; apply X; cbn in Y; cbn; tauto].
  refine (all_imp _ _ _ _ Wp). intros c X Y. unfold white in X. cbn in Y. decompose [or] Y; subst; try contradiction; cbn in X; decompose [or] X; discriminate || contradiction.
Qed.
Lemma attributed_words : forall l pad r, l <> [] -> Forall word l -> all white pad -> attributed (pad +++ join l +++ ")" +++ r) (Some (l, r)).
Proof.
  intros l pad r N H. revert pad. induction H as [|w l W Hl IH]; intros pad Wp; [congruence|].
  assert (B := word_no_bracket pad w Wp W). assert (W' := W). destruct W' as (Nw & Tw & Aw). apply self_ends in Tw as [Hh Ht].
  assert (Kw : kept w = [w]) by (destruct w; [congruence|reflexivity]).
  assert (Tp : trims (pad +++ w) w). { assert (X := trims_pad pad w "" Wp ltac:(constructor) Hh Ht). now rewrite append_nil_r in X. }
  destruct l as [|w' l].
  - cbn [join]. rewrite <- Kw. rewrite <- append_assoc. eapply attributed_last; [apply item_word; [exact B|cbn; auto]|discriminate| | |exact Tp].
    + destruct pad; [now destruct w|discriminate].
    + intros q E. rewrite E in B. apply all_app in B as [_ B]. apply all_cons in B as [B _]. apply B. cbn. tauto.
  - cbn [join] in *. specialize (IH ltac:(discriminate) " " white_space).
    assert (X := attributed_more (pad +++ w +++ String "," (" " +++ join (w' :: l) +++ ")" +++ r)) (pad +++ w) _ _ _ ltac:(rewrite <- append_assoc; apply item_word; [exact B|cbn; auto]) Tp IH).
    cbn iota in X. rewrite Kw in X. rewrite !append_assoc. exact X.
Qed.

(** the parts of a plain signature are found, and nothing is warned about *)
Theorem C74_parts : forall id vs attrs c, word id -> vs <> [] -> Forall word vs -> attrs <> [] -> Forall word attrs ->
  c <> "" -> trims c c -> ~ has "010" c ->
  (forall fuel, String.length (line_of id vs attrs c) < fuel ->
    parse_signature fuel every_part (line_of id vs attrs c) "" = Val (Sig id (join vs) vs attrs c "", [])) /\
  (forall rest fuel, String.length (line_of id vs attrs c) + S (String.length rest) < fuel ->
    parse_signature fuel every_part (line_of id vs attrs c +++ String "010" rest) "" = Val (Sig id (join vs) vs attrs c rest, [])).
Proof.
  intros id vs attrs c Wi Nv Wv Na Wa Nc Tc Lc.
  destruct (join_word vs Nv Wv) as (Njv & Hjv & Tjv & Ajv). destruct (join_word attrs Na Wa) as (Nja & Hja & Tja & Aja).
  destruct (self_ends _ Tc) as [Hc Tlc]. assert (Wi' := Wi). destruct Wi' as (Ni & Ti & Ai). destruct (self_ends _ Ti) as [Hi Tli].
  set (R := join attrs +++ ") - " +++ c). assert (NR : R <> "") by (unfold R; destruct (join attrs); [congruence|discriminate]).
  assert (TR : no_tail R) by (unfold R; do 2 (apply no_tail_app; [discriminate || assumption|]); exact Tlc).
  assert (Line : line_of id vs attrs c = id +++ ": " +++ join vs +++ " (" +++ R) by reflexivity.
  assert (TL : no_tail (line_of id vs attrs c)).
  { rewrite Line. apply no_tail_app; [discriminate|]. apply no_tail_app; [now destruct (join vs)|]. apply no_tail_app; [discriminate|]. now apply no_tail_app. }
  assert (HL : no_head (line_of id vs attrs c)) by (rewrite Line; now apply no_head_app).
  assert (NL : ~ has "010" (line_of id vs attrs c)).
  { assert (J : forall j, all (fun c => In c special -> c = ","%char) j -> ~ has "010" j).
    { intros j A X. unfold all in A. rewrite Forall_forall in A. specialize (A _ X ltac:(cbn; tauto)). discriminate. }
    unfold line_of. rewrite !has_app. intros X.
    assert (K : forall s, In s [": "; " ("; ") - "] -> ~ has "010" s) by (intros s Y; cbn in Y; decompose [or] Y; subst; try contradiction; intros Z; cbn in Z; decompose [or] Z; discriminate || contradiction).
    destruct X as [X|[X|[X|[X|[X|[X|X]]]]]]; try (now apply (J _ Ajv)); try (now apply (J _ Aja)); try (now apply Lc); try (eapply K; [|exact X]; cbn; tauto).
    unfold all in Ai. rewrite Forall_forall in Ai. apply (Ai _ X). cbn. tauto. }
  assert (G : forall text rest, subject_of text "" (line_of id vs attrs c) rest -> signed (shape_of every_part) text "" (Some (Parts id (join vs) vs attrs c rest, []))).
  { intros text rest Su.
    assert (Id : identified (shape_of every_part) (line_of id vs attrs c) id (":" +++ " " +++ join vs +++ " (" +++ R) (match id with EmptyString => ["no identifier specified"] | _ => [] end)).
    { eapply identified_by; [reflexivity|rewrite Line; now destruct id|apply trims_self; eassumption| |exact Ti|].
      - rewrite Line. change (id +++ ": " +++ join vs +++ " (" +++ R) with (id +++ ":" +++ " " +++ join vs +++ " (" +++ R).
        apply (taken_plain id_esc (id_stop every_part)).
        + apply (word_plain id id_esc (id_stop every_part)); [exact Wi|sub_special|]. intros x s X. apply every_id_stop in X. cbn in X; cbn; intuition congruence.
        + do 2 eexists. split; [reflexivity|]. split; [cbn; intuition discriminate|]. apply every_id_stop. now left.
      - apply trims_self; [intros x y E; injection E as <- _; cbn; intuition discriminate|].
        apply no_tail_app; [discriminate|]. apply no_tail_app; [now destruct (join vs)|]. apply no_tail_app; [discriminate|]. now apply no_tail_app. }
    assert (Ni' : (match id with EmptyString => ["no identifier specified"] | _ => [] end) = []) by now destruct id. rewrite Ni' in Id.
    assert (Va : valued (shape_of every_part) (":" +++ " " +++ join vs +++ " (" +++ R) (join vs) vs ("(" +++ R) (match vs with [] => ["no value(s) specified"] | _ => [] end)).
    { apply (valued_by (shape_of every_part) _ (" " +++ join vs +++ " (" +++ R) vs ("(" +++ R) ("(" +++ R) (join vs +++ " ") (join vs)).
      - discriminate. - reflexivity. - intros [x E]. discriminate.
      - assert (X := trims_pad " " (join vs +++ " (" +++ R) "" white_space ltac:(constructor)). rewrite append_nil_r in X.
        rewrite append_assoc. apply X; [now apply no_head_app|apply no_tail_app; [discriminate|now apply no_tail_app]].
      - reflexivity.
      - rewrite append_assoc. now apply listed_words.
      - apply trims_self; [intros x y E; injection E as <- _; cbn; intuition discriminate|now apply no_tail_app].
      - exact (trims_pad "" (join vs) " " ltac:(constructor) white_space Hjv Tjv).
      - now apply word_bare. }
    assert (Nv' : (match vs with [] => ["no value(s) specified"] | _ => [] end) = []) by now destruct vs. rewrite Nv' in Va.
    apply (signed_by (shape_of every_part) text "" _ rest _ _ [] _ _ _ [] attrs ("-" +++ " " +++ c) c Su Id Va).
    - eapply (characterised_by (shape_of every_part) R attrs (" - " +++ c)); [reflexivity|intros [x E]; discriminate| |].
      + exact (attributed_words attrs "" (" - " +++ c) Na Wa ltac:(constructor)).
      + assert (X := trims_pad " " ("-" +++ " " +++ c) "" white_space ltac:(constructor)). rewrite append_nil_r in X. apply X.
        * intros x y E. injection E as <- _. cbn. intuition discriminate.
        * apply no_tail_app; [discriminate|]. now apply no_tail_app.
    - apply (contained_by (shape_of every_part) (" " +++ c) c); [reflexivity|discriminate|].
      assert (X := trims_pad " " c "" white_space ltac:(constructor) Hc Tlc). now rewrite append_nil_r in X. }
  split.
  - intros fuel F. apply (signed_ok every_part _ "" (Some (Parts id (join vs) vs attrs c "", []))); [|cbn [String.length]; lia].
    apply G. apply subject_only; [exact NL|now apply trims_self].
  - intros rest fuel F. apply (signed_ok every_part _ "" (Some (Parts id (join vs) vs attrs c rest, []))).
    + apply G. eapply subject_line; [reflexivity|exact NL|now apply trims_self].
    + rewrite length_append. cbn [String.length]. lia.
Qed.
Print Assumptions C74_parts.

Example C74_witness : parse_signature 90 every_part ("id `x:y`: 1, `a, b`, `c` (enum[a, b], required (x)) - text" +++ String LF "more") "" =
  Val (Sig "id `x:y`" "1, `a, b`, `c`" ["1"; "a, b"; "`c`"] ["enum[a, b]"; "required (x)"] "text" "more", []).
Proof. reflexivity. Qed.
Example C74_warns : parse_signature 20 every_part ": (a" "" = Val (Sig "" "" [] ["a"] "" "", ["no identifier specified"; "no value(s) specified"]).
Proof. reflexivity. Qed.
(** the text behind an attribute list that is never closed is read twice *)
Example C74_unclosed : parse_signature 20 every_part "a (`b`- c" "" = Val (Sig "a" "" [] ["`b`- c"] "c" "", []).
Proof. reflexivity. Qed.
Example C74_words : word "id" /\ Forall word ["v 1"; "w"] /\ Forall word ["string"].
Proof.
  assert (W : forall w, In w ["id"; "v 1"; "w"; "string"] -> word w).
  { intros w H. cbn in H. decompose [or] H; subst; try contradiction;
      (split; [discriminate|]; split; [apply trims_iff; reflexivity|repeat (apply all_cons; split; [cbn; intuition discriminate|]); constructor]). }
  split; [apply W; cbn; tauto|]. split; repeat (apply Forall_cons; [apply W; cbn; tauto|]); apply Forall_nil.
Qed.
