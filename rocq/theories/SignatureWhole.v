From Verif Require Import Base ByteBuffer StringUtility StringSpec StringProofs Signature SignatureSpec SignatureProofs SignatureAttributes.
Local Open Scope string_scope.
Local Open Scope nat_scope.

Definition sig_of (p : parts) : signature := Sig (p_id p) (p_value p) (p_values p) (p_attributes p) (p_content p) (p_rest p).

(** the subject *)
Lemma subject_total : forall text given, exists s r, subject_of text given s r.
Proof.
  intros text [|c s]; [|do 2 eexists; constructor].
  destruct (in_dec ascii_dec LF (list_ascii_of_string text)) as [I|I].
  - apply has_split in I as (a & b & E & N). do 2 eexists. eapply subject_line; eauto using trim_trims.
  - do 2 eexists. eapply subject_only; eauto using trim_trims.
Qed.
Lemma subject_ok : forall text given s r, subject_of text given s r ->
  match given with EmptyString => let l := first_line text "" in (trim (fst l), snd l) | _ => (given, "") end = (s, r).
Proof.
  intros text given s r H. destruct H as [c s|l s r E N T|s N T]; [reflexivity|..]; unfold first_line.
  - rewrite E. rewrite (split_first_some LF _ _ N). cbn [fst snd List.last]. now rewrite (trims_trim _ _ T).
  - rewrite (split_first_none LF _ N). cbn [fst snd]. now rewrite (trims_trim _ _ T).
Qed.
Lemma subject_short : forall text given s r, subject_of text given s r -> String.length s <= String.length text + String.length given.
Proof.
  intros text given s r H. destruct H as [c s|l s r E N T|s N T]; [lia|..]; apply trims_shorter in T; [|lia].
  rewrite E, length_append. cbn. lia.
Qed.

(** the identifier *)
Lemma identified_total : forall tr s, exists id s' w, identified (shape_of tr) s id s' w.
Proof.
  intros tr s. destruct (has_identifier tr) eqn:I; [|do 3 eexists; apply identified_not; now left].
  destruct s as [|c s]; [do 3 eexists; apply identified_not; now right|].
  destruct (taken_total id_esc (id_stop tr) (id_stop_dec tr) (trim (String c s))) as (p & r & T).
  do 3 eexists. eapply identified_by; eauto using trim_trims; discriminate.
Qed.
Lemma identified_ok : forall tr s id s' w, identified (shape_of tr) s id s' w -> forall fuel, String.length s < fuel ->
  (if (has_identifier tr && negb (String.eqb s ""))%bool
   then andthen (parse_identifier fuel tr s) (fun r => Val (fst r, snd r, if String.eqb (fst r) "" then ["no identifier specified"] else []))
   else Val ("", s, [])) = Val (id, s', w).
Proof.
  intros tr s id s' w H fuel L. destruct H as [s D|s s1 p r id s' I N T Tk Ti Tr].
  - cbn [with_id shape_of] in D. destruct (has_identifier tr); [|reflexivity]. destruct D as [D| ->]; [discriminate|reflexivity].
  - cbn [with_id shape_of] in I. rewrite I. destruct (String.eqb_spec s "") as [?|_]; [congruence|]. cbn [negb andb].
    unfold parse_identifier. rewrite (trims_trim _ _ T).
    destruct (identifier_loop_ok tr _ _ _ Tk fuel "" "") as (d' & i & E & X); [apply trims_shorter in T; lia|].
    change ("" +++ s1) with s1 in E. cbn [String.length] in E. rewrite E. cbn [andthen fst snd].
    change ("" +++ p) with p. rewrite X, (trims_trim _ _ Ti), (trims_trim _ _ Tr). now destruct id.
Qed.
Lemma identified_short : forall t s id s' w, identified t s id s' w -> String.length s' <= String.length s.
Proof.
  intros t s id s' w H. destruct H as [s D|s s1 p r id s' I N T Tk Ti Tr]; [lia|].
  apply trims_shorter in T, Tr. apply taken_split in Tk. apply (f_equal String.length) in Tk. rewrite length_append in Tk. lia.
Qed.

(** the values *)
Definition no_tail (s : string) : Prop := forall q c, s = q +++ String c "" -> ~ white c.
Lemma trims_no_tail : forall s t, trims s t -> no_tail t.
Proof. intros s t (a & b & _ & _ & _ & _ & H). exact H. Qed.
Lemma no_tail_suffix : forall a b, no_tail (a +++ b) -> no_tail b.
Proof. intros a b H q c E. apply (H (a +++ q) c). now rewrite E, append_assoc. Qed.
Lemma no_tail_trims : forall r t, no_tail r -> trims r t -> exists a, r = a +++ t.
Proof.
  intros r t N (a & b & E & _ & W & _). destruct b as [|c b]; [exists a; now rewrite E, append_nil_r|].
  exfalso. destruct (last_char c b) as (q & z & Z). rewrite Z in E, W. apply (N (a +++ t +++ q) z).
  - now rewrite E, !append_assoc.
  - apply all_app in W as [_ W]. now apply all_cons in W as [W _].
Qed.
Lemma listed_suffix : forall stop s l r, listed stop s l r -> no_tail s -> exists front, s = front +++ r.
Proof.
  intros stop s l r H. induction H as [s p r v T _ _|s p r v w r1 vs r' T _ _ Tr _ IH]; intros N; apply taken_split in T; subst s.
  - now exists p.
  - change (String "," r) with ("," +++ r) in N. rewrite <- append_assoc in N. apply no_tail_suffix in N.
    destruct (no_tail_trims _ _ N Tr) as [a ->]. apply no_tail_suffix in N. destruct (IH N) as [f ->].
    exists (p +++ "," +++ a +++ f). rewrite !append_assoc. reflexivity.
Qed.
Lemma valued_total : forall tr s, exists v vs s' w, valued (shape_of tr) s v vs s' w.
Proof.
  intros tr s. destruct s as [|c s]; [do 4 eexists; apply valued_not; now left|].
  destruct (has_values tr) eqn:V; [|do 4 eexists; apply valued_not; now right; left].
  destruct (starts_dec "(" (String c s)) as [P|P]; [do 4 eexists; apply valued_not; tauto|].
  assert (X : forall s1, String c s = (if has_identifier tr then String (values_delimiter tr) s1 else s1) -> exists v vs s' w, valued (shape_of tr) (String c s) v vs s' w).
  { intros s1 E. destruct (listed_total tr (trim s1)) as (l & r & H).
    destruct (listed_suffix _ _ _ _ H (trims_no_tail _ _ (trim_trims s1))) as [f F].
    assert (N := trims_no_tail _ _ (trim_trims s1)). rewrite F in N. apply no_tail_suffix in N.
    destruct (no_tail_trims _ _ N (trim_trims r)) as [a A].
    destruct (bare_total (trim (f +++ a))) as [v B]. do 4 eexists.
    assert (F' : trim s1 = (f +++ a) +++ trim r) by (rewrite append_assoc, <- A; exact F).
    eapply (valued_by (shape_of tr) (String c s) s1 l r (trim r) (f +++ a)); eauto using trim_trims; try discriminate.
    - rewrite <- F'. apply trim_trims.
    - rewrite <- F'. exact H. }
  destruct (has_identifier tr) eqn:I; [|now apply (X (String c s))].
  destruct (Ascii.eqb_spec c (values_delimiter tr)) as [->|N]; [now apply (X s)|].
  do 4 eexists. apply valued_not. do 3 right. split; [exact I|]. intros S'. now apply starts_char in S'.
Qed.
Definition values_stage (fuel : nat) (tr : traits) (subject : string) : outcome (string * list string * string * list string) :=
  match subject with
  | EmptyString => Val ("", [], subject, [])
  | String c _ =>
    if (has_values tr && negb (Ascii.eqb c "("))%bool then
      let subject := if has_identifier tr then subject else String (values_delimiter tr) subject in
      andthen (at_ subject 0) (fun c =>
      if Ascii.eqb c (values_delimiter tr) then
        andthen (parse_values fuel tr subject) (fun r =>
        let '(v, vs, subject) := r in Val (v, vs, subject, match vs with [] => ["no value(s) specified"] | _ => [] end))
      else Val ("", [], subject, []))
    else Val ("", [], subject, [])
  end.
Lemma parse_values_ok : forall tr d s1 front s' vs r f v, trims s1 (front +++ s') -> listed (value_stop tr) (front +++ s') vs r ->
  trims r s' -> trims front f -> bare f v -> forall fuel, String.length s1 < fuel ->
  parse_values fuel tr (String d s1) = Val (v, vs, s').
Proof.
  intros tr d s1 front s' vs r f v T Li Tr Tf B fuel F. unfold parse_values.
  change (String d s1) with (String d "" +++ s1). rewrite from_app by reflexivity. rewrite (trims_trim _ _ T).
  destruct (values_loop_ok _ _ _ _ Li fuel []) as (vs' & x & d' & i & E & -> & X); [apply trims_shorter in T; lia|].
  rewrite E. cbn [andthen app]. rewrite X, (trims_trim _ _ Tr), kept_add, length_append.
  destruct (Nat.ltb_spec (String.length front + String.length s') (String.length s')) as [?|_]; [lia|].
  replace (String.length front + String.length s' - String.length s') with (String.length front) by lia.
  rewrite sub_app, (trims_trim _ _ Tf). destruct (strip_bare _ _ B) as [left S']. rewrite S'. reflexivity.
Qed.
Lemma valued_ok : forall tr s v vs s' w, valued (shape_of tr) s v vs s' w -> forall fuel, String.length s < fuel ->
  values_stage fuel tr s = Val (v, vs, s', w).
Proof.
  intros tr s v vs s' w H fuel L. destruct H as [s D|s s1 vs r s' front f v N V P T E Li Tr Tf B]; unfold values_stage.
  - destruct s as [|c s]; [reflexivity|]. cbn [shape_of with_values with_id before_values] in D.
    destruct (has_values tr); [|reflexivity]. destruct (Ascii.eqb_spec c "(") as [->|Nc]; [reflexivity|]. cbn [negb andb].
    destruct D as [D|[D|[D|[D D']]]]; try discriminate; [apply starts_char in D; congruence|]. rewrite D.
    change (at_ (String c s) 0) with (Val c). cbn [andthen]. destruct (Ascii.eqb_spec c (values_delimiter tr)) as [->|_]; [|reflexivity].
    exfalso. apply D'. now apply starts_char.
  - destruct s as [|c s]; [congruence|]. cbn [shape_of with_values with_id before_values] in *. rewrite V.
    destruct (Ascii.eqb_spec c "(") as [->|Nc]; [exfalso; apply P; now apply starts_char|]. cbn [negb andb].
    assert (Es : (if has_identifier tr then String c s else String (values_delimiter tr) (String c s)) = String (values_delimiter tr) s1)
      by (destruct (has_identifier tr); [exact E|now rewrite E]). rewrite Es.
    change (at_ (String (values_delimiter tr) s1) 0) with (Val (values_delimiter tr)). cbn [andthen]. rewrite Ascii.eqb_refl.
    rewrite (parse_values_ok _ _ _ _ _ _ _ _ _ T Li Tr Tf B); [reflexivity|].
    destruct (has_identifier tr); [injection E as _ ->; cbn in L; lia|now rewrite <- E].
Qed.
Lemma valued_short : forall t s v vs s' w, valued t s v vs s' w -> String.length s' <= String.length s.
Proof.
  intros t s v vs s' w H. destruct H as [s D|s s1 vs r s' front f v N V P T E Li Tr Tf B]; [lia|].
  apply trims_shorter in T. rewrite length_append in T. rewrite E. destruct (with_id t); cbn; lia.
Qed.

(** the attributes *)
Lemma characterised_total : forall tr s, exists o, characterised (shape_of tr) s o.
Proof.
  intros tr s. destruct (has_attributes tr) eqn:A; [|eexists; apply characterised_not; tauto].
  destruct (starts_dec (content_delimiter tr) s) as [C|C]; [eexists; apply characterised_not; tauto|].
  destruct (starts_dec "(" s) as [P|P]; [|eexists; apply characterised_not; tauto].
  destruct P as [s' ->]. change ("(" +++ s') with (String "(" s') in *. destruct (attributed_total s') as [[[l r]|] O].
  - eexists. eapply characterised_by; eauto using trim_trims.
  - eexists. eapply characterised_undefined; eauto.
Qed.
Lemma at_content_zero : forall tr s, at_content tr s 0 = true <-> starts (content_delimiter tr) s.
Proof. intros tr s. exact (at_content_starts tr "" s). Qed.
Lemma characterised_ok : forall tr s o, characterised (shape_of tr) s o -> forall fuel, String.length s < fuel ->
  (if (has_attributes tr && negb (String.eqb s "") && negb (at_content tr s 0))%bool then parse_attributes fuel s else Val ([], s)) =
  match o with Some x => Val x | None => Wild end.
Proof.
  intros tr s o H fuel L. destruct H as [s D|s l r s' A C O T|s A C O]; cbn [shape_of with_attributes before_content] in *.
  - destruct (has_attributes tr); [|reflexivity]. destruct s as [|c s]; [reflexivity|]. cbn [String.eqb negb andb].
    destruct (at_content tr (String c s) 0) eqn:E; [reflexivity|]. cbn [negb]. unfold parse_attributes.
    change (at_ (String c s) 0) with (Val c). cbn [andthen]. destruct (Ascii.eqb_spec c "(") as [->|_]; [|reflexivity]. exfalso.
    destruct D as [D|[D|[D|D]]]; try discriminate; [apply at_content_zero in D; congruence|]. apply D. now apply starts_char.
  - rewrite A. destruct (at_content tr (String "(" s) 0) eqn:E; [apply at_content_zero in E; tauto|]. cbn [String.eqb negb andb].
    unfold parse_attributes. change (at_ (String "(" s) 0) with (Val "("%char). cbn [andthen Ascii.eqb Bool.eqb negb].
    cbn [String.length] in L. rewrite (attributes_loop_ok _ _ O) by lia. cbn [andthen fst snd app]. now rewrite (trims_trim _ _ T).
  - rewrite A. destruct (at_content tr (String "(" s) 0) eqn:E; [apply at_content_zero in E; tauto|]. cbn [String.eqb negb andb].
    unfold parse_attributes. change (at_ (String "(" s) 0) with (Val "("%char). cbn [andthen Ascii.eqb Bool.eqb negb].
    cbn [String.length] in L. rewrite (attributes_loop_ok _ _ O) by lia. reflexivity.
Qed.

(** the content *)
Lemma contained_total : forall tr s, exists c, contained (shape_of tr) s c.
Proof.
  intros tr s. destruct s as [|x s]; [eexists; apply contained_not; now left|].
  destruct (has_content tr) eqn:C; [|eexists; apply contained_not; tauto].
  destruct (starts_dec (content_delimiter tr) (String x s)) as [[r E]|N]; [|eexists; apply contained_not; tauto].
  rewrite E. exists (trim r). apply (contained_by (shape_of tr)); auto using trim_trims. cbn. rewrite <- E. discriminate.
Qed.
Lemma contained_ok : forall tr s c, contained (shape_of tr) s c ->
  (if (has_content tr && negb (String.eqb s "") && at_content tr s 0)%bool then trim (from s (String.length (content_delimiter tr))) else "") = c.
Proof.
  intros tr s c H. destruct H as [s D|s c C N T]; cbn [shape_of with_content before_content] in *.
  - destruct (has_content tr); [|reflexivity]. destruct s as [|x s]; [reflexivity|]. cbn [String.eqb negb andb].
    destruct (at_content tr (String x s) 0) eqn:E; [|reflexivity]. exfalso. apply at_content_zero in E. destruct D as [D|[D|D]]; try discriminate. tauto.
  - rewrite C, (proj2 (at_content_zero tr (content_delimiter tr +++ s))) by now exists s.
    destruct (String.eqb_spec (content_delimiter tr +++ s) "") as [?|_]; [congruence|]. cbn [negb andb].
    rewrite from_app by reflexivity. now apply trims_trim.
Qed.

(** a signature *)
Lemma parse_signature_stages : forall fuel tr text given, parse_signature fuel tr text given =
  let '(subject, rest) := match given with EmptyString => let l := first_line text "" in (trim (fst l), snd l) | _ => (given, "") end in
  andthen (if (has_identifier tr && negb (String.eqb subject ""))%bool
           then andthen (parse_identifier fuel tr subject) (fun r => Val (fst r, snd r, if String.eqb (fst r) "" then ["no identifier specified"] else []))
           else Val ("", subject, [])) (fun a =>
  let '(id, subject, w1) := a in
  andthen (values_stage fuel tr subject) (fun b =>
  let '(v, vs, subject, w2) := b in
  andthen (if (has_attributes tr && negb (String.eqb subject "") && negb (at_content tr subject 0))%bool
           then parse_attributes fuel subject else Val ([], subject)) (fun d =>
  let '(attrs, subject) := d in
  let c := if (has_content tr && negb (String.eqb subject "") && at_content tr subject 0)%bool
           then trim (from subject (String.length (content_delimiter tr))) else "" in
  Val (Sig id v vs attrs c rest, (w1 ++ w2)%list)))).
Proof. reflexivity. Qed.
Lemma signed_ok : forall tr text given o, signed (shape_of tr) text given o ->
  forall fuel, String.length text + String.length given < fuel ->
  parse_signature fuel tr text given = match o with Some (p, w) => Val (sig_of p, w) | None => Wild end.
Proof.
  intros tr text given o H fuel L. rewrite parse_signature_stages.
  destruct H as [s rest id s1 w1 v vs s2 w2 l s3 c Su Id Va Ch Co|s rest id s1 w1 v vs s2 w2 Su Id Va Ch]; rewrite (subject_ok _ _ _ _ Su);
    assert (L1 := subject_short _ _ _ _ Su); assert (L2 := identified_short _ _ _ _ _ Id); assert (L3 := valued_short _ _ _ _ _ _ Va);
    rewrite (identified_ok _ _ _ _ _ Id) by lia; cbn [andthen];
    rewrite (valued_ok _ _ _ _ _ _ Va) by lia; cbn [andthen]; rewrite (characterised_ok _ _ _ Ch) by lia; cbn [andthen]; [|reflexivity].
  now rewrite (contained_ok _ _ _ Co).
Qed.
Lemma signed_total : forall tr text given, exists o, signed (shape_of tr) text given o.
Proof.
  intros tr text given. destruct (subject_total text given) as (s & rest & Su). destruct (identified_total tr s) as (id & s1 & w1 & Id).
  destruct (valued_total tr s1) as (v & vs & s2 & w2 & Va). destruct (characterised_total tr s2) as [[[l s3]|] Ch].
  - destruct (contained_total tr s3) as [c Co]. eexists. eapply signed_by; eauto.
  - eexists. eapply signed_undefined; eauto.
Qed.
