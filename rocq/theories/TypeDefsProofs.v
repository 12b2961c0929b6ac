From Verif Require Import Base ByteBuffer StringUtility StringSpec StringProofs Regex RegexSpec RegexProofs Keywords KeywordsSpec Signature SignatureSpec SignatureProofs SignatureAttributes SignatureWhole TypeTables Mson TypeDefs TypeDefsSpec TypeDefsText.
Local Open Scope string_scope.
Local Open Scope nat_scope.

(** ** values *)
Lemma emphasis_test : forall c, (Ascii.eqb c "*" || Ascii.eqb c "_")%bool = true <-> emphasis c.
Proof. intros c. unfold emphasis. destruct (Ascii.eqb_spec c "*"), (Ascii.eqb_spec c "_"); cbn; intuition congruence. Qed.
Lemma emphasis_nul : forall c, emphasis c -> c <> NUL.
Proof. intros c [-> | ->]; discriminate. Qed.
Lemma check_true : forall s, emphasised s -> check_variable s = Val true.
Proof.
  intros s (c & r & E & -> & q & Q). unfold check_variable. change (at_ (String c r) 0) with (Val c). cbn [andthen]. rewrite (proj2 (emphasis_test c) E).
  rewrite Q. rewrite last_not_zero, at_last. cbn [andthen]. now rewrite Ascii.eqb_refl.
Qed.
Lemma check_false : forall s, ~ emphasised s -> check_variable s = Val false.
Proof.
  intros [|c s] N; [reflexivity|]. unfold check_variable. change (at_ (String c s) 0) with (Val c). cbn [andthen].
  destruct (Ascii.eqb c "*" || Ascii.eqb c "_")%bool eqn:E; [|reflexivity]. apply emphasis_test in E.
  destruct (last_char c s) as (q & z & Z). rewrite Z. rewrite last_not_zero, at_last. cbn [andthen]. destruct (Ascii.eqb_spec c z) as [<-|_]; [|reflexivity].
  elim N. exists c, s. split; [exact E|]. split; [reflexivity|]. now exists q.
Qed.
Lemma emphasised_dec : forall s, emphasised s \/ ~ emphasised s.
Proof.
  intros [|c s]; [right; intros (x & r & _ & E & _); discriminate|]. destruct (Ascii.eqb c "*" || Ascii.eqb c "_")%bool eqn:E.
  - apply emphasis_test in E. destruct (last_char c s) as (q & z & Z). destruct (Ascii.ascii_dec c z) as [<-|N].
    + left. exists c, s. split; [exact E|]. split; [reflexivity|]. now exists q.
    + right. intros (x & r & _ & X & q' & Q). injection X as <- <-. rewrite Z in Q. apply snoc_inj in Q as [_ Q]. congruence.
  - right. intros (x & r & X & Y & _). injection Y as <- <-. apply emphasis_test in X. congruence.
Qed.
Lemma inner_emphasised : forall c n t, emphasis c -> ends c (run_of (S n) c +++ t) -> emphasised (run_of (S n) c +++ t).
Proof. intros c n t E H. exists c, (run_of n c +++ t). split; [exact E|]. now split. Qed.
Lemma denotes_inner_text : forall c n body rest, emphasis c -> (forall r, body +++ run_of (S n) c +++ rest <> String c r) -> leftmost body (run_of (S n) c) rest ->
  ends c (run_of (S n) c +++ body +++ run_of (S n) c +++ rest) ->
  retrieve_escaped (run_of (S n) c +++ body +++ run_of (S n) c +++ rest) 0 true = Val (body, run_of (S n) c +++ rest) /\ body <> "".
Proof.
  intros c n body rest E A L _. split; [|intros ->; now apply (A (run_of n c +++ rest))].
  exact (retrieve_closed c (S n) "" body rest true (emphasis_nul _ E) ltac:(lia) A L).
Qed.
Lemma denotes_open_text : forall c n after, emphasis c -> (forall r, after <> String c r) -> ~ occurs (run_of (S n) c) after ->
  retrieve_escaped (run_of (S n) c +++ after) 0 true = Val ("", run_of (S n) c +++ after).
Proof. intros c n after E A O. exact (retrieve_open c (S n) "" after true (emphasis_nul _ E) ltac:(lia) A O). Qed.
Lemma value_ok : forall s v, value_says s v -> parse_value s = Val v.
Proof.
  assert (Q : forall s w b, denotes s w b -> parse_value s = Val (if String.eqb w "*" then MV "" true else MV w b)).
  { intros s w b H. unfold parse_value. destruct H as [c n body rest E A L D|c n after E A O D|s w N B].
    - rewrite (check_true _ (inner_emphasised _ _ _ E D)). cbn [andthen]. destruct (denotes_inner_text _ _ _ _ E A L D) as [R Nb]. rewrite R. cbn [andthen].
      destruct (String.eqb_spec body "") as [X|_]; [contradiction|]. reflexivity.
    - rewrite (check_true _ (inner_emphasised _ _ _ E D)). cbn [andthen]. rewrite (denotes_open_text _ _ _ E A O). cbn [andthen String.eqb].
      assert (B : bare (run_of (S n) c +++ after) (run_of (S n) c +++ after)).
      { apply bare_other. left. intros r X. cbn in X. injection X as -> _. destruct E; discriminate. }
      destruct (strip_bare _ _ B) as [left Hl]. rewrite Hl. reflexivity.
    - rewrite (check_false _ N). cbn [andthen String.eqb]. destruct (strip_bare _ _ B) as [left Hl]. rewrite Hl. reflexivity. }
  intros s v H. destruct H as [s b H|s w b H N]; rewrite (Q _ _ _ H); [reflexivity|]. destruct (String.eqb_spec w "*") as [->|_]; [contradiction|reflexivity].
Qed.
Lemma denotes_total : forall s, exists w b, denotes s w b.
Proof.
  intros s. destruct (emphasised_dec s) as [H|N].
  - destruct H as (c & r & E & -> & D). destruct (piece_total [c] c r) as (p & q & P). remember (String c r) as t eqn:Et.
    destruct P as [x r' NI|x n body rest I A L|x n after I A O].
    + injection Et as -> _. elim NI. now left.
    + destruct I as [<-|[]]. exists body, true. now apply denotes_inner.
    + destruct I as [<-|[]]. eexists _, true. now apply denotes_open.
  - destruct (bare_total s) as [w B]. exists w, false. now apply denotes_plain.
Qed.
Lemma value_total : forall s, exists v, value_says s v.
Proof.
  intros s. destruct (denotes_total s) as (w & b & H). destruct (String.eqb_spec w "*") as [->|N]; [exists (MV "" true); now apply (value_any _ b)|exists (MV w b); now apply value_text].
Qed.
Lemma value_unique : forall s v v', value_says s v -> value_says s v' -> v = v'.
Proof. intros s v v' H H'. apply value_ok in H, H'. congruence. Qed.

(** ** names of types *)
Lemma name_ok : forall s n, name_says s n -> parse_type_name s true = Val n.
Proof.
  intros s n H. destruct H as [s b I|s v N V].
  - cbn in I. decompose [or] I; try contradiction; match goal with H : _ = _ |- _ => injection H as <- <- end; reflexivity.
  - unfold parse_type_name, parse_symbol. cbn [andb].
    repeat match goal with |- context [String.eqb s ?x] => destruct (String.eqb_spec s x) as [->|_]; [elim N; cbn; tauto|] end. rewrite (value_ok _ _ V). reflexivity.
Qed.
Lemma name_total : forall s, exists n, name_says s n.
Proof.
  intros s. destruct (in_dec string_dec s (map fst base_words)) as [I|N].
  - apply in_map_iff in I as ((x & b) & <- & I). exists (TN b (Sym "" false)). now constructor.
  - destruct (value_total s) as [v V]. eexists. exact (name_symbol s v N V).
Qed.
Lemma names_total : forall l, exists ns, Forall2 name_says l ns.
Proof. induction l as [|s l [ns IH]]; [exists []; constructor|]. destruct (name_total s) as [n N]. exists (n :: ns). now constructor. Qed.
Lemma maybe_total : forall s, exists n, maybe_name s n.
Proof. intros s. destruct (String.eqb_spec s "") as [->|N]; [eexists; constructor|]. destruct (name_total s) as [n H]. exists n. now constructor. Qed.

(** ** the loop over a type specification *)
Definition acts (nested ending parsed : bool) (c : ascii) : bool :=
  (Ascii.eqb c "[" && negb parsed || Ascii.eqb c "]" && nested && ending || Ascii.eqb c "," && nested && negb ending)%bool.
Lemma spec_skip : forall nested ending parsed ts s d r fuel, all (fun c => acts nested ending parsed c = false) s -> String.length s <= fuel ->
  spec_loop fuel (d +++ s +++ r) (String.length d) d nested ending parsed ts =
  spec_loop (fuel - String.length s) (d +++ s +++ r) (String.length (d +++ s)) (d +++ s) nested ending parsed ts.
Proof.
  intros nested ending parsed ts. induction s as [|c s IH]; intros d r fuel A L.
  - rewrite append_nil_r, Nat.sub_0_r. reflexivity.
  - apply all_cons in A as [C A]. cbn [String.length] in L. destruct fuel as [|fuel]; [lia|]. cbn [String.length Nat.sub]. cbn [spec_loop].
    destruct (Nat.leb_spec (String.length (d +++ String c s +++ r)) (String.length d)) as [X|_]; [rewrite length_append in X; cbn in X; lia|].
    change (String c s +++ r) with (String c (s +++ r)). rewrite (at_char d c (s +++ r)) by reflexivity. cbn [andthen].
    unfold acts in C. apply Bool.orb_false_elim in C as [C C3]. apply Bool.orb_false_elim in C as [C1 C2]. rewrite C1, C2, C3.
    specialize (IH (d +++ String c "") r fuel A ltac:(lia)). rewrite !append_assoc in IH. cbn [append] in IH. rewrite snoc_length in IH. exact IH.
Qed.
Lemma spec_at : forall fuel nested ending parsed ts a c r, all (fun c => acts nested ending parsed c = false) a -> acts nested ending parsed c = true -> String.length a < fuel ->
  spec_loop fuel (a +++ String c r) 0 "" nested ending parsed ts =
  let next := trim r in let text := trim a in let fuel := fuel - S (String.length a) in
    if (Ascii.eqb c "[" && negb parsed)%bool then
      if nested then spec_loop fuel next 0 "" true true parsed ts
      else
        andthen (if String.eqb text "" then Val ts else andthen (parse_type_name text true) (fun n => Val (TS n (t_nested ts)))) (fun ts =>
        spec_loop fuel next 0 "" true ending parsed ts)
    else if (Ascii.eqb c "]" && nested && ending)%bool then
      andthen (if String.eqb text "" then Val ts else add_nested text ts) (fun ts => spec_loop fuel next 0 "" nested false true ts)
    else if parsed then spec_loop fuel next 0 "" nested ending false ts
      else andthen (if String.eqb text "" then Val ts else add_nested text ts) (fun ts => spec_loop fuel next 0 "" nested ending parsed ts).
Proof.
  intros fuel nested ending parsed ts a c r A C L.
  assert (X := spec_skip nested ending parsed ts a "" (String c r) fuel A ltac:(lia)). cbn [append String.length] in X. rewrite X. clear X.
  remember (fuel - String.length a) as k eqn:K. destruct k as [|k]; [lia|]. replace (fuel - S (String.length a)) with k by lia. cbn [spec_loop].
  destruct (Nat.leb_spec (String.length (a +++ String c r)) (String.length a)) as [Y|_]; [rewrite length_append in Y; cbn in Y; lia|].
  rewrite (at_char a c r) by reflexivity. cbn [andthen].
  assert (F : from (a +++ String c r) (S (String.length a)) = r).
  { rewrite (snoc_app a c r). apply from_app. now rewrite snoc_length. }
  rewrite F. unfold acts in C. destruct (Ascii.eqb c "[" && negb parsed)%bool; [reflexivity|]. destruct (Ascii.eqb c "]" && nested && ending)%bool; [reflexivity|].
  cbn [orb] in C. rewrite C. reflexivity.
Qed.
Lemma spec_over : forall fuel nested ending parsed ts s, all (fun c => acts nested ending parsed c = false) s -> String.length s < fuel ->
  spec_loop fuel s 0 "" nested ending parsed ts = Val (s, nested, parsed, ts).
Proof.
  intros fuel nested ending parsed ts s A L. assert (X := spec_skip nested ending parsed ts s "" "" fuel A ltac:(lia)). cbn [append String.length] in X.
  rewrite append_nil_r in X. rewrite X. destruct (fuel - String.length s) as [|k] eqn:K; [lia|]. cbn [spec_loop]. now rewrite Nat.leb_refl.
Qed.
Definition finish (x : string * bool * bool * type_spec) : outcome type_spec :=
  let '(buffer, nested, parsed, ts) := x in
  let buffer := trim buffer in
  if (String.eqb buffer "" || parsed)%bool then Val ts else
  andthen (at_ buffer (String.length buffer - 1)) (fun z =>
  let buffer := if (nested && Ascii.eqb z "]")%bool then substring 0 (String.length buffer - 1) buffer else buffer in
  let buffer := trim buffer in
  if nested then add_nested buffer ts else andthen (parse_type_name buffer true) (fun n => Val (TS n (t_nested ts)))).
Lemma free_acts : forall nested ending parsed l s, (forall c, acts nested ending parsed c = true -> In c l) -> free l s -> all (fun c => acts nested ending parsed c = false) s.
Proof.
  intros nested ending parsed l s H. unfold free, all. apply Forall_impl. intros c N. destruct (acts nested ending parsed c) eqn:E; [|reflexivity]. elim N. now apply H.
Qed.
Ltac states := intros c; unfold acts; destruct (Ascii.eqb_spec c "["), (Ascii.eqb_spec c "]"), (Ascii.eqb_spec c ","); subst; cbn; intuition discriminate.
Lemma outer_free : forall s, free ["["%char] s -> all (fun c => acts false false false c = false) s.
Proof. intros s. apply free_acts. states. Qed.
Lemma inner_free : forall s, free ["["; ","]%char s -> all (fun c => acts true false false c = false) s.
Proof. intros s. apply free_acts. states. Qed.
Lemma linked_free : forall s, free ["["; "]"]%char s -> all (fun c => acts true true false c = false) s.
Proof. intros s. apply free_acts. states. Qed.
Lemma skipped_free : forall s, free [","]%char s -> all (fun c => acts true false true c = false) s.
Proof. intros s. apply free_acts. states. Qed.

Lemma add_ok : forall s ns n ms, name_says s ns -> add_nested s (TS n ms) = Val (TS n (ms ++ [ns])%list).
Proof. intros s ns n ms H. unfold add_nested. now rewrite (name_ok _ _ H). Qed.
Lemma kept_ok : forall a v ns n ms, trims a v -> Forall2 name_says (kept v) ns ->
  (if String.eqb (trim a) "" then Val (TS n ms) else add_nested (trim a) (TS n ms)) = Val (TS n (ms ++ ns)%list).
Proof.
  intros a v ns n ms T F. rewrite (trims_trim _ _ T). destruct v as [|c v]; cbn [kept] in F.
  - inversion F. now rewrite app_nil_r.
  - inversion F as [|x y l l' H K]; subst. inversion K; subst. cbn [String.eqb]. now apply add_ok.
Qed.
Scheme inner_min := Minimality for inner Sort Prop with linked_min := Minimality for linked Sort Prop with skipped_min := Minimality for skipped Sort Prop.
Combined Scheme inner_linked_skipped from inner_min, linked_min, skipped_min.
Definition goes (s : string) (l : list string) (ending parsed : bool) : Prop := forall fuel n ms ns, String.length s < fuel -> Forall2 name_says l ns ->
  andthen (spec_loop fuel s 0 "" true ending parsed (TS n ms)) finish = Val (TS n (ms ++ ns)%list).
Lemma tail_length : forall (a : string) c r r' fuel, trims r r' -> String.length (a +++ String c r) < fuel -> String.length a < fuel /\ String.length r' < fuel - S (String.length a).
Proof. intros a c r r' fuel T L. rewrite length_append in L. cbn in L. pose proof (trims_shorter _ _ T). lia. Qed.
Lemma ends_not_empty : forall s, s +++ "]" <> "".
Proof. intros [|c s]; discriminate. Qed.
Lemma loop_ok : (forall s l, inner s l -> goes s l false false) /\ (forall s l, linked s l -> goes s l true false) /\ (forall s l, skipped s l -> goes s l false true).
Proof.
  apply inner_linked_skipped; unfold goes.
  - intros s F T fuel n ms ns L H. inversion H; subst. rewrite spec_over by (assumption || now apply inner_free). cbn [andthen finish]. rewrite (trims_trim _ _ T).
    cbn. now rewrite app_nil_r.
  - intros s t v F T V fuel n ms ns L H. inversion H as [|x y l l' Hn K]; subst. inversion K; subst. rewrite spec_over by (assumption || now apply inner_free). cbn [andthen finish].
    rewrite (trims_trim _ _ T). destruct (String.eqb_spec (t +++ "]") "") as [X|_]; [now apply ends_not_empty in X|]. cbn [orb]. rewrite at_last. cbn [andthen Ascii.eqb Bool.eqb andb].
    replace (String.length (t +++ "]") - 1) with (String.length t) by (rewrite length_append; cbn; lia). rewrite sub_app. rewrite (trims_trim _ _ V). now apply add_ok.
  - intros s v F T N E fuel n ms ns L H. inversion H as [|x y l l' Hn K]; subst. inversion K; subst. rewrite spec_over by (assumption || now apply inner_free). cbn [andthen finish].
    rewrite (trims_trim _ _ T). destruct (String.eqb_spec v "") as [X|_]; [contradiction|]. cbn [orb]. destruct v as [|c v]; [contradiction|]. destruct (last_char c v) as (q & z & Z).
    assert (Tv : trim (String c v) = String c v).
    { apply trims_trim. destruct T as (a & b & Ts & Wa & Wb & Hd & Tl). exists "", "". split; [now rewrite append_nil_r|]. split; [constructor|]. split; [constructor|]. now split. }
    rewrite Z in *. rewrite at_last. cbn [andthen]. destruct (Ascii.eqb_spec z "]") as [->|_]; [elim E; now exists q|]. cbn [andb]. rewrite Tv. now apply add_ok.
  - intros a v r r' l F T R I IH fuel n ms ns L H. apply Forall2_app_inv_l in H as (n1 & n2 & H1 & H2 & ->). destruct (tail_length _ _ _ _ _ R L) as [L1 L2].
    rewrite spec_at by (assumption || reflexivity || now apply inner_free). cbv zeta. cbn [Ascii.eqb Bool.eqb andb]. rewrite (kept_ok _ _ _ _ _ T H1). cbn [andthen].
    rewrite (trims_trim _ _ R). rewrite (IH _ _ _ _ L2 H2). now rewrite app_assoc.
  - intros a r r' l F R I IH fuel n ms ns L H. destruct (tail_length _ _ _ _ _ R L) as [L1 L2].
    rewrite spec_at by (assumption || reflexivity || now apply inner_free). cbv zeta. cbn [Ascii.eqb Bool.eqb andb negb]. rewrite (trims_trim _ _ R). now apply IH.
  - intros s v F T fuel n ms ns L H. rewrite spec_over by (assumption || now apply linked_free). cbn [andthen finish]. rewrite (trims_trim _ _ T).
    destruct v as [|c v]; cbn [kept] in H; [inversion H; cbn; now rewrite app_nil_r|]. inversion H as [|x y l l' Hn K]; subst. inversion K; subst.
    destruct (String.eqb_spec (String c v) "") as [X|_]; [discriminate|]. cbn [orb]. destruct (last_char c v) as (q & z & Z).
    assert (Tv : trim (String c v) = String c v).
    { apply trims_trim. destruct T as (a & b & Ts & Wa & Wb & Hd & Tl). exists "", "". split; [now rewrite append_nil_r|]. split; [constructor|]. split; [constructor|]. now split. }
    assert (Nz : z <> "]"%char).
    { intros ->. destruct T as (a & b & Ts & _). rewrite Z in Ts. rewrite Ts in F. apply all_app in F as [_ F]. apply all_app in F as [F _]. apply all_app in F as [_ F].
      apply all_cons in F as [F _]. apply F. cbn. tauto. }
    rewrite Z in *. rewrite at_last. cbn [andthen]. destruct (Ascii.eqb_spec z "]") as [->|_]; [contradiction|]. cbn [andb]. rewrite Tv. now apply add_ok.
  - intros a r r' l F R I IH fuel n ms ns L H. destruct (tail_length _ _ _ _ _ R L) as [L1 L2].
    rewrite spec_at by (assumption || reflexivity || now apply linked_free). cbv zeta. cbn [Ascii.eqb Bool.eqb andb negb]. rewrite (trims_trim _ _ R). now apply IH.
  - intros a v r r' l F T R I IH fuel n ms ns L H. apply Forall2_app_inv_l in H as (n1 & n2 & H1 & H2 & ->). destruct (tail_length _ _ _ _ _ R L) as [L1 L2].
    rewrite spec_at by (assumption || reflexivity || now apply linked_free). cbv zeta. cbn [Ascii.eqb Bool.eqb andb negb]. rewrite (kept_ok _ _ _ _ _ T H1). cbn [andthen].
    rewrite (trims_trim _ _ R). rewrite (IH _ _ _ _ L2 H2). now rewrite app_assoc.
  - intros s F fuel n ms ns L H. inversion H; subst. rewrite spec_over by (assumption || now apply skipped_free). cbn [andthen finish]. rewrite Bool.orb_true_r. now rewrite app_nil_r.
  - intros a r r' l F R I IH fuel n ms ns L H. destruct (tail_length _ _ _ _ _ R L) as [L1 L2].
    rewrite spec_at by (assumption || reflexivity || now apply skipped_free). cbv zeta. cbn [Ascii.eqb Bool.eqb andb negb]. rewrite (trims_trim _ _ R). now apply IH.
Qed.
Lemma unlinked_shorter : forall s t, unlinked s t -> String.length t <= String.length s.
Proof.
  intros s t H. destruct H as [s N|s u x t S U L T|s u S U N]; [lia| |cbn; lia].
  apply trims_shorter in T. assert (X : String.length u <= String.length s). { destruct U as [[_ ->]|(r & -> & _)]; [lia|rewrite length_append; lia]. }
  apply link_form in L as (b1 & b2 & o & y & z & b3 & -> & _). rewrite !length_append in X. cbn [String.length] in X. rewrite !length_append in X. lia.
Qed.
Lemma spec_ok : forall a ts, spec_says a ts -> forall fuel, String.length a < fuel -> parse_type_specification fuel a = Val ts.
Proof.
  assert (Q : forall fuel a s, unlinked a s -> parse_type_specification fuel a = andthen (spec_loop fuel s 0 "" false false false no_spec) finish).
  { intros fuel a s U. unfold parse_type_specification. rewrite (strip_link _ _ U). reflexivity. }
  intros a ts H fuel L. destruct H as [a s t n U F T M|a f r t n r' l ns U F T M R I Hn]; rewrite (Q _ _ _ U); apply unlinked_shorter in U.
  - rewrite spec_over by (try lia; now apply outer_free). cbn [andthen finish]. rewrite (trims_trim _ _ T). destruct M as [|t n N M]; [reflexivity|].
    destruct (String.eqb_spec t "") as [X|_]; [contradiction|]. cbn [orb]. destruct t as [|c t]; [contradiction|]. destruct (last_char c t) as (q & z & Z).
    assert (Tv : trim (String c t) = String c t).
    { apply trims_trim. destruct T as (a' & b & Ts & Wa & Wb & Hd & Tl). exists "", "". split; [now rewrite append_nil_r|]. split; [constructor|]. split; [constructor|]. now split. }
    assert (A : at_ (String c t) (String.length (String c t) - 1) = Val z) by (rewrite Z; apply at_last). rewrite A. cbn [andthen andb]. rewrite Tv. rewrite (name_ok _ _ M). reflexivity.
  - assert (L' : String.length (f +++ String "[" r) < fuel) by lia. destruct (tail_length _ _ _ _ _ R L') as [L1 L2].
    rewrite spec_at by (assumption || reflexivity || now apply outer_free). cbv zeta. cbn [Ascii.eqb Bool.eqb andb negb]. rewrite (trims_trim _ _ T), (trims_trim _ _ R).
    destruct M as [|t n N M].
    + cbn [String.eqb andthen]. exact (proj1 loop_ok _ _ I _ _ [] _ L2 Hn).
    + destruct (String.eqb_spec t "") as [X|_]; [contradiction|]. rewrite (name_ok _ _ M). cbn [andthen]. exact (proj1 loop_ok _ _ I _ _ [] _ L2 Hn).
Qed.
Lemma loop_total : forall n s, String.length s < n -> (exists l, inner s l) /\ (exists l, linked s l) /\ exists l, skipped s l.
Proof.
  induction n as [|n IH]; intros s L; [lia|].
  assert (Q : forall a c r, s = a +++ String c r -> String.length (trim r) < n).
  { intros a c r ->. rewrite length_append in L. cbn in L. pose proof (trim_shorter r). lia. }
  split; [|split].
  - destruct (free_split ["["; ","]%char s) as [F|(a & c & b & E & I & F)].
    + destruct (trim s) as [|c v] eqn:T.
      * exists []. apply inner_none; [exact F|]. rewrite <- T. apply trim_trims.
      * assert (Ts : trims s (String c v)) by (rewrite <- T; apply trim_trims). destruct (last_char c v) as (q & z & Z). destruct (Ascii.ascii_dec z "]") as [->|N].
        -- exists [trim q]. apply (inner_last s q); [exact F|now rewrite <- Z|apply trim_trims].
        -- exists [String c v]. apply inner_open; [exact F|exact Ts|discriminate|]. intros (q' & X). rewrite Z in X. apply snoc_inj in X as [_ X]. contradiction.
    + destruct (IH _ (Q _ _ _ E)) as ((l & Hl) & (l' & Hl') & _). subst s. cbn in I. destruct I as [<-|[<-|[]]].
      * exists l'. apply (inner_link a b _ _ F (trim_trims b) Hl').
      * eexists. apply (inner_more a _ b _ _ F (trim_trims a) (trim_trims b) Hl).
  - destruct (free_split ["["; "]"]%char s) as [F|(a & c & b & E & I & F)].
    + eexists. apply linked_end; [exact F|apply trim_trims].
    + destruct (IH _ (Q _ _ _ E)) as (_ & (l' & Hl') & (l & Hl)). subst s. cbn in I. destruct I as [<-|[<-|[]]].
      * exists l'. apply (linked_again a b _ _ F (trim_trims b) Hl').
      * eexists. apply (linked_text a _ b _ _ F (trim_trims a) (trim_trims b) Hl).
  - destruct (free_split [","]%char s) as [F|(a & c & b & E & I & F)].
    + exists []. now apply skipped_end.
    + destruct (IH _ (Q _ _ _ E)) as ((l & Hl) & _). subst s. cbn in I. destruct I as [<-|[]]. exists l. apply (skipped_more a b _ _ F (trim_trims b) Hl).
Qed.
Lemma spec_total : forall a, exists ts, spec_says a ts.
Proof.
  intros a. destruct (unlinked_total a) as [s U]. destruct (free_split ["["]%char s) as [F|(f & c & r & E & I & F)].
  - destruct (maybe_total (trim s)) as [n M]. eexists. apply (spec_name a s _ _ U F (trim_trims s) M).
  - cbn in I. destruct I as [<-|[]]. subst s. destruct (maybe_total (trim f)) as [n M]. destruct (loop_total _ (trim r) (Nat.lt_succ_diag_r _)) as ((l & I) & _).
    destruct (names_total l) as [ns H]. eexists. apply (spec_nested a f r _ _ _ _ _ U F (trim_trims f) M (trim_trims r) I H).
Qed.
Lemma spec_unique : forall a ts ts', spec_says a ts -> spec_says a ts' -> ts = ts'.
Proof. intros a ts ts' H H'. pose proof (spec_ok _ _ H _ (Nat.lt_succ_diag_r _)) as E. rewrite (spec_ok _ _ H' _ (Nat.lt_succ_diag_r _)) in E. now injection E. Qed.

(** ** type definitions *)
Lemma attribute_some : forall a bits, existsb (String.eqb a) attribute_words = true ->
  exists k, nth_error attribute_words k = Some a /\ parse_type_attribute a bits = Some (N.setbit bits (N.of_nat k)).
Proof.
  intros a bits H. apply existsb_exists in H as (x & I & E). apply String.eqb_eq in E. subst x. cbn in I.
  destruct I as [<-|[<-|[<-|[<-|[<-|[<-|[<-|[]]]]]]]]; [exists 0|exists 1|exists 2|exists 3|exists 4|exists 5|exists 6]; now split.
Qed.
Lemma attribute_none : forall a bits, existsb (String.eqb a) attribute_words = false -> parse_type_attribute a bits = None.
Proof.
  intros a bits H. unfold parse_type_attribute. cbn in H.
  repeat match goal with H : (String.eqb a ?x || _)%bool = false |- _ => let E := fresh in apply Bool.orb_false_elim in H as [E H]; rewrite E end. reflexivity.
Qed.
Lemma words_apart : forall k k' w, nth_error attribute_words k = Some w -> nth_error attribute_words k' = Some w -> k = k'.
Proof.
  intros k k' w H H'. apply (NoDup_nth_error attribute_words).
  - repeat constructor; cbn; intuition discriminate.
  - apply nth_error_Some. congruence.
  - congruence.
Qed.
Definition ignored (l : list string) : list effect := map (fun _ => Says 5 "ignoring unrecognized type attribute") l.
Definition remarked (e : effect) : remark := match e with Says c m => Warns c m | Depends a _ _ => Fails (Missing a) end.
(** the bits and the other words of what is still to be read *)
Lemma bits_step : forall a l bits bits' k, nth_error attribute_words k = Some a ->
  ((forall j w, nth_error attribute_words j = Some w -> N.testbit bits' (N.of_nat j) = true <-> N.testbit (N.setbit bits (N.of_nat k)) (N.of_nat j) = true \/ In w l) /\
   forall j, (7 <= j)%N -> N.testbit bits' j = N.testbit (N.setbit bits (N.of_nat k)) j) ->
  (forall j w, nth_error attribute_words j = Some w -> N.testbit bits' (N.of_nat j) = true <-> N.testbit bits (N.of_nat j) = true \/ In w (a :: l)) /\
  forall j, (7 <= j)%N -> N.testbit bits' j = N.testbit bits j.
Proof.
  intros a l bits bits' k K [H H']. assert (Lk : k < 7) by (apply (nth_error_Some attribute_words); congruence). split.
  - intros j w J. rewrite (H j w J). rewrite N.setbit_eqb. cbn [In]. destruct (N.eqb_spec (N.of_nat k) (N.of_nat j)) as [E|N]; cbn [orb].
    + apply Nnat.Nat2N.inj in E. subst j. assert (a = w) by congruence. subst w. tauto.
    + assert (a <> w). { intros ->. apply N. f_equal. now apply (words_apart k j w). } intuition.
  - intros j J. rewrite (H' j J). rewrite N.setbit_eqb. destruct (N.eqb_spec (N.of_nat k) j) as [E|N]; [lia|reflexivity].
Qed.
Lemma definition_rest : forall fuel l bits ts w, exists bits',
  definition_loop fuel l true bits ts w = Val (bits', ts, (w ++ map remarked (ignored (other_words l)))%list) /\
  (forall k x, nth_error attribute_words k = Some x -> N.testbit bits' (N.of_nat k) = true <-> N.testbit bits (N.of_nat k) = true \/ In x l) /\
  forall k, (7 <= k)%N -> N.testbit bits' k = N.testbit bits k.
Proof.
  intros fuel. induction l as [|a l IH]; intros bits ts w; cbn [definition_loop].
  - exists bits. cbn [other_words filter ignored map]. rewrite app_nil_r. split; [reflexivity|]. split; [intros; cbn [In]; tauto|reflexivity].
  - cbn [other_words filter]. destruct (existsb (String.eqb a) attribute_words) eqn:E; cbn [negb].
    + destruct (attribute_some a bits E) as (k & K & ->). destruct (IH (N.setbit bits (N.of_nat k)) ts w) as (bits' & R & H). exists bits'. split; [exact R|]. now apply (bits_step a l bits bits' k).
    + rewrite (attribute_none a bits E). destruct (IH bits ts (w ++ [Warns IgnoringCode "ignoring unrecognized type attribute"])%list) as (bits' & R & H & H'). exists bits'. split.
      * rewrite R. do 2 f_equal. cbn [ignored map]. fold (other_words l). now rewrite <- app_assoc.
      * split; [|exact H']. intros k x K. rewrite (H k x K). cbn [In]. assert (a <> x); [|intuition]. intros ->. apply Bool.not_true_iff_false in E. apply E. apply existsb_exists. exists x.
        split; [now apply nth_error_In in K|apply String.eqb_refl].
Qed.
Lemma definition_first : forall fuel ts l bits, match other_words l with [] => ts = no_spec | a :: _ => parse_type_specification fuel a = Val ts end -> exists bits',
  definition_loop fuel l false bits no_spec [] = Val (bits', ts, map remarked (ignored (tl (other_words l)))) /\
  (forall k x, nth_error attribute_words k = Some x -> N.testbit bits' (N.of_nat k) = true <-> N.testbit bits (N.of_nat k) = true \/ In x l) /\
  forall k, (7 <= k)%N -> N.testbit bits' k = N.testbit bits k.
Proof.
  intros fuel ts. induction l as [|a l IH]; intros bits H; cbn [definition_loop].
  - cbn in H. subst ts. exists bits. split; [reflexivity|]. split; [intros; cbn [In]; tauto|reflexivity].
  - cbn [other_words filter] in *. destruct (existsb (String.eqb a) attribute_words) eqn:E; cbn [negb] in *.
    + destruct (attribute_some a bits E) as (k & K & ->). destruct (IH (N.setbit bits (N.of_nat k)) H) as (bits' & R & Q). exists bits'. split; [exact R|]. now apply (bits_step a l bits bits' k).
    + rewrite (attribute_none a bits E). rewrite H. cbn [andthen tl]. destruct (definition_rest fuel l bits ts []) as (bits' & R & Q & Q'). exists bits'. split; [exact R|]. split; [|exact Q'].
      intros k x K. rewrite (Q k x K). cbn [In]. assert (a <> x); [|intuition]. intros ->. apply Bool.not_true_iff_false in E. apply E. apply existsb_exists. exists x.
      split; [now apply nth_error_In in K|apply String.eqb_refl].
Qed.
Lemma bits_unique : forall l b b', bits_say l b -> bits_say l b' -> b = b'.
Proof.
  intros l b b' [H K] [H' K']. apply N.bits_inj. intros k. destruct (N.ltb_spec k 7) as [L|L]; [|now rewrite K, K'].
  assert (X : exists w, nth_error attribute_words (N.to_nat k) = Some w).
  { destruct (nth_error attribute_words (N.to_nat k)) as [w|] eqn:E; [now exists w|]. apply nth_error_None in E. cbn in E. lia. }
  destruct X as [w W]. specialize (H _ _ W). specialize (H' _ _ W). rewrite Nnat.N2Nat.id in H, H'. destruct (N.testbit b k), (N.testbit b' k); intuition congruence.
Qed.
(** what the effects come to *)
Fixpoint performed (d : list (string * list string)) (l : list effect) : list (string * list string) * list remark :=
  match l with
  | [] => (d, [])
  | Says c m :: r => let '(d, w) := performed d r in (d, Warns c m :: w)
  | Depends on by_ strict :: r => let '(d, e) := add_dependency d on by_ strict in let '(d, w) := performed d r in (d, (failed_by e ++ w)%list)
  end.
Lemma performed_app : forall l m d, performed d (l ++ m) = let '(d, w) := performed d l in let '(d, w') := performed d m in (d, (w ++ w')%list).
Proof.
  induction l as [|[c x|on by_ s] l IH]; intros m d; cbn [performed app].
  - now destruct (performed d m).
  - rewrite IH. destruct (performed d l) as [d1 w1]. now destruct (performed d1 m).
  - destruct (add_dependency d on by_ s) as [d0 e]. rewrite IH. destruct (performed d0 l) as [d1 w1]. destruct (performed d1 m) as [d2 w2]. now rewrite app_assoc.
Qed.
Lemma performed_says : forall l d, (forall e, In e l -> exists c m, e = Says c m) -> performed d l = (d, map remarked l).
Proof.
  induction l as [|e l IH]; intros d H; [reflexivity|]. destruct (H e (or_introl eq_refl)) as (c & m & ->). cbn [performed map]. rewrite IH; [reflexivity|]. intros x I. apply H. now right.
Qed.
Lemma ignored_says : forall l e, In e (ignored l) -> exists c m, e = Says c m.
Proof. intros l e I. apply in_map_iff in I as (x & <- & _). eauto. Qed.
Lemma no_bits : forall k, N.testbit 0 k = false.
Proof. exact N.bits_0. Qed.
Lemma names_type_iff : forall s, names_type s = true <-> is_name s.
Proof. intros [l v]. unfold names_type, is_name. cbn. destruct (String.eqb_spec l ""), v; cbn; intuition congruence. Qed.
Lemma base_ok : forall known n b, base_says known n b ->
  match parse_base (n_base n), m_find known (s_literal (n_symbol n)) with UndefinedBT, Some b => b | b, _ => b end = b.
Proof.
  intros known n b H. destruct H as [b s I|b s I|s|s b F|s F]; cbn [n_base n_symbol].
  - cbn in I. destruct I as [<-|[<-|[<-|[]]]]; now destruct (m_find _ _).
  - cbn in I. destruct I as [<-|[<-|[]]]; now destruct (m_find _ _).
  - now destruct (m_find _ _).
  - now rewrite F.
  - now rewrite F.
Qed.
Lemma base_total : forall known n, exists b, base_says known n b.
Proof.
  intros known [b s].
  assert (P : forall c, In c [BooleanTN; StringTN; NumberTN] -> exists b, base_says known (TN c s) b) by (intros c I; exists PrimitiveBT; now apply base_primitive).
  assert (V : forall c, In c [ArrayTN; EnumTN] -> exists b, base_says known (TN c s) b) by (intros c I; exists ValueBT; now apply base_values).
  destruct b; try (apply P; cbn; tauto); try (apply V; cbn; tauto); try (exists ObjectBT; now apply base_object).
  destruct (m_find known (s_literal s)) as [b|] eqn:E; [exists b; now apply base_known|exists UndefinedBT; now apply base_unknown].
Qed.
Definition td_ok (fuel : nat) (l : list string) : Prop := Forall (fun a => String.length a < fuel) l.
Lemma others_in : forall l a, In a (other_words l) -> In a l.
Proof. intros l a I. now apply filter_In in I. Qed.
Lemma definition_ok : forall t context l td e, definition_says (bases t) context l td e -> forall fuel, td_ok fuel l ->
  parse_type_definition fuel context l t = let '(d, w) := performed (deps t) e in Val (td, set_deps t d, w).
Proof.
  intros t context l td e H fuel F. destruct H as [ts bits b e1 e2 e3 B T Ba U O].
  assert (X : match other_words l with [] => ts = no_spec | a :: _ => parse_type_specification fuel a = Val ts end /\ e1 = ignored (tl (other_words l))).
  { destruct T as [l E|l a more ts E S]; rewrite E; [now split|]. split; [|reflexivity]. apply spec_ok; [exact S|]. unfold td_ok in F. rewrite Forall_forall in F. apply F, others_in. rewrite E. now left. }
  destruct X as [X ->]. unfold parse_type_definition. destruct (definition_first fuel ts l 0%N X) as (bits' & R & Q & Q'). rewrite R. cbn [andthen].
  assert (bits' = bits). { apply (bits_unique l); [|exact B]. split; [|exact Q']. intros k w K. rewrite (Q k w K), no_bits. intuition discriminate. } subst bits'.
  rewrite (base_ok _ _ _ Ba). rewrite !performed_app. rewrite (performed_says (ignored _)) by apply ignored_says.
  assert (Y : (match b with UndefinedBT => if names_type (n_symbol (t_name ts)) then add_dependency (deps t) (s_literal (n_symbol (t_name ts))) context false else (deps t, None) | _ => (deps t, None) end) =
    (let '(d, w) := performed (deps t) e2 in (d, match w with [Fails x] => Some x | _ => None end)) /\ snd (performed (deps t) e2) = failed_by (match snd (performed (deps t) e2) with [Fails x] => Some x | _ => None end)).
  { destruct U as [s N|b s N].
    - rewrite (proj2 (names_type_iff _) N). cbn [performed]. destruct (add_dependency _ _ _ _) as [d [x|]]; now split.
    - split; [|reflexivity]. cbn [performed]. destruct b; try reflexivity. destruct (names_type s) eqn:E; [|reflexivity]. apply names_type_iff in E. tauto. }
  destruct Y as [Y Z]. destruct (performed (deps t) e2) as [d w] eqn:E2. rewrite Y. cbn [snd] in Z.
  assert (V : performed d e3 = (d, match b, t_nested ts with
             | ValueBT, _ | ImplicitValueBT, _ | _, [] => []
             | _, _ => [Warns LogicalErrorCode "nested types should be present only for types which are sub typed from either array or enum structure type"]
             end)).
  { destruct O as [b ns [I | ->]|b ns N M].
    - cbn in I. destruct I as [<-|[<-|[]]]; reflexivity.
    - now destruct b.
    - destruct ns; [contradiction|]. destruct b; try reflexivity; elim N; cbn; tauto. }
  rewrite performed_app, E2, V. rewrite Z at 2. reflexivity.
Qed.
Lemma definition_total : forall known context l, exists td e, definition_says known context l td e.
Proof.
  intros known context l.
  assert (B : exists bits, bits_say l bits).
  { destruct (definition_rest 0 l 0%N no_spec []) as (bits & _ & Q & Q'). exists bits. split; [|exact Q']. intros k w K. rewrite (Q k w K), no_bits. intuition discriminate. }
  destruct B as [bits B]. assert (T : exists ts e, type_says l ts e).
  { destruct (other_words l) as [|a more] eqn:E; [do 2 eexists; now apply type_none|]. destruct (spec_total a) as [ts S]. do 2 eexists. exact (type_first l a more ts E S). }
  destruct T as (ts & e1 & T). destruct (base_total known (t_name ts)) as [b Ba].
  assert (U : exists e, unknown_type context b (n_symbol (t_name ts)) e).
  { destruct (names_type (n_symbol (t_name ts))) eqn:N; [apply names_type_iff in N|].
    - destruct b; try (eexists; apply unknown_not; left; discriminate). eexists. now apply unknown_named.
    - eexists. apply unknown_not. right. intros X. apply names_type_iff in X. congruence. }
  destruct U as [e2 U].
  assert (O : exists e, odd_nested b (t_nested ts) e).
  { destruct (t_nested ts) as [|n ns]; [eexists; apply odd_fine; now right|]. destruct b; try (eexists; apply odd_fine; left; cbn; tauto); eexists; apply odd_said; cbn; intuition discriminate. }
  destruct O as [e3 O]. do 2 eexists. eapply definition_by; eassumption.
Qed.
Lemma type_unique : forall l ts e ts' e', type_says l ts e -> type_says l ts' e' -> ts = ts' /\ e = e'.
Proof.
  intros l ts e ts' e' H H'. destruct H as [l E|l a more ts E S]; inversion H' as [l' E'|l' a' more' ts2 E' S']; subst; rewrite E in E'; try discriminate; [now split|].
  injection E' as <- <-. split; [now apply (spec_unique a)|reflexivity].
Qed.
Lemma definition_unique : forall known context l td e td' e', definition_says known context l td e -> definition_says known context l td' e' -> td = td' /\ e = e'.
Proof.
  intros known context l td e td' e' [ts bits b e1 e2 e3 B T Ba U O] [ts' bits' b' e1' e2' e3' B' T' Ba' U' O'].
  destruct (type_unique _ _ _ _ _ T T') as [<- <-]. rewrite (bits_unique _ _ _ B B'). assert (b' = b) as -> by (rewrite <- (base_ok _ _ _ Ba), <- (base_ok _ _ _ Ba'); reflexivity). clear Ba Ba'. split; [reflexivity|]. f_equal. f_equal.
  - destruct U as [s N|b s N]; inversion U'; subst; solve [tauto | reflexivity | intuition congruence].
  - destruct O as [b ns N|b ns N M]; inversion O'; subst; solve [tauto | reflexivity | intuition congruence].
Qed.

(** ** names of properties *)
Lemma inner_differs : forall (a b : string) (c : ascii) (d : string), b <> a +++ b +++ String c d.
Proof. intros a b c d E. apply (f_equal String.length) in E. rewrite !length_append in E. cbn in E. lia. Qed.
Lemma emphasised_ok : forall s w, emphasised_text s w -> exists left, check_variable s = Val true /\ retrieve_escaped s 0 true = Val (w, left).
Proof.
  intros s w [s' w' E D N|s' E D]; inversion D as [c n body rest Em A L X Y Z|c n after Em A O X Y Z|]; subst.
  - eexists. split; [now apply check_true|]. exact (proj1 (denotes_inner_text _ _ _ _ Em A L X)).
  - congruence.
  - exfalso. match goal with H : _ = _ |- _ => exact (inner_differs (run_of (S n) c) _ c (run_of n c +++ rest) (eq_sym H)) || exact (inner_differs (run_of (S n) c) _ c (run_of n c +++ rest) H) end.
  - eexists. split; [now apply check_true|]. now apply denotes_open_text.
Qed.
Lemma emphasised_total : forall s, emphasised s -> exists w, emphasised_text s w.
Proof.
  intros s E. destruct (denotes_total s) as (w & b & D). destruct b; [|inversion D; contradiction]. destruct (string_dec w s) as [->|N]; [exists ""; now constructor|exists w; now constructor].
Qed.
Lemma enough_each : forall l, Forall (fun a => String.length a < enough_for l) l.
Proof.
  intros l. apply Forall_forall. intros a I. unfold enough_for. enough (String.length a <= list_sum (map String.length l)) by lia. induction l as [|b l IH]; [destruct I|].
  cbn [map]. change (list_sum (String.length b :: map String.length l)) with (String.length b + list_sum (map String.length l)). destruct I as [->|I]; [lia|apply IH in I; lia].
Qed.
Lemma enough_two : forall a b, String.length a + String.length b < enough_for [a; b].
Proof. intros a b. unfold enough_for. cbn [map]. change (list_sum [String.length a; String.length b]) with (String.length a + (String.length b + 0)). lia. Qed.
Lemma property_ok : forall t context text s o, property_says (bases t) context text s o ->
  parse_property_name context text s t =
  match o with Some (x, v, e) => let '(d, w) := performed (deps t) e in Val (x, v, set_deps t d, w) | None => ByteBuffer.Wild end.
Proof.
  intros t context text s o H. destruct H as [s w N B|s w p m v td e E Sg V D|s w E Sg].
  - unfold parse_property_name. rewrite (check_false _ N). cbn [andthen]. destruct (strip_bare _ _ B) as [left ->]. cbn. now destruct t.
  - unfold parse_property_name. destruct (emphasised_ok _ _ E) as (left & C & R). rewrite C. cbn [andthen]. rewrite R. cbn [andthen]. change property_shape with (shape_of property_traits) in Sg.
    rewrite (signed_ok _ _ _ _ Sg) by apply enough_two. cbn [andthen sig_of Signature.value attributes].
    assert (Vo : (if String.eqb (p_value p) "" then Val [] else andthen (parse_value (p_value p)) (fun v => Val [v])) = Val v).
    { destruct (String.eqb (p_value p) ""); [now subst v|]. destruct V as (x & -> & V). now rewrite (value_ok _ _ V). }
    rewrite Vo. cbn [andthen]. rewrite (definition_ok _ _ _ _ _ D _ (enough_each _)).
    destruct (performed (deps t) e) as [d w'] eqn:P. rewrite performed_app. rewrite performed_says by (intros x I; apply in_map_iff in I as (y & <- & _); eauto). rewrite P. cbn [andthen]. now rewrite map_map.
  - unfold parse_property_name. destruct (emphasised_ok _ _ E) as (left & C & R). rewrite C. cbn [andthen]. rewrite R. cbn [andthen]. change property_shape with (shape_of property_traits) in Sg.
    rewrite (signed_ok _ _ _ _ Sg) by apply enough_two. reflexivity.
Qed.
Lemma property_total : forall known context text s, exists o, property_says known context text s o.
Proof.
  intros known context text s. destruct (emphasised_dec s) as [E|N].
  - destruct (emphasised_total s E) as [w W]. destruct (signed_total property_traits text w) as [[[p m]|] S].
    + destruct (definition_total known context (p_attributes p)) as (td & e & D). destruct (value_total (p_value p)) as [x V].
      eexists. eapply (property_variable _ _ _ s w p m (if String.eqb (p_value p) "" then [] else [x])); [exact W|exact S| |exact D].
      destruct (String.eqb (p_value p) ""); [reflexivity|exists x; split; [reflexivity|exact V]].
    + eexists. eapply property_undefined; [exact W|exact S].
  - destruct (bare_total s) as [w B]. eexists. exact (property_literal _ _ _ s w N B).
Qed.
