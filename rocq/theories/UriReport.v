From Verif Require Import Base Peg Utf8Spec MediaType MediaSpec MediaProofs UriTemplate UriSpec UriChars UriProofs.
Local Open Scope string_scope.

(** ** Where a text goes wrong *)
Lemma encode_printable : forall s, every (fun a => 16 <= byte a)%N s -> encode_string s = percent s.
Proof.
  unfold every, percent. induction s as [|a s IH]; intros H; [reflexivity|]. cbn [list_ascii_of_string map sconcat encode_string] in *. inversion H as [|? ? A H']; subst.
  rewrite (IH H'). rewrite !append_assoc. f_equal. rewrite <- append_assoc. f_equal. clear -A. destruct a as [[] [] [] [] [] [] [] []]; vm_compute; try reflexivity; vm_compute in A; congruence.
Qed.
Definition enc (e : option string) : string := match e with Some c => encode_string c | None => "" end.
Lemma utf8_not_empty : forall c, utf8 c <> "".
Proof. intros c. unfold utf8, utf8_bytes. destruct (c <=? 127)%N; [discriminate|]. destruct (c <=? 2047)%N; [discriminate|]. destruct (c <=? 65535)%N; discriminate. Qed.
Lemma utf8_ascii : forall a, (byte a < 128)%N -> utf8 (byte a) = String a "".
Proof. intros a H. unfold utf8, utf8_bytes. destruct (byte a <=? 127)%N eqn:E; bytes; [|lia]. cbn [of_bytes]. now rewrite chr_byte. Qed.
Lemma dots_run : forall n i s, (String.length i < n)%nat -> exists d r, every (eq "."%char) d /\ ~ starts "." r /\ i = d +++ r /\ p_star (is_char ".") i s = Matched r (s : located).
Proof.
  induction n as [|n IH]; intros i s H; [lia|]. destruct i as [|a i]; [exists "", ""; repeat split; [constructor|intros [x X]; discriminate]|].
  destruct (Ascii.eqb_spec "." a) as [<-|N].
  - destruct (IH i s) as (d & r & D & R & -> & E); [cbn in H; lia|]. exists (String "." d), r. repeat split; [now constructor|exact R|].
    rewrite (star_step (is_char ".") _ s (d +++ r) s); [exact E|apply one_shrinks|apply char_ok].
  - exists "", (String a i). repeat split; [constructor|intros [x [= X _]]; congruence|]. apply star_stop, char_no. intros [x [= X _]]. congruence.
Qed.
Definition l_blame : rule located := p_sor l_triplet (p_sor l_dots l_char).
Lemma blame_ok : forall bad, exists m e, blamed bad m e /\ (l_blame bad ("", "") = Failed (m, enc e) \/ exists r, l_blame bad ("", "") = Matched r (m, enc e)).
Proof.
  intros bad. change (l_blame bad ("", "")) with (match l_triplet bad ("", "") with Failed s' => p_sor l_dots l_char bad s' | o => o end).
  assert (T : (exists a b r, bad = String "%" (String a (String b r))) \/ (l_triplet bad ("", "") = Failed ("", "") /\ forall a b r, bad <> String "%" (String a (String b r)))).
  { unfold l_triplet, p_act, p_seq. destruct bad as [|c bad]; [right; split; [reflexivity|discriminate]|].
    destruct (Ascii.eqb_spec "%" c) as [<-|N]; [|right; split; [now rewrite char_no by (intros [x [= X _]]; congruence)|intros a b r [= X _]; congruence]].
    rewrite char_ok. destruct bad as [|a [|b r]]; [right; split; [reflexivity|discriminate]|right; split; [reflexivity|discriminate]|left; eauto]. }
  destruct T as [(a & b & r & ->)|[T NT]].
  - exists ("percent encoded character '" +++ String "%" (String a (String b "'"))), None. split; [constructor|]. right. exists r.
    unfold l_triplet, p_act, p_seq. rewrite char_ok. unfold p_any, p_one, consumed. cbn [String.length]. replace (S (S (S (String.length r))) - String.length r)%nat with 3%nat by lia. cbn.
    assert (E : substring 0 0 r = "") by (destruct r; reflexivity). rewrite E. reflexivity.
  - rewrite T. unfold p_sor. destruct bad as [|c bad].
    { exists "", None. split; [|now left]. constructor. intros c q _ E. symmetry in E. pose proof (utf8_not_empty c). destruct (utf8 c); [congruence|discriminate]. }
    assert (D : (c = "." /\ starts "." bad)%char \/ (l_dots (String c bad) ("", "") = Failed ("", "") /\ (c = "."%char -> ~ starts "." bad))).
    { unfold l_dots, p_act, p_seq, p_plus. destruct (Ascii.eqb_spec "." c) as [<-|N]; [|right; split; [now rewrite char_no by (intros [x [= X _]]; congruence)|congruence]].
      rewrite char_ok. destruct bad as [|a bad]; [right; split; [reflexivity|intros _ [x X]; discriminate]|].
      destruct (Ascii.eqb_spec "." a) as [<-|N]; [left; split; [reflexivity|now exists bad]|right]. unfold p_seq.
      split; [now rewrite char_no by (intros [x [= X _]]; congruence)|intros _ [x [= X _]]; congruence]. }
    destruct D as [[-> [q ->]]|[D ND]].
    + destruct (dots_run _ q ("", "") (Nat.lt_succ_diag_r _)) as (d & r & E & R & -> & P). exists ("continuous dots '" +++ String "." (String "." d) +++ "'"), None. split.
      * apply (blame_dots (String "." (String "." d)) r); [repeat constructor; exact E|cbn; lia|exact R].
      * right. exists r. unfold l_dots, p_act, p_plus, p_seq. rewrite !char_ok.
        match goal with |- context [p_star ?p ?i ?s] => replace (p_star p i s) with (Matched r s) by (symmetry; exact P) end. change (String "." (String "." (d +++ r))) with (String "." (String "." d) +++ r). rewrite consumed_app. reflexivity.
    + rewrite D. unfold l_char, p_act, p_utf8. destruct (peek_utf8 (String c bad)) as [[x r]|] eqn:P.
      * apply peek_sound in P as [Sc P]. rewrite P. rewrite consumed_app. destruct (String.eqb_spec (utf8 x) "{") as [E|E].
        { exists "nested expression brace '{'", (Some "{"). rewrite E. split; [apply blame_brace|]. right. exists r. reflexivity. }
        exists ("character '" +++ utf8 x +++ "'"), (Some (utf8 x)). split.
        { constructor; [exact Sc|exact E| |]; intros U; rewrite U in P; injection P as -> ->.
          - destruct r as [|a [|b r]]; cbn; try lia. exfalso. now apply (NT a b r).
          - now apply ND. }
        right. exists r. reflexivity.
      * exists "", None. split; [|now left]. constructor. intros x q Sx E. rewrite E, (peek_complete x q Sx) in P. discriminate.
Qed.
Lemma lit_failed_none : forall bad (s : located), lit_one bad s = Failed s -> forall c q, literal_char c -> bad <> c +++ q.
Proof. intros bad s F c q C ->. now rewrite (lit_ok c q s C) in F. Qed.
Lemma name_failed_none : forall bad (s : located), u_varchar bad s = Failed s -> forall c q, UriSpec.name_char c -> bad <> c +++ q.
Proof. intros bad s F c q C ->. now rewrite (varchar_ok c q s C) in F. Qed.
Lemma invalid_part_ok : forall t, exists w, invalid_part t = Some w /\ about_text t w.
Proof.
  intros t. unfold invalid_part, locator. fold l_blame. unfold p_seq, p_sor at 1.
  assert (B : exists good bad, t = good +++ bad /\ (good = "" \/ literal good) /\ (forall c q, literal_char c -> bad <> c +++ q) /\
            match u_literals t (("", "") : located) with Failed s' => p_nothing t s' | o => o end = Matched bad (("", "") : located)).
  { destruct (literals_sound t (("", "") : located)) as [(g & bad & G & E & P & Q)|[P Q]]; rewrite P.
    - exists g, bad. repeat split; [exact E|now right|exact (lit_failed_none bad _ Q)].
    - exists "", t. repeat split; [now left|exact (lit_failed_none t _ Q)]. }
  destruct B as (good & bad & -> & G & Z & ->). destruct (blame_ok bad) as (m & e & M & [H|[r H]]); rewrite H;
    (eexists; split; [reflexivity|]; exists good, bad, m, e; repeat split; assumption).
Qed.
Lemma varspec_located : forall t (s : located), (exists v good bad, var_spec v good /\ t = good +++ bad /\ u_varspec t s = Matched bad s) \/ (u_varspec t s = Failed s /\ u_varchar t s = Failed s).
Proof.
  intros i s. unfold u_varspec, p_seq. destruct (varname_sound i s) as [(n & r & N & -> & E & _)|[E F]]; rewrite E; [left|right; split; [reflexivity|exact F]].
  unfold p_opt, p_sor.
  destruct r as [|a r]; [exists (Var n 0 false), n, ""; repeat split; now constructor|].
  destruct (Ascii.eqb_spec ":" a) as [<-|A].
  - rewrite char_ok. destruct (prefix_sound r s) as [(d & q & D & L & -> & F)|F]; rewrite F.
    + exists (Var n (number d) false), (n +++ ":" +++ d), q. repeat split; [now constructor|now rewrite !append_assoc].
    + rewrite char_no by (intros [x H]; discriminate). exists (Var n 0 false), n, (String ":" r). repeat split. now constructor.
  - rewrite (char_no ":") by (intros [x [= X _]]; congruence). destruct (Ascii.eqb_spec "*" a) as [<-|B].
    + rewrite char_ok. exists (Var n 0 true), (n +++ "*"), r. repeat split; [now constructor|now rewrite append_assoc].
    + rewrite char_no by (intros [x [= X _]]; congruence). exists (Var n 0 false), n, (String a r). repeat split. now constructor.
Qed.
Lemma blamed_char : forall bad m c, blamed bad m (Some c) -> c <> "".
Proof. intros bad m c H. inversion H; subst; [discriminate|apply utf8_not_empty]. Qed.
Lemma enc_not_empty : forall c, c <> "" -> encode_string c <> "".
Proof. intros [|a c] H; [congruence|discriminate]. Qed.
Lemma invalid_variable_ok : forall t, exists w, invalid_variable t = Some w /\ about_variable t w.
Proof.
  intros t. unfold invalid_variable, locator. fold l_blame. unfold p_seq, p_sor at 1.
  assert (B : exists good bad, t = good +++ bad /\ ((good = "" /\ forall c q, UriSpec.name_char c -> bad <> c +++ q) \/ exists v, var_spec v good) /\
            match u_varspec t (("", "") : located) with Failed s' => p_nothing t s' | o => o end = Matched bad (("", "") : located)).
  { destruct (varspec_located t (("", "") : located)) as [(v & g & bad & G & E & P)|[P Q]]; rewrite P.
    - exists g, bad. repeat split; [exact E|right; now exists v].
    - exists "", t. repeat split. left. split; [reflexivity|exact (name_failed_none t _ Q)]. }
  destruct B as (good & bad & E & G & ->). destruct (blame_ok bad) as (m & e & M & H).
  assert (W : forall x, (if String.eqb (enc e) "" then "" else ", which should be encoded as '" +++ enc e +++ "'") = x -> printable_char e -> x = encode_hint e).
  { intros x <- P. destruct e as [c|]; [|reflexivity]. cbn [enc]. rewrite (proj2 (String.eqb_neq _ _) (enc_not_empty c (blamed_char _ _ _ M))). cbn [encode_hint].
    now rewrite (encode_printable c P). }
  specialize (W _ eq_refl).
  destruct H as [H|[r H]]; rewrite H; (eexists; split; [reflexivity|]; exists good, bad, m, e; repeat split; [exact E|exact G|exact M|]; intros P; now rewrite (W P)).
Qed.

(** ** All warnings *)
Lemma sequence_ok : forall {A B} (R : A -> B -> Prop) (f : A -> option B) l, (forall a, In a l -> exists b, f a = Some b /\ R a b) -> exists bs, sequence (map f l) = Some bs /\ Forall2 R l bs.
Proof.
  intros A B R f l. induction l as [|a l IH]; intros H; [exists []; split; [reflexivity|constructor]|].
  destruct (H a (or_introl eq_refl)) as (b & E & K). destruct IH as (bs & F & G); [intros x X; apply H; now right|]. exists (b :: bs). split; [|now constructor].
  cbn [map sequence fold_right]. change (fold_right _ (Some []) (map f l)) with (sequence (map f l)). now rewrite E, F.
Qed.
Lemma check_ok : forall s p, part_of s p -> exists ws, check_part p = Some ws /\ remarks s ws.
Proof.
  intros s p [t L|t L|b closed o rest ps is O P I].
  - exists []. split; [reflexivity|now constructor].
  - destruct (invalid_part_ok t) as (w & E & A). exists [w]. cbn [check_part]. rewrite E. split; [reflexivity|now constructor].
  - assert (X : exists ws, sequence (map (fun v => match v with GoodItem _ => Some [] | InvalidItem t => option_map (fun m => [m]) (invalid_variable t) end) is) = Some ws /\ Forall2 about_item ps ws).
    { clear O P. induction I as [|p0 i ps is H I (ws & E & F)]; [exists []; split; [reflexivity|constructor]|].
      assert (Y : exists w, match i with GoodItem _ => Some [] | InvalidItem t => option_map (fun m => [m]) (invalid_variable t) end = Some w /\ about_item p0 w).
      { destruct H as [(v & -> & V)|[-> V]]; [exists []; split; [reflexivity|left; split; [now exists v|reflexivity]]|].
        destruct (invalid_variable_ok p0) as (w & E' & A). exists [w]. rewrite E'. split; [reflexivity|]. right. split; [exact V|]. now exists w. }
      destruct Y as (w & Y & A). exists (w :: ws). split; [|now constructor]. cbn [map sequence fold_right].
      change (fold_right _ (Some []) (map _ is)) with (sequence (map (fun v => match v with GoodItem _ => Some [] | InvalidItem t => option_map (fun m => [m]) (invalid_variable t) end) is)).
      now rewrite Y, E. }
    destruct X as (ws & E & F). eexists. cbn [check_part x_vars x_type x_unclosed]. rewrite E. split; [reflexivity|].
    replace (if supported o then [] else [("URI template '" +++ op_text o +++ "' expansion is not supported")%string]) with (about_operator o) by now destruct o.
    replace (if negb closed then ["URI Template expression is missing closing bracket '}'"] else []) with (if closed then [] else ["URI Template expression is missing closing bracket '}'"]) by now destruct closed.
    now apply (remark_braces b closed o rest ps ws).
Qed.
Lemma warnings_ok : forall uri segs, cuts uri segs -> exists ws, uri_warnings uri = Some (concat ws) /\ Forall2 remarks segs ws.
Proof.
  intros uri segs C. destruct uri as [|a uri'] eqn:U.
  - inversion C as [|t rest l N _ _ _ E| |]; subst; [exists []; split; [reflexivity|constructor]|]. destruct t; [congruence|discriminate].
  - rewrite <- U in *. destruct (parts_total uri segs C) as (l & L). assert (N : uri <> "") by (rewrite U; discriminate).
    pose proof (template_ok uri segs l C L N) as P.
    assert (X : exists ws, sequence (map check_part l) = Some ws /\ Forall2 remarks segs ws).
    { clear P C. induction L as [|s p segs l H L (ws & E & F)]; [exists []; split; [reflexivity|constructor]|]. destruct (check_ok s p H) as (w & W & R). exists (w :: ws).
      split; [|now constructor]. cbn [map sequence fold_right]. change (fold_right _ (Some []) (map check_part l)) with (sequence (map check_part l)). now rewrite W, E. }
    destruct X as (ws & E & F). exists ws. split; [|exact F]. unfold uri_warnings. rewrite U in *. now rewrite P, E.
Qed.
