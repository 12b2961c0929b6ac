From Verif Require Import Base StringUtility StringSpec StringProofs Regex RegexSpec RegexProofs ByteBuffer Markdown MarkdownSpec Keywords KeywordsSpec.
Local Open Scope string_scope.

(** ** single expressions *)
Definition B : re := Star (Set_ false [(32, 32); (9, 9)]%N).
Lemma blank_set : forall c, in_set false [(32, 32); (9, 9)]%N c = true <-> blank_char c.
Proof.
  intros c. rewrite in_set_spec. unfold blank_char. split.
  - intros [_ H]. specialize (H eq_refl). apply Exists_exists in H as (r & [<-|[<-|[]]] & H); cbn in H; [left|right]; rewrite <- (chr_byte c);
      (replace (byte c) with 32%N by lia) || (replace (byte c) with 9%N by lia); reflexivity.
  - intros H. split; [reflexivity|]. intros _. destruct H as [-> | ->]; [left|right; left]; cbn; lia.
Qed.
Lemma all_iff : forall (P Q : ascii -> Prop), (forall c, P c <-> Q c) -> forall s, all P s <-> all Q s.
Proof. intros P Q H s. unfold all. rewrite !Forall_forall. split; intros A x I; apply H, A, I. Qed.
Lemma B_spec : forall s, lang B s <-> blanks s.
Proof. intros s. unfold B. rewrite star_set. apply all_iff. exact blank_set. Qed.
Lemma dot_any : forall c, in_set true [] c = true.
Proof. reflexivity. Qed.
Lemma lit_spec : forall c s, lang (Set_ false [(byte c, byte c)]) s <-> s = String c "".
Proof.
  intros c s. rewrite lang_set_iff. split.
  - intros (d & -> & H). f_equal. apply in_set_spec in H as [_ H]. specialize (H eq_refl). apply Exists_exists in H as (r & [<-|[]] & H). cbn in H.
    rewrite <- (chr_byte c), <- (chr_byte d). f_equal. lia.
  - intros ->. exists c. split; [reflexivity|]. apply in_set_spec. split; [reflexivity|]. intros _. left. cbn. lia.
Qed.
Lemma maybe_eps : forall n a s, lang (Alt (Grp n a) Eps) s <-> s = "" \/ lang a s.
Proof. intros n a s. rewrite lang_alt_iff, lang_grp_iff, lang_eps_iff. tauto. Qed.

(** ** a word in front *)
Definition same_words (a b : list string) : bool :=
  (forallb (fun w => existsb (String.eqb w) b) a && forallb (fun w => existsb (String.eqb w) a) b)%bool.
Lemma same_words_spec : forall a b, same_words a b = true -> forall w, In w a <-> In w b.
Proof.
  intros a b H w. apply andb_prop in H as [A C]. rewrite forallb_forall in A, C.
  split; intros I; [apply A in I|apply C in I]; apply existsb_exists in I as (x & I & E); apply String.eqb_eq in E; now subst.
Qed.
Definition check (r : re) (k : nat) (forms : list string) : bool :=
  match seq_of r with
  | b :: l => re_eqb b B && Nat.leb k (List.length l) && match words (cats (firstn k l)) with Some ws => same_words ws forms | None => false end
  | [] => false
  end%bool.
Lemma check_spec : forall r k forms, check r k forms = true -> forall s, lang r s <-> word_then forms (langs (skipn (S k) (seq_of r))) s.
Proof.
  intros r k forms H s. rewrite seq_of_spec. unfold check in H. destruct (seq_of r) as [|b l]; [discriminate|].
  apply andb_prop in H as [H W]. apply andb_prop in H as [E _]. apply re_eqb_spec in E. subst b.
  destruct (words (cats (firstn k l))) as [ws|] eqn:Ws; [|discriminate]. pose proof (same_words_spec _ _ W) as Sw.
  cbn [skipn]. rewrite <- (firstn_skipn k l) at 1. cbn [langs]. unfold word_then. split.
  - intros (p & q & -> & L & R). apply B_spec in L. apply langs_app in R as (w & t & -> & R & T). apply (langs_words _ _ Ws), Sw in R. now exists p, w, t.
  - intros (p & w & t & -> & L & R & T). exists p, (w +++ t). split; [reflexivity|]. split; [now apply B_spec|]. apply langs_app. exists w, t.
    repeat split; [|exact T]. now apply (langs_words _ _ Ws), Sw.
Qed.
Lemma word_then_iff : forall f (P Q : string -> Prop), (forall t, P t <-> Q t) -> forall s, word_then f P s <-> word_then f Q s.
Proof. intros f P Q H s. unfold word_then. split; intros (l & w & t & E & L & I & R); exists l, w, t; repeat split; auto; now apply H. Qed.
Ltac word k f := intros s; rewrite (check_spec _ k f); [apply word_then_iff; clear s; intros t|vm_compute; reflexivity].
Lemma langs_cons : forall a l s, langs (a :: l) s <-> exists p q, s = p +++ q /\ lang a p /\ langs l q.
Proof. reflexivity. Qed.
Lemma langs_nil : forall s, langs [] s <-> s = "".
Proof. reflexivity. Qed.
(** what remains: the blanks; blanks and perhaps more *)
Lemma rest_blanks : forall t, langs [B] t <-> blanks t.
Proof. intros t. rewrite langs_one. apply B_spec. Qed.
Lemma rest_maybe : forall n a P, (forall x, lang a x <-> P x) -> forall t, langs [B; Alt (Grp n a) Eps] t <-> maybe P t.
Proof.
  intros n a P H t. rewrite langs_cons. unfold maybe. split.
  - intros (p & q & -> & L & R). apply (proj1 (langs_one _ _)) in R. apply maybe_eps in R. exists p, q. repeat split; [now apply B_spec|].
    destruct R as [R|R]; [now left|right; now apply H].
  - intros (b & x & -> & L & R). exists b, x. repeat split; [now apply B_spec|]. apply langs_one, maybe_eps. destruct R as [R|R]; [now left|right; now apply H].
Qed.
Lemma lit_then : forall c l s, langs (Set_ false [(byte c, byte c)] :: l) s <-> exists t, s = String c t /\ langs l t.
Proof.
  intros c l s. rewrite langs_cons. split.
  - intros (p & q & -> & L & R). apply lit_spec in L. subst p. cbn. eauto.
  - intros (t & -> & R). exists (String c ""), t. repeat split; [now apply lit_spec|exact R].
Qed.
Lemma rest_any : forall t, langs [anything] t <-> True.
Proof. intros t. rewrite langs_one. split; [tauto|]. intros _. apply anything_spec. Qed.
Lemma any_then : forall l s, langs (anything :: l) s <-> exists p q, s = p +++ q /\ langs l q.
Proof. intros l s. rewrite langs_cons. split; [intros (p & q & E & _ & R); eauto|intros (p & q & E & R); exists p, q; repeat split; auto using anything_spec]. Qed.
Lemma colon_rest : forall x, lang (Cat (Set_ false [(58, 58)]%N) (Cat anything Eps)) x <-> starting ":" x.
Proof.
  intros x. rewrite seq_of_spec. cbn [seq_of app]. change [(58, 58)]%N with [(byte ":", byte ":")]. change (seq_of anything) with [anything]. cbn [app]. rewrite lit_then. unfold starting.
  split; [intros (t & E & _); eauto|intros (t & E); exists t; split; [exact E|]; now apply rest_any].
Qed.
Lemma slash_rest : forall x, lang (Cat (Set_ false [(47, 47)]%N) (Cat anything Eps)) x <-> starting "/" x.
Proof.
  intros x. rewrite seq_of_spec. cbn [seq_of app]. change [(47, 47)]%N with [(byte "/", byte "/")]. change (seq_of anything) with [anything]. cbn [app]. rewrite lit_then. unfold starting.
  split; [intros (t & E & _); eauto|intros (t & E); exists t; split; [exact E|]; now apply rest_any].
Qed.
Lemma blanks_then : forall l t, langs (B :: l) t <-> exists b x, t = b +++ x /\ blanks b /\ langs l x.
Proof.
  intros l t. rewrite langs_cons. split; intros (b & x & E & L & R); exists b, x; (split; [exact E|]); (split; [now apply B_spec|exact R]).
Qed.
Lemma gap_langs : forall l P, (forall x, langs l x <-> P x) -> forall t, langs (Set_ false [(32, 32); (9, 9)]%N :: B :: l) t <-> gap_then P t.
Proof.
  intros l P H t. rewrite langs_cons. unfold gap_then. split.
  - intros (p & q & -> & L & R). apply lang_set_iff in L as (c & -> & L). apply blank_set in L. apply blanks_then in R as (b & x & -> & Lb & R).
    exists b, c, x. repeat split; auto. now apply H.
  - intros (b & c & x & -> & L & Lb & R). exists (String c ""), (b +++ x). repeat split; [apply lang_set_iff; exists c; split; [reflexivity|now apply blank_set]|].
    apply blanks_then. exists b, x. repeat split; auto. now apply H.
Qed.

(** ** the keywords of list items *)
Lemma headers_text : forall s, lang (whole HeadersRegex) s <-> reads_headers s.
Proof. word 7%nat ["Headers"; "headers"; "Header"; "header"]. apply rest_blanks. Qed.
Lemma body_text : forall s, lang (whole BodyRegex) s <-> reads_body s.
Proof. word 4%nat ["Body"; "body"]. apply rest_blanks. Qed.
Lemma schema_text : forall s, lang (whole SchemaRegex) s <-> reads_schema s.
Proof. word 6%nat ["Schema"; "schema"]. apply rest_blanks. Qed.
Lemma parameters_text : forall s, lang (whole ParametersRegex) s <-> reads_parameters s.
Proof. word 10%nat ["Parameters"; "parameters"; "Parameter"; "parameter"]. apply rest_blanks. Qed.
Lemma values_text : forall s, lang (whole ValuesRegex) s <-> reads_values s.
Proof. word 6%nat ["Values"; "values"]. apply rest_blanks. Qed.
Lemma members_text : forall s, lang (whole MSONValueMembersTypeSectionRegex) s <-> reads_members s.
Proof. word 1%nat ["Items"; "items"; "Members"; "members"]. apply rest_blanks. Qed.
Lemma properties_text : forall s, lang (whole MSONPropertyMembersTypeSectionRegex) s <-> reads_properties s.
Proof. word 10%nat ["Properties"; "properties"]. apply rest_blanks. Qed.
Lemma attributes_text : forall s, lang (whole AttributesRegex) s <-> reads_attributes s.
Proof.
  word 10%nat ["Attributes"; "attributes"; "Attribute"; "attribute"]. refine (rest_maybe _ _ _ _ t). clear t. intros x. rewrite seq_of_spec.
  match goal with |- langs ?l x <-> _ => change l with [Set_ false [(byte "(", byte "(")]; anything; Set_ false [(byte ")", byte ")")]] end.
  rewrite lit_then. unfold in_parentheses. split.
  - intros (t & -> & H). apply any_then in H as (p & q & -> & H). apply (proj1 (lit_then _ _ _)) in H as (u & -> & H). cbn in H. subst u. now exists p.
  - intros (y & ->). exists (y +++ ")"). split; [reflexivity|]. apply any_then. exists y, ")". split; [reflexivity|]. apply lit_then. exists "". now split.
Qed.
Lemma default_text : forall s, lang (whole MSONDefaultTypeSectionRegex) s <-> reads_default s.
Proof. word 7%nat ["Default"; "default"]. refine (rest_maybe _ _ _ colon_rest t). Qed.
Lemma sample_text : forall s, lang (whole MSONSampleTypeSectionRegex) s <-> reads_sample s.
Proof. word 6%nat ["Sample"; "sample"]. refine (rest_maybe _ _ _ colon_rest t). Qed.
Lemma include_text : forall s, lang (whole MSONMixinRegex) s <-> reads_include s.
Proof. word 7%nat ["Include"; "include"]. refine (gap_langs _ _ _ t). exact rest_any. Qed.
Lemma one_of_text : forall s, lang (whole MSONOneOfRegex) s <-> reads_one_of s.
Proof.
  word 3%nat ["One"; "one"]. refine (gap_langs _ _ _ t). clear t. intros t.
  match goal with |- langs ?l t <-> _ => change l with (firstn 2 l ++ [B])%list end. rewrite langs_app.
  split; intros (w & r & -> & W & R); exists w, r; (split; [reflexivity|]); (split; [|now apply rest_blanks]).
  - eapply langs_words in W; [|vm_compute; reflexivity]. revert W. apply same_words_spec. reflexivity.
  - eapply langs_words; [vm_compute; reflexivity|]. revert W. apply same_words_spec. reflexivity.
Qed.
Lemma data_structures_text : forall s, lang (whole DataStructureGroupRegex) s <-> reads_data_structures s.
Proof.
  word 4%nat ["Data"; "data"]. refine (gap_langs _ _ _ t). clear t. intros t.
  match goal with |- langs ?l t <-> _ => change l with (firstn 10 l ++ [B])%list end. rewrite langs_app.
  split; intros (w & r & -> & W & R); exists w, r; (split; [reflexivity|]); (split; [|now apply rest_blanks]).
  - eapply langs_words in W; [|vm_compute; reflexivity]. revert W. apply same_words_spec. reflexivity.
  - eapply langs_words; [vm_compute; reflexivity|]. revert W. apply same_words_spec. reflexivity.
Qed.
Lemma relation_text : forall s, lang (whole RelationRegex) s <-> reads_relation s.
Proof.
  word 8%nat ["Relation"; "relation"].
  match goal with |- langs ?l t <-> _ => change l with [B; Set_ false [(byte ":", byte ":")]; anything] end. rewrite blanks_then. split.
  - intros (b & x & -> & L & R). apply (proj1 (lit_then _ _ _)) in R as (u & -> & _). now exists b, u.
  - intros (b & x & -> & L). exists b, (String ":" x). repeat split; [exact L|]. apply lit_then. exists x. split; [reflexivity|]. now apply rest_any.
Qed.
Lemma request_text : forall s, lang (whole RequestRegex) s <-> reads_request s.
Proof.
  intros s. rewrite (same_sound 1000 _ (whole "^[[:blank:]]*[Rr]equest")) by (vm_compute; reflexivity). revert s.
  word 7%nat ["Request"; "request"]. apply rest_any.
Qed.
Lemma response_text : forall s, lang (whole ResponseRegex) s <-> reads_response s.
Proof.
  intros s. rewrite (same_sound 1000 _ (whole "^[[:blank:]]*[Rr]esponse")) by (vm_compute; reflexivity). revert s.
  word 8%nat ["Response"; "response"]. apply rest_any.
Qed.

Definition NB : re := Set_ true [(93, 93); (91, 91); (40, 40); (41, 41)]%N.
Lemma not_in : forall l c, in_set true l c = true <-> ~ Exists (fun r => (fst r <= byte c <= snd r)%N) l.
Proof. intros l c. rewrite in_set_spec. split; [intros [H _] E; now apply H in E|intros H; split; [intros E; now apply H in E|discriminate]]. Qed.
Lemma byte_is : forall c d, byte c = byte d -> c = d.
Proof. intros c d H. rewrite <- (chr_byte c), <- (chr_byte d). now f_equal. Qed.
Lemma exact_set : forall l c, Exists (fun r => (fst r <= byte c <= snd r)%N) (map (fun d => (byte d, byte d)) l) <-> In c l.
Proof.
  intros l c. rewrite Exists_exists. split.
  - intros (r & I & H). apply in_map_iff in I as (d & <- & I). cbn in H. assert (byte c = byte d) by lia. apply byte_is in H0. now subst.
  - intros I. exists (byte c, byte c). split; [|cbn; lia]. now apply in_map with (f := fun d => (byte d, byte d)).
Qed.
Lemma nb_char : forall c, in_set true [(93, 93); (91, 91); (40, 40); (41, 41)]%N c = true <-> ~ In c ["["; "]"; "("; ")"]%char.
Proof.
  intros c. rewrite not_in. change [(93, 93); (91, 91); (40, 40); (41, 41)]%N with (map (fun d => (byte d, byte d)) ["]"; "["; "("; ")"]%char).
  rewrite exact_set. cbn. tauto.
Qed.
Lemma nb_star : forall s, lang (Star NB) s <-> no_brackets s.
Proof. intros s. unfold NB. rewrite star_set. apply all_iff. exact nb_char. Qed.
Lemma nb_plus : forall l s, langs (NB :: Star NB :: l) s <-> exists d n t, s = String d n +++ t /\ no_brackets (String d n) /\ langs l t.
Proof.
  intros l s. rewrite langs_cons. split.
  - intros (p & q & -> & L & R). apply lang_set_iff in L as (c & -> & L). apply nb_char in L. apply (proj1 (langs_cons _ _ _)) in R as (n & t & -> & N & R).
    apply nb_star in N. exists c, n, t. split; [reflexivity|]. split; [|exact R]. now apply all_cons.
  - intros (d & n & t & -> & N & R). apply all_cons in N as [Nd N]. exists (String d ""), (n +++ t). split; [reflexivity|].
    split; [apply lang_set_iff; exists d; split; [reflexivity|now apply nb_char]|]. apply langs_cons. exists n, t. repeat split; [now apply nb_star|exact R].
Qed.
Lemma blank_then : forall l s, langs (Set_ false [(32, 32); (9, 9)]%N :: l) s <-> exists c t, s = String c t /\ blank_char c /\ langs l t.
Proof.
  intros l s. rewrite langs_cons. split.
  - intros (p & q & -> & L & R). apply lang_set_iff in L as (c & -> & L). apply blank_set in L. now exists c, q.
  - intros (c & t & -> & L & R). exists (String c ""), t. repeat split; [|exact R]. apply lang_set_iff. exists c. split; [reflexivity|now apply blank_set].
Qed.
Lemma model_text : forall s, lang (whole ModelRegex) s <-> reads_model s.
Proof.
  intros s. rewrite (same_sound 1000 _ (whole "^([^][()]*[[:blank:]])?[Mm]odel[[:blank:]]*(\([^\)]*\)[[:blank:]]*)?$")) by (vm_compute; reflexivity).
  rewrite seq_of_spec.
  match goal with |- langs ?l s <-> _ => let l := eval vm_compute in l in
    match l with ?x :: ?a :: ?b :: ?c :: ?d :: ?e :: ?r => change (langs (x :: ([a; b; c; d; e] ++ r)) s <-> reads_model s) end end.
  rewrite langs_cons. unfold reads_model.
  assert (F : forall p, lang (Alt (Grp 1 (Cat (Star NB) (Cat (Set_ false [(32, 32); (9, 9)]%N) Eps))) Eps) p <->
    (no_brackets p /\ (p = "" \/ exists q c, p = q +++ String c "" /\ blank_char c))).
  { intros p. rewrite maybe_eps, seq_of_spec. cbn [seq_of app NB]. change (Set_ true [(93, 93); (91, 91); (40, 40); (41, 41)]%N) with NB. split.
    - intros [-> |H]; [split; [constructor|now left]|]. apply (proj1 (langs_cons _ _ _)) in H as (q & t & -> & L & R). apply nb_star in L.
      apply blank_then in R as (c & u & -> & C & U). cbn in U. subst u. split; [|right; eauto]. apply all_app. split; [exact L|]. apply all_cons. split; [|constructor].
      destruct C as [-> | ->]; cbn; intuition discriminate.
    - intros [N [-> |(q & c & -> & C)]]; [now left|right]. apply all_app in N as [N _]. apply langs_cons. exists q, (String c ""). repeat split; [now apply nb_star|].
      apply blank_then. exists c, "". repeat split; exact C. }
  assert (M : forall x, lang (Cat (Set_ false [(40, 40)]%N) (Cat (Star (Set_ true [(92, 92); (41, 41)]%N)) (Cat (Set_ false [(41, 41)]%N) (Cat B Eps)))) x <-> media x).
  { intros x. rewrite seq_of_spec. cbn [seq_of app]. change (seq_of B) with [B]. cbn [app]. change [(40, 40)]%N with [(byte "(", byte "(")].
    change [(41, 41)]%N with [(byte ")", byte ")")]. rewrite lit_then. unfold media.
    assert (St : forall s, lang (Star (Set_ true [(92, 92); (byte ")", byte ")")]%N)) s <-> all (fun c => c <> ")"%char /\ c <> "\"%char) s).
    { intros u. rewrite star_set. apply all_iff. intros c. rewrite not_in.
      change [(92, 92); (byte ")", byte ")")]%N with (map (fun d => (byte d, byte d)) ["\"; ")"]%char). rewrite exact_set. cbn. intuition congruence. }
    split.
    - intros (t & -> & H). apply (proj1 (langs_cons _ _ _)) in H as (u & v & -> & U & H). apply (proj1 (lit_then _ _ _)) in H as (y & -> & H).
      apply rest_blanks in H. exists u, y. repeat split; [|exact H]. now apply St.
    - intros (u & y & -> & U & H). exists (u +++ ")" +++ y). split; [reflexivity|]. apply langs_cons. exists u, (String ")" y). repeat split; [now apply St|].
      apply lit_then. exists y. split; [reflexivity|]. now apply rest_blanks. }
  assert (W : forall w, langs [Set_ false [(77, 77); (109, 109)]%N; Set_ false [(111, 111)]%N; Set_ false [(100, 100)]%N; Set_ false [(101, 101)]%N; Set_ false [(108, 108)]%N] w <-> In w ["Model"; "model"]).
  { intros w. rewrite (langs_words _ ["Model"; "model"]); [reflexivity|vm_compute; reflexivity]. }
  split.
  - intros (p & q & -> & P & Q). apply (proj1 (langs_app _ _ _)) in Q as (w & t & -> & Q & T). apply F in P as [P1 P2]. apply W in Q.
    apply (proj1 (rest_maybe _ _ _ M _)) in T. exists p, w, t. repeat split; assumption.
  - intros (p & w & t & -> & P1 & P2 & Q & T). exists p, (w +++ t). split; [reflexivity|]. split; [now apply F|]. apply langs_app. exists w, t.
    split; [reflexivity|]. split; [now apply W|]. now apply (rest_maybe _ _ _ M).
Qed.
Lemma group_text : forall s, lang (whole GroupHeaderRegex) s <-> reads_group s.
Proof.
  intros s. rewrite (same_sound 1000 _ (whole "^[[:blank:]]*[Gg]roup[[:blank:]][^][()]+$")) by (vm_compute; reflexivity). revert s.
  word 5%nat ["Group"; "group"].
  match goal with |- langs ?l t <-> _ => change l with [Set_ false [(32, 32); (9, 9)]%N; NB; Star NB] end. rewrite blank_then. split.
  - intros (c & u & -> & C & U). apply (proj1 (nb_plus _ _)) in U as (d & n & x & -> & N & X). cbn in X. subst x. exists c, d, n. rewrite append_nil_r. repeat split; assumption.
  - intros (c & d & n & -> & C & N). exists c, (String d n). repeat split; [exact C|]. apply nb_plus. exists d, n, "". rewrite append_nil_r. repeat split; assumption.
Qed.
Lemma named_langs : forall l P, (forall x, langs l x <-> P x) -> forall s,
  langs (NB :: Star NB :: Set_ false [(32, 32); (9, 9)]%N :: Set_ false [(91, 91)]%N :: l ++ [Set_ false [(93, 93)]%N]) s <-> named P s.
Proof.
  intros l P H s. rewrite nb_plus. change [(91, 91)]%N with [(byte "[", byte "[")]. change [(93, 93)]%N with [(byte "]", byte "]")]. unfold named. split.
  - intros (d & n & t & -> & N & R). apply blank_then in R as (c & u & -> & C & R). apply (proj1 (lit_then _ _ _)) in R as (v & -> & R).
    apply (proj1 (langs_app _ _ _)) in R as (x & y & -> & R & Y). apply (proj1 (lit_then _ _ _)) in Y as (z & -> & Z). cbn in Z. subst z.
    exists d, n, c, x. repeat split; auto. now apply H.
  - intros (d & n & c & x & -> & N & C & R). exists d, n, (String c (String "[" (x +++ "]"))). repeat split; auto. apply blank_then.
    exists c, (String "[" (x +++ "]")). repeat split; auto. apply lit_then. exists (x +++ "]"). split; [reflexivity|]. apply langs_app. exists x, "]".
    repeat split; [now apply H|]. apply lit_then. exists "". now split.
Qed.
Lemma slash_langs : forall x, langs [Set_ false [(47, 47)]%N; anything] x <-> path x.
Proof. intros x. rewrite <- slash_rest, seq_of_spec. reflexivity. Qed.
Lemma methods_text : forall m, lang (whole ("^" +++ METHOD +++ "$")) m <-> In m methods.
Proof. intros m. rewrite (words_spec _ methods); [reflexivity|vm_compute; reflexivity]. Qed.
Lemma named_resource_text : forall s, lang (whole NamedResourceHeaderRegex) s <-> named path s.
Proof.
  intros s. rewrite (same_sound 1000 _ (whole "^[^][()]+[[:blank:]]\[/.*]$")) by (vm_compute; reflexivity). rewrite seq_of_spec.
  exact (named_langs [Set_ false [(47, 47)]%N; anything] path slash_langs s).
Qed.
Definition MT : re := match seq_of (whole ("^" +++ METHOD +++ "$")) with [r] => r | _ => Nul end.
Lemma MT_spec : forall m, lang MT m <-> In m methods.
Proof. intros m. rewrite (words_spec _ methods); [reflexivity|vm_compute; reflexivity]. Qed.
Lemma method_langs : forall l P, (forall x, langs l x <-> P x) -> forall s, langs (MT :: l) s <-> method_then P s.
Proof.
  intros l P H s. rewrite langs_cons. unfold method_then. split; intros (m & y & E & M & R); exists m, y; (split; [exact E|]); (split; [now apply MT_spec|now apply H]).
Qed.
Lemma named_endpoint_text : forall s, lang (whole NamedEndpointHeaderRegex) s <-> named (method_then (gap_then path)) s.
Proof.
  intros s. rewrite (same_sound 1000 _ (whole ("^[^][()]+[[:blank:]]\[" +++ METHOD +++ "[[:blank:]]+/.*]$"))) by (vm_compute; reflexivity). rewrite seq_of_spec.
  set (l := [MT; Set_ false [(32, 32); (9, 9)]%N; B; Set_ false [(47, 47)]%N; anything]).
  assert (E : seq_of (whole ("^[^][()]+[[:blank:]]\[" +++ METHOD +++ "[[:blank:]]+/.*]$")) =
    NB :: Star NB :: Set_ false [(32, 32); (9, 9)]%N :: Set_ false [(91, 91)]%N :: l ++ [Set_ false [(93, 93)]%N]) by (vm_compute; reflexivity).
  rewrite E. apply named_langs. clear. intros x. subst l.
  refine (method_langs _ _ _ x). clear x. intros x. refine (gap_langs _ _ _ x). exact slash_langs.
Qed.
Lemma resource_text : forall s, lang (whole ResourceHeaderRegex) s <-> reads_path s \/ reads_method_path s.
Proof.
  intros s. rewrite (same_sound 1000 _ (Alt (whole "^[[:blank:]]*/.*$") (whole ("^[[:blank:]]*" +++ METHOD +++ "[[:blank:]]+/.*$")))) by (vm_compute; reflexivity).
  rewrite lang_alt_iff. assert (X : forall p p' q q' : Prop, (p <-> p') -> (q <-> q') -> (p \/ q <-> p' \/ q')) by tauto. apply X; clear X.
  - rewrite seq_of_spec.
    assert (E : seq_of (whole "^[[:blank:]]*/.*$") = [B; Set_ false [(47, 47)]%N; anything]) by (vm_compute; reflexivity). rewrite E, blanks_then. unfold reads_path. clear E.
    split; intros (l & t & E & L & P); exists l, t; (split; [exact E|]); (split; [exact L|now apply slash_langs]).
  - rewrite (check_spec _ 1%nat methods) by (vm_compute; reflexivity). apply word_then_iff. clear s. intros t.
    assert (E : skipn 2 (seq_of (whole ("^[[:blank:]]*" +++ METHOD +++ "[[:blank:]]+/.*$"))) = Set_ false [(32, 32); (9, 9)]%N :: B :: [Set_ false [(47, 47)]%N; anything])
      by (vm_compute; reflexivity).
    rewrite E. apply gap_langs. exact slash_langs.
Qed.
Lemma action_text : forall s, lang (whole ActionHeaderRegex) s <-> word_then methods (maybe path) s.
Proof.
  intros s. rewrite (check_spec _ 1%nat methods) by (vm_compute; reflexivity). apply word_then_iff. clear s. intros t.
  assert (E : skipn 2 (seq_of (whole ActionHeaderRegex)) = [B; Alt (Grp 2 (Cat (Set_ false [(47, 47)]%N) (Cat anything Eps))) Eps]) by (vm_compute; reflexivity).
  rewrite E. apply rest_maybe. exact slash_rest.
Qed.
Lemma named_action_text : forall s, lang (whole NamedActionHeaderRegex) s <-> exists n x, s = n +++ "[" +++ x +++ "]" /\ n <> "" /\ method_then (maybe path) x.
Proof.
  intros s. rewrite seq_of_spec.
  set (a := Alt (Grp 3 (Cat (Set_ false [(47, 47)]%N) (Cat anything Eps))) Eps).
  assert (E : seq_of (whole NamedActionHeaderRegex) =
    B :: Set_ true [] :: anything :: Set_ false [(byte "[", byte "[")] :: ([MT; B; a] ++ [Set_ false [(byte "]", byte "]")]])%list) by (vm_compute; reflexivity).
  rewrite E, blanks_then. clear E.
  assert (I : forall x, langs [MT; B; a] x <-> method_then (maybe path) x).
  { intros x. refine (method_langs _ _ _ x). clear x. intros x. refine (rest_maybe _ _ _ slash_rest x). }
  split.
  - intros (b & q0 & -> & _ & R). apply (proj1 (langs_cons _ _ _)) in R as (p & q & -> & L & R).
    apply lang_set_iff in L as (c & -> & _). apply any_then in R as (n & r & -> & R). apply (proj1 (lit_then _ _ _)) in R as (v & -> & R).
    apply (proj1 (langs_app _ _ _)) in R as (x & y & -> & R & Y). apply (proj1 (lit_then _ _ _)) in Y as (z & -> & Z). cbn in Z. subst z.
    exists (b +++ String c n), x. split; [now rewrite append_assoc|]. split; [destruct b; discriminate|now apply I].
  - intros ([|c n] & x & -> & N & R); [congruence|]. exists "", (String c (n +++ "[" +++ x +++ "]")). split; [reflexivity|]. split; [constructor|]. apply langs_cons. exists (String c ""), (n +++ String "[" (x +++ "]")). split; [reflexivity|].
    split; [apply lang_set_iff; now exists c|]. apply any_then. exists n, (String "[" (x +++ "]")). split; [reflexivity|]. apply lit_then. exists (x +++ "]"). split; [reflexivity|].
    apply langs_app. exists x, "]". repeat split; [now apply I|]. apply lit_then. exists "". now split.
Qed.

(** ** nodes *)
Lemma before_unique : forall d s l l', before d s l -> before d s l' -> l = l'.
Proof.
  intros d s l l' [[N ->]|(r & E & N)] [[N' ->]|(r' & E' & N')]; try reflexivity.
  - exfalso. apply N. rewrite E'. apply has_app. right. now left.
  - exfalso. apply N'. rewrite E. apply has_app. right. now left.
  - rewrite E in E'. clear E. revert l' E' N'. induction l as [|c l IH]; intros [|c' l'] E N'; cbn in E.
    + reflexivity.
    + injection E as <- E. exfalso. apply N'. now left.
    + injection E as -> E. exfalso. apply N. now left.
    + injection E as <- E. f_equal. apply IH; auto; [intros H; apply N; now right|intros H; apply N'; now right].
Qed.
Lemma first_line_before : forall x r, before LF x (fst (first_line x r)).
Proof.
  intros x r. destruct (in_dec ascii_dec LF (list_ascii_of_string x)) as [H|H].
  - apply has_split in H as (a & b & -> & N). right. exists b. unfold first_line. rewrite (split_first_some _ _ _ N). cbn. now split.
  - left. split; [exact H|]. unfold first_line. now rewrite (split_first_none _ _ H).
Qed.
Lemma c_text_before : forall s, before NUL s (c_text s).
Proof.
  induction s as [|c s IH]; [left; split; [intros []|reflexivity]|]. cbn [c_text]. destruct (Ascii.eqb_spec c NUL) as [->|N].
  - right. exists s. split; [reflexivity|intros []].
  - destruct IH as [[H E]|(r & E & H)]; [left|right].
    + split; [intros [->|I]; [now apply N|now apply H]|now rewrite E].
    + exists r. split; [now rewrite E at 1|]. intros [->|I]; [now apply N|now apply H].
Qed.
Lemma says_line : forall x P, (line_of x <> "" /\ P (c_text (line_of x))) <-> exists l a s b u, before "010" x l /\ trimmed a l s b /\ s <> "" /\ before "000" s u /\ P u.
Proof.
  intros x P. split.
  - intros [N H]. destruct (trim_spec (fst (first_line x ""))) as (a & b & T). exists (fst (first_line x "")), a, (line_of x), b, (c_text (line_of x)).
    split; [apply first_line_before|]. split; [exact T|]. split; [exact N|]. split; [apply c_text_before|exact H].
  - intros (l & a & s & b & u & Bl & T & N & U & H). pose proof (before_unique _ _ _ _ Bl (first_line_before x "")) as ->. apply trimmed_unique in T. unfold line_of. rewrite T.
    split; [exact N|]. now rewrite <- (before_unique _ _ _ _ U (c_text_before s)).
Qed.
Lemma says_whole : forall x P, (trim x <> "" /\ P (c_text (trim x))) <-> exists a s b u, trimmed a x s b /\ s <> "" /\ before "000" s u /\ P u.
Proof.
  intros x P. split.
  - intros [N H]. destruct (trim_spec x) as (a & b & T). exists a, (trim x), b, (c_text (trim x)).
    split; [exact T|]. split; [exact N|]. split; [apply c_text_before|exact H].
  - intros (a & s & b & u & T & N & U & H). apply trimmed_unique in T. rewrite T.
    split; [exact N|]. now rewrite <- (before_unique _ _ _ _ U (c_text_before s)).
Qed.
(** a check of the pattern [p], which reads as [P] *)
Section Checks.
Variables (p : string) (P : string -> Prop).
Hypothesis Np : p <> "".
Hypothesis Hp : forall s, lang (whole p) s <-> P s.
Lemma match_reads : forall s, regex_match s p = true <-> s <> "" /\ P (c_text s).
Proof. intros s. rewrite regex_match_whole, Hp. tauto. Qed.
Lemma check_item : forall t, regex_match (item_line t) p = true <-> item_says P t.
Proof.
  intros [ty x z m cs]. rewrite match_reads. unfold item_line, item_text, is_item, item_says. cbn.
  destruct ty; try (split; [intros [H _]; now elim H|intros []]). destruct cs as [|[ty y z' m' cs'] l]; [split; [intros [H _]; now elim H|intros []]|]. apply says_line.
Qed.
Lemma check_item_whole : forall t, regex_match (item_whole t) p = true <-> item_says_whole P t.
Proof.
  intros [ty x z m cs]. rewrite match_reads. unfold item_whole, item_text, is_item, item_says_whole. cbn.
  destruct ty; try (split; [intros [H _]; now elim H|intros []]). destruct cs as [|[ty y z' m' cs'] l]; [split; [intros [H _]; now elim H|intros []]|]. apply says_whole.
Qed.
Lemma check_header : forall t, regex_match (header_line t) p = true <-> header_says P t.
Proof.
  intros [ty x z m cs]. rewrite match_reads. unfold header_line, is_header, header_says. cbn.
  destruct ty; try (split; [intros [H _]; now elim H|intros []]). apply says_line.
Qed.
Lemma check_header_whole : forall t, regex_match (header_whole t) p = true <-> header_says_whole P t.
Proof.
  intros [ty x z m cs]. rewrite match_reads. unfold header_whole, is_header, header_says_whole. cbn.
  destruct ty; try (split; [intros [H _]; now elim H|intros []]). apply says_whole.
Qed.
End Checks.
