(** Lemmas for C81: reading ends; what is defined; variables of URI templates *)
From Verif Require Import Base StringUtility StringSpec StringProofs ByteBuffer ByteSpec Markdown MarkdownSpec Regex Keywords KeywordsSpec
  Signature SignatureSpec SignatureProofs SignatureWhole TypeTables SourceMap Mson TypeDefs TypeDefsSpec TypeDefsProofs MembersTree MembersSpec MembersRead MembersLeaves MembersParts MembersEnds Params ParamsSpec ParamsRead ParamsWhole.
From Verif Require SectionsSpec Payloads PayloadsSpec Blueprint UriTemplate UriSpec UriProofs Prop_Uri.
Import PayloadsSpec(the_text, place, opens, row, lines).
Import Blueprint(text, blank, parameter_use, UndefinedUse, OptionalUse, RequiredUse, parameter, Param, pa_name, pa_description, pa_type, pa_use, pa_default, pa_example, pa_values).
Local Open Scope string_scope.

Section Ends.
Context (source context : string).
Lemma ends_described : forall nested r d, ends (described source nested r d).
Proof.
  intros nested. induction r as [|t r IH]; intros d; cbn [described]; [discriminate|]. destruct (nested t); try discriminate.
  apply ends_bind; [apply ends_lines|]. intros x _. apply ends_bind; [apply ends_map|]. intros c _. apply IH.
Qed.
Lemma described_in : forall nested r d o others, described source nested r d = Val (o, others) -> forall u, In u others -> In u r.
Proof.
  intros nested. induction r as [|t r IH]; intros d o others; cbn [described]; [intros E; injection E as _ <-; auto|].
  assert (K : Val (d, t :: r) = Val (o, others) -> forall u, In u others -> In u (t :: r)) by (intros E; injection E as _ <-; auto).
  destruct (nested t); try exact K. intros E u I. destruct (if String.eqb (fst d) "" then Val "" else two_new_lines (fst d)) as [x| | |]; try discriminate. cbn [andthen] in E.
  destruct (map_ranges (t_map t) source) as [c| | |]; try discriminate. cbn [andthen] in E. right. exact (IH _ _ _ E u I).
Qed.
Lemma ends_values : forall item s, ends (parse_values item s).
Proof.
  intros item s. unfold parse_values. apply ends_bind; [apply ends_starting|]. intros [|t r] _; [discriminate|]. apply ends_walk. intros u a s0 _. unfold values_step.
  destruct (values_nested_type u); try discriminate. destruct (item_text u); try discriminate. destruct (regex_find _ _ _); discriminate.
Qed.
Lemma ends_old : forall item s, ends (parse_old source item s).
Proof.
  intros item s. unfold parse_old. apply ends_bind; [apply ends_starting|]. intros [|t r] _; [discriminate|]. apply ends_bind; [apply ends_signature|]. intros [sg s1] _. cbv zeta.
  destruct (parse_traits true (attributes sg) "") as [[[use ty] ex] failed]. apply ends_bind; [apply ends_described|]. intros [d others] _. apply ends_bind; [|intros [vs s2] _; discriminate].
  apply ends_walk. intros u a s0 _. unfold old_step. destruct (values_type u); try discriminate. apply ends_bind; [apply ends_values|]. intros [l s2] _. discriminate.
Qed.
Lemma ends_new : forall n item s, depth item <= S n -> ends (parse_new source context n item s).
Proof.
  intros n item s D. unfold parse_new. apply ends_bind; [apply ends_starting|]. intros [|t r] E; [discriminate|]. apply starting_iff in E. apply ends_bind; [apply ends_signature|]. intros [sg s1] _.
  apply ends_bind; [destruct (bare_total (identifier sg)) as [w B]; destruct (strip_bare _ _ B) as [left Sb]; rewrite Sb; discriminate|]. intros [name left] _. cbv zeta.
  destruct (parse_traits false (attributes sg) (Signature.value sg)) as [[[use ty] ex] failed]. apply ends_bind; [apply ends_described|]. intros [d others] Eo. apply ends_bind; [|intros [[[? ?] ?] s2] _; discriminate].
  apply ends_walk. intros u [[a b] c] s0 I. assert (Du : depth u <= n) by (pose proof (depth_below item t r u E (described_in _ _ _ _ _ Eo u I)); lia).
  unfold new_step. destruct (type_section_type u); try discriminate; (apply ends_bind; [now apply all_end|intros [x s2] _; discriminate]).
Qed.
Lemma parameters_end : forall n item s, depth item <= S (S n) -> ends (parse_parameters source context n item s).
Proof.
  intros n item s D. unfold parse_parameters. apply ends_bind; [apply ends_starting|]. intros [|t r] E; [discriminate|]. apply starting_iff in E. cbv zeta. apply ends_bind; [|intros [l s1] _; discriminate].
  apply ends_walk. intros u a s0 I. pose proof (depth_below item t r u E I) as L. unfold parameters_step. destruct (item_tells u) as (o & _ & ->). cbn [andthen].
  destruct o as [[]|]; cbn [section_of]; try discriminate; apply ends_bind; try (intros [p s2] _; destruct (add_parameter u p a s2); discriminate); [apply ends_old|apply ends_new; lia].
Qed.
End Ends.

(** ** what is defined *)
Notation names l := (map (fun q => fst (pa_name q)) l).
Definition other_name (x : string) (p : parameter) : bool := negb (String.eqb (fst (pa_name p)) x).
Lemma lasting_names : forall l x, In x (names (lasting l)) <-> In x (names l).
Proof.
  induction l as [|p r IH]; intros x; [reflexivity|]. cbn [lasting]. match goal with |- context [in_dec string_dec ?a ?b] => destruct (in_dec string_dec a b) as [I|N] end; cbn [map In]; rewrite IH; [|reflexivity]. split; [now right|]. intros [<-|H]; [exact I|exact H].
Qed.
Lemma lasting_unique : forall l, NoDup (names (lasting l)).
Proof.
  induction l as [|p r IH]; [constructor|]. cbn [lasting]. match goal with |- context [in_dec string_dec ?a ?b] => destruct (in_dec string_dec a b) as [I|N] end; [exact IH|]. cbn [map]. constructor; [|exact IH]. intros H. apply N. now apply lasting_names.
Qed.
Lemma lasting_in : forall l p, In p (lasting l) -> In p l.
Proof. induction l as [|q r IH]; intros p; [intros []|]. cbn [lasting]. match goal with |- context [in_dec string_dec ?a ?b] => destruct (in_dec string_dec a b) end; [intros H; right; now apply IH|]. intros [->|H]; [now left|right; now apply IH]. Qed.
Lemma lasting_snoc : forall l p, lasting (l ++ [p]) = (filter (other_name (fst (pa_name p))) (lasting l) ++ [p])%list.
Proof.
  induction l as [|q r IH]; intros p; [reflexivity|]. cbn [lasting app]. rewrite IH, map_app. cbn [map].
  destruct (in_dec string_dec (fst (pa_name q)) (names r)) as [I|N].
  - match goal with |- context [in_dec string_dec ?a ?b] => destruct (in_dec string_dec a b) as [_|N'] end; [reflexivity|]. elim N'. apply in_or_app. now left.
  - cbn [filter]. assert (O : other_name (fst (pa_name p)) q = negb (String.eqb (fst (pa_name q)) (fst (pa_name p)))) by reflexivity. rewrite O. clear O. destruct (String.eqb_spec (fst (pa_name q)) (fst (pa_name p))) as [E|E]; cbn [negb].
    + match goal with |- context [in_dec string_dec ?a ?b] => destruct (in_dec string_dec a b) as [_|N'] end; [reflexivity|]. elim N'. apply in_or_app. right. now left.
    + match goal with |- context [in_dec string_dec ?a ?b] => destruct (in_dec string_dec a b) as [I'|_] end; [|reflexivity]. apply in_app_or in I' as [I'|[I'|[]]]; congruence.
Qed.
Lemma others_all : forall x l, ~ In x (names l) -> filter (other_name x) l = l.
Proof.
  intros x. induction l as [|p r IH]; intros N; [reflexivity|]. cbn [filter]. unfold other_name at 1. destruct (String.eqb_spec (fst (pa_name p)) x) as [E|E]; [elim N; now left|]. cbn [negb]. f_equal. apply IH. intros I. apply N. now right.
Qed.
Lemma adds_lasting : forall t p l l' e a, adds t p l l' e -> l = lasting a -> l' = lasting (a ++ [p]).
Proof.
  intros t p l l' e a H E. rewrite lasting_snoc, <- E. pose proof (lasting_unique a) as U. rewrite <- E in U. clear E. destruct H as [l N|b q c N Q].
  - now rewrite others_all.
  - rewrite filter_app. cbn [filter]. assert (O : other_name (fst (pa_name p)) q = false) by (unfold other_name; now rewrite Q, String.eqb_refl). rewrite O. clear O. rewrite !others_all; [now rewrite app_assoc| |exact N]. rewrite map_app in U. cbn [map] in U. apply NoDup_remove_2 in U. intros I. apply U. rewrite Q. apply in_or_app. now right.
Qed.

(** ** variables *)
Lemma template_some : forall uri, exists vs, template_variables uri = Some vs /\ forall x, In x vs <-> variable_of uri x.
Proof.
  intros uri. destruct (string_dec uri "") as [->|Ne].
  - assert (E : template_variables "" = Some []) by (vm_compute; reflexivity). rewrite E. exists []. split; [reflexivity|]. intros x. split; [intros []|]. intros (segs & parts & o & is & u & v & C & F & I & _).
    destruct (Prop_Uri.C72_cut_once "") as (segs0 & C0 & U). assert (E0 := U [] UriSpec.cut_end). rewrite (U _ C), <- E0 in F. inversion F; subst. contradiction.
  - destruct (Prop_Uri.C72_cut_once uri) as (segs & C & _). destruct (UriProofs.parts_total uri segs C) as [l L].
    assert (E : UriTemplate.parse_parts uri = Some l) by (apply Prop_Uri.C72_parts; [exact Ne|now exists segs]). unfold template_variables. rewrite E. cbn [option_map]. eexists. split; [reflexivity|]. intros x.
    rewrite in_flat_map. split.
    + intros ([s|[o is u]|s] & I & X); try contradiction. cbn in X. apply in_flat_map in X as ([v|s] & Iv & X); [destruct X as [X|[]]|contradiction]. exists segs, l, o, is, u, v. auto 8.
    + intros (segs' & l' & o & is & u & v & C' & L' & I & Iv & X). assert (E' : UriTemplate.parse_parts uri = Some l') by (apply Prop_Uri.C72_parts; [exact Ne|now exists segs']). rewrite E in E'. injection E' as <-.
      eexists. split; [exact I|]. cbn. apply in_flat_map. eexists. split; [exact Iv|]. now left.
Qed.
Lemma eligible_iff : forall uri name l e, eligible uri name l e <-> exists rs, eligibility uri name l = Some rs /\ rs = map (fun x => match x with Says c m => Warns c m | Depends _ _ _ => Warns 0 "" end) e /\
  Forall (fun x => exists m, x = Says 8 m) e.
Proof.
  intros uri name l. destruct (template_some uri) as (vs & V & In_). unfold eligibility. rewrite V. cbn [option_map].
  assert (B : forall x, existsb (String.eqb x) vs = true <-> variable_of uri x).
  { intros x. rewrite <- In_, existsb_exists. split; [intros (y & I & E); apply String.eqb_eq in E; now subst|]. intros I. exists x. split; [exact I|apply String.eqb_refl]. }
  induction l as [|p r IH]; intros e.
  - split.
    + intros H. inversion H. exists []. split; [reflexivity|]. split; [reflexivity|constructor].
    + intros (rs & E & M & _). injection E as <-. destruct e; [constructor|discriminate].
  - cbn [flat_map]. destruct (existsb (String.eqb (fst (pa_name p))) vs) eqn:X.
    + apply B in X. cbn [app]. rewrite <- IH. split; [intros H; inversion H; [assumption|contradiction]|now constructor].
    + assert (N : ~ variable_of uri (fst (pa_name p))) by (intros H; apply B in H; congruence). split.
      * intros H. inversion H as [|p0 l0 e0 V0|p0 l0 e0 N0 H0]; subst; [contradiction|]. apply IH in H0 as (rs & E & -> & F). injection E as E. eexists. split; [reflexivity|]. split; [cbn [app map]; now rewrite E|].
        constructor; [eauto|exact F].
      * intros (rs & E & M & F). injection E as E. subst rs. destruct e as [|x e]; [discriminate|]. inversion F as [|x0 e0 [m ->] F']; subst. cbn [map] in M. unfold not_found in M. injection M as M1 M2. subst m.
        apply eligible_missing; [exact N|]. apply IH. eexists. split; [reflexivity|]. split; [exact M2|exact F'].
Qed.
