From Coq Require Import Permutation.
From Verif Require Import Base StringUtility StringSpec StringProofs Regex RegexSpec RegexProofs ByteBuffer Markdown MarkdownSpec Keywords KeywordsSpec KeywordsProofs.
Local Open Scope string_scope.

(** ** the patterns behind the checks, by their numbers *)
Definition item_pats : list (list string) :=
  [[MSONDefaultTypeSectionRegex; MSONSampleTypeSectionRegex; MSONValueMembersTypeSectionRegex; MSONPropertyMembersTypeSectionRegex]; []; [MSONOneOfRegex];
   [HeadersRegex]; [BodyRegex; SchemaRegex]; [AttributesRegex]; [RequestRegex; ResponseRegex; ModelRegex]; []; [ParametersRegex]; [RelationRegex]; []; []; []; []].
Definition whole_pats : list (list string) := [[]; [MSONMixinRegex]; []; []; []; []; []; [ValuesRegex]; []; []; []; []; []; []].
Definition header_pats : list (list string) :=
  [[MSONDefaultTypeSectionRegex; MSONSampleTypeSectionRegex; MSONValueMembersTypeSectionRegex; MSONPropertyMembersTypeSectionRegex]; []; []; []; []; []; []; []; []; [];
   [NamedResourceHeaderRegex; NamedEndpointHeaderRegex; ResourceHeaderRegex]; [ActionHeaderRegex; NamedActionHeaderRegex]; [GroupHeaderRegex]; [DataStructureGroupRegex]].
Lemma header_line_whole : forall t, one_line t -> header_line t = header_whole t.
Proof.
  intros [ty x z m cs] H. unfold header_line, header_whole, is_header. cbn in *. destruct ty; try reflexivity. unfold line_of. apply (f_equal trim).
  destruct (first_line_before x "") as [[_ E]|(r & E & _)]; [exact E|]. exfalso. apply H. rewrite E. apply has_app. right. now left.
Qed.
Lemma empty_no_match : forall p, regex_match "" p = false.
Proof. reflexivity. Qed.
Lemma if_not : forall b x, if_ b x <> UndefinedSection -> b = true.
Proof. intros [] x H; [reflexivity|now elim H]. Qed.
Lemma check_pattern : forall i f t, nth_error keyword_checks i = Some f -> one_line t -> f t <> UndefinedSection ->
  (exists p, In p (nth i item_pats []) /\ regex_match (item_line t) p = true) \/
  (exists p, In p (nth i whole_pats []) /\ regex_match (item_whole t) p = true) \/
  (exists p, In p (nth i header_pats []) /\ regex_match (header_whole t) p = true).
Proof.
  intros i f t E O H.
  destruct i as [|[|[|[|[|[|[|[|[|[|[|[|[|[|i]]]]]]]]]]]]]]; cbn in E; try (injection E as <-); [..|destruct i; discriminate].
  - unfold type_section_type in H. destruct (is_header t) eqn:Hd.
    + rewrite (header_line_whole _ O) in H. right. right.
      destruct (regex_match (header_whole t) MSONDefaultTypeSectionRegex) eqn:A; [eexists; split; [now left|exact A]|].
      destruct (regex_match (header_whole t) MSONSampleTypeSectionRegex) eqn:C; [eexists; split; [now right; left|exact C]|]. cbn [orb] in H.
      destruct (regex_match (header_whole t) MSONValueMembersTypeSectionRegex) eqn:D; [eexists; split; [now right; right; left|exact D]|].
      apply if_not in H. eexists; split; [now right; right; right; left|exact H].
    + left.
      destruct (regex_match (item_line t) MSONDefaultTypeSectionRegex) eqn:A; [eexists; split; [now left|exact A]|].
      destruct (regex_match (item_line t) MSONSampleTypeSectionRegex) eqn:C; [eexists; split; [now right; left|exact C]|]. cbn [orb] in H.
      destruct (regex_match (item_line t) MSONValueMembersTypeSectionRegex) eqn:D; [eexists; split; [now right; right; left|exact D]|].
      apply if_not in H. eexists; split; [now right; right; right; left|exact H].
  - apply if_not in H. right. left. eexists; split; [now left|exact H].
  - apply if_not in H. left. eexists; split; [now left|exact H].
  - apply if_not in H. left. eexists; split; [now left|exact H].
  - unfold asset_type in H. left. destruct (regex_match (item_line t) BodyRegex) eqn:A; [eexists; split; [now left|exact A]|].
    apply if_not in H. eexists; split; [now right; left|exact H].
  - apply if_not in H. left. eexists; split; [now left|exact H].
  - unfold payload_type in H. left. destruct (regex_match (item_line t) RequestRegex) eqn:A; [eexists; split; [now left|exact A]|].
    destruct (regex_match (item_line t) ResponseRegex) eqn:C; [eexists; split; [now right; left|exact C]|].
    destruct (regex_match (item_line t) ModelRegex) eqn:D; [eexists; split; [now right; right; left|exact D]|]. now elim H.
  - apply if_not in H. right. left. eexists; split; [now left|exact H].
  - apply if_not in H. left. eexists; split; [now left|exact H].
  - apply if_not in H. left. eexists; split; [now left|exact H].
  - apply if_not in H. right. right. apply orb_prop in H as [H|H]; [apply orb_prop in H as [H|H]|]; eexists; (split; [|exact H]); cbn; auto.
  - apply if_not in H. right. right. apply orb_prop in H as [H|H]; eexists; (split; [|exact H]); cbn; auto.
  - apply if_not in H. right. right. eexists; split; [now left|exact H].
  - unfold data_structures_type in H. rewrite (header_line_whole _ O) in H. apply if_not in H. right. right. eexists; split; [now left|exact H].
Qed.

(** ** a line within the whole text *)
Definition space_set : list (N * N) := [(32, 32); (9, 13)]%N.
Definition widen (r : re) : re := Cat r (Alt Eps (Cat (Set_ false space_set) anything)).
Definition tail_of (s : string) : Prop := s = "" \/ exists c r, s = String c r /\ white c.
Lemma tail_lang : forall s, tail_of s -> lang (Alt Eps (Cat (Set_ false space_set) anything)) s.
Proof.
  intros s [->|(c & r & -> & W)]; apply lang_alt_iff; [left; constructor|right]. apply lang_cat_iff. exists (String c ""), r. split; [reflexivity|].
  split; [|apply anything_spec]. apply lang_set_iff. exists c. split; [reflexivity|]. apply in_set_spec. split; [reflexivity|]. intros _.
  unfold white in W. unfold space_set. apply Exists_exists. destruct W as [E|[E|[E|[E|[E|[E|[]]]]]]]; (exists (32, 32)%N; split; [now left|cbn; lia]) || (exists (9, 13)%N; split; [now right; left|cbn; lia]).
Qed.
Lemma c_text_app : forall a b, c_text (a +++ b) = c_text a +++ (if in_dec ascii_dec NUL (list_ascii_of_string a) then "" else c_text b).
Proof.
  induction a as [|c a IH]; intros b; [reflexivity|]. cbn [String.append c_text]. destruct (Ascii.eqb_spec c NUL) as [->|N].
  - destruct (in_dec ascii_dec NUL (list_ascii_of_string (String NUL a))) as [i|n]; [reflexivity|]. elim n. now left.
  - cbn [String.append]. rewrite IH. f_equal. f_equal.
    destruct (in_dec ascii_dec NUL (list_ascii_of_string a)) as [i|n]; destruct (in_dec ascii_dec NUL (list_ascii_of_string (String c a))) as [i'|n']; try reflexivity.
    + elim n'. now right.
    + cbn in i'. destruct i' as [X|X]; [now elim N|contradiction].
Qed.
Lemma line_in_whole : forall x, line_of x <> "" -> exists r, trim x = line_of x +++ r /\ tail_of r.
Proof.
  intros x N. unfold line_of in *. set (l := fst (first_line x "")) in *.
  assert (E : exists r, x = l +++ r /\ tail_of r).
  { destruct (first_line_before x "") as [[_ E]|(r & E & _)]; fold l in E.
    - exists "". rewrite append_nil_r. split; [now symmetry|now left].
    - exists (String LF r). split; [exact E|]. right. exists LF, r. split; [reflexivity|]. now right; right; left. }
  destruct E as (r & E & T). clearbody l. destruct (trim_spec l) as (a & b & (El & Wa & Wb & F & L)). set (s := trim l) in *. clearbody s.
  assert (S' : exists c s', s = s' +++ String c "").
  { destruct s as [|c s]; [now elim N|]. destruct (last_char c s) as (s' & c' & ->). eauto. }
  destruct S' as (c & s' & Es).
  (* the text behind s *)
  destruct (trim_end_spec (b +++ r)) as (w & Ew & Ww & Lw). set (u := trim_end (b +++ r)) in *. clearbody u.
  assert (X : trimmed a x (s +++ u) w).
  { repeat split.
    - rewrite E, El, !append_assoc. f_equal. f_equal. exact Ew.
    - exact Wa.
    - exact Ww.
    - intros d q Hd. destruct s as [|d' s0]; [now elim N|]. injection Hd as <- _. apply (F _ _ eq_refl).
    - intros q d Hd. destruct u as [|d' u0]; [rewrite append_nil_r in Hd; apply (L q); exact Hd|].
      destruct (last_char d' u0) as (u' & c' & Eu). rewrite Eu in Hd. rewrite <- append_assoc in Hd. apply snoc_inj in Hd as [_ <-]. apply (Lw u'). exact Eu. }
  apply trimmed_unique in X. exists u. split; [exact X|].
  destruct u as [|d u']; [now left|right]. exists d, u'. split; [reflexivity|].
  destruct b as [|d' b'].
  - cbn in Ew. destruct T as [->|(c' & r' & -> & Wc)]; [discriminate|]. injection Ew as <- _. exact Wc.
  - cbn in Ew. injection Ew as <- _. now apply all_cons in Wb as [W _].
Qed.
Lemma match_lang : forall s p, regex_match s p = true -> lang (whole p) (c_text s).
Proof. intros s p H. now apply regex_match_whole in H as (_ & _ & H). Qed.
Lemma match_widen : forall t p, regex_match (item_line t) p = true -> lang (widen (whole p)) (c_text (item_whole t)).
Proof.
  intros t p H. unfold item_whole, item_line in *. destruct (item_text t) as [x|]; [|discriminate].
  assert (N : line_of x <> "") by (intros E; now rewrite E in H). apply match_lang in H.
  destruct (line_in_whole x N) as (r & -> & T). rewrite c_text_app. apply lang_cat_iff. eexists; eexists. split; [reflexivity|]. split; [exact H|]. apply tail_lang.
  destruct (in_dec _ _ _); [now left|]. destruct T as [->|(c & q & -> & W)]; [now left|]. cbn. destruct (Ascii.eqb c NUL); [now left|]. right. eauto.
Qed.

(** ** which patterns never match together *)
Definition is (a b : string) : bool := String.eqb a b.
Definition fuel : nat := 1000.
Definition unless (b : bool) (x : unit -> bool) : bool := if b then true else x tt.
Definition other_pat (q : string) : bool := (is q MSONDefaultTypeSectionRegex || is q MSONSampleTypeSectionRegex || is q RelationRegex)%bool.
Definition apart_pats (p q : string) : bool := unless (is p ModelRegex && other_pat q || is q ModelRegex && other_pat p) (fun _ => apart fuel (whole p) (whole q)).
Definition apart_both (p q : string) : bool := apart fuel (whole p) (whole q).
Definition apart_wide (p q : string) : bool := unless (is p ModelRegex && is q MSONMixinRegex) (fun _ => apart fuel (widen (whole p)) (whole q)).
Definition named_pat (q : string) : bool := (is q NamedResourceHeaderRegex || is q NamedEndpointHeaderRegex || is q NamedActionHeaderRegex)%bool.
Definition given_pat (p : string) : bool := (is p MSONDefaultTypeSectionRegex || is p MSONSampleTypeSectionRegex)%bool.
Definition path_pats (i j : nat) : bool := ((i =? 10)%nat && (j =? 11)%nat || (j =? 10)%nat && (i =? 11)%nat)%bool.
Definition apart_headers (i j : nat) (p q : string) : bool :=
  unless (given_pat p && named_pat q || given_pat q && named_pat p || path_pats i j) (fun _ => apart fuel (whole p) (whole q)).
Definition numbers : list nat := seq 0 14.
Definition every (i j : nat) (a b : list (list string)) (ok : string -> string -> bool) : bool := forallb (fun p => forallb (ok p) (nth j b [])) (nth i a []).
Definition pair_ok (i j : nat) : bool :=
  (every i j item_pats item_pats apart_pats && every i j whole_pats whole_pats apart_both && every i j header_pats header_pats (apart_headers i j))%bool.
Definition wide_pair (i j : nat) : bool := every i j item_pats whole_pats apart_wide.
Definition for_pairs (ok : nat -> nat -> bool) : bool := forallb (fun i => forallb (fun j => unless (j <=? i)%nat (fun _ => ok i j)) numbers) numbers.
Definition for_all_pairs (ok : nat -> nat -> bool) : bool := forallb (fun i => forallb (ok i) numbers) numbers.
Lemma for_pairs_spec : forall ok, for_pairs ok = true -> forall i j, i < j < 14 -> ok i j = true.
Proof.
  intros ok H i j L. unfold for_pairs in H. rewrite forallb_forall in H. assert (Ii : In i numbers) by (apply in_seq; lia).
  specialize (H _ Ii). rewrite forallb_forall in H. assert (Ij : In j numbers) by (apply in_seq; lia). specialize (H _ Ij). unfold unless in H.
  destruct (Nat.leb_spec j i); [lia|]. exact H.
Qed.
Lemma for_all_pairs_spec : forall ok, for_all_pairs ok = true -> forall i j, i < 14 -> j < 14 -> ok i j = true.
Proof.
  intros ok H i j Li Lj. unfold for_all_pairs in H. rewrite forallb_forall in H. assert (Ii : In i numbers) by (apply in_seq; lia).
  specialize (H _ Ii). rewrite forallb_forall in H. assert (Ij : In j numbers) by (apply in_seq; lia). now specialize (H _ Ij).
Qed.
Lemma order_checked : for_pairs pair_ok = true.
Proof. vm_compute. reflexivity. Qed.
Lemma wide_checked : for_all_pairs wide_pair = true.
Proof. vm_compute. reflexivity. Qed.

Lemma every_spec : forall i j a b ok, every i j a b ok = true -> forall p q, In p (nth i a []) -> In q (nth j b []) -> ok p q = true.
Proof. intros i j a b ok H p q Ip Iq. unfold every in H. rewrite forallb_forall in H. specialize (H _ Ip). rewrite forallb_forall in H. now apply H. Qed.
Lemma pair_ok_spec : forall i j, pair_ok i j = true -> every i j item_pats item_pats apart_pats = true /\ every i j whole_pats whole_pats apart_both = true /\
  every i j header_pats header_pats (apart_headers i j) = true.
Proof. intros i j H. unfold pair_ok in H. apply andb_prop in H as [H C]. apply andb_prop in H as [A D]. now repeat split. Qed.
Lemma order_spec : forall i j, i < j < 14 -> every i j item_pats item_pats apart_pats = true /\ every i j whole_pats whole_pats apart_both = true /\
  every i j header_pats header_pats (apart_headers i j) = true.
Proof. intros i j L. apply pair_ok_spec. exact (for_pairs_spec pair_ok order_checked i j L). Qed.
Lemma wide_spec : forall i j, i < 14 -> j < 14 -> wide_pair i j = true.
Proof. exact (for_all_pairs_spec wide_pair wide_checked). Qed.
Lemma unless_spec : forall b f, unless b f = true -> b = true \/ f tt = true.
Proof. intros [] f H; [now left|now right]. Qed.
Lemma is_spec : forall a b, is a b = true -> a = b.
Proof. intros a b H. now apply String.eqb_eq. Qed.
Lemma item_not_header : forall t p q, regex_match (item_line t) p = true -> regex_match (header_whole t) q = true -> False.
Proof.
  intros [ty x z m cs] p q A C. unfold item_line, header_whole, item_text, is_item, is_header in *. cbn in *. destruct ty; discriminate.
Qed.
Lemma whole_not_header : forall t p q, regex_match (item_whole t) p = true -> regex_match (header_whole t) q = true -> False.
Proof.
  intros [ty x z m cs] p q A C. unfold item_whole, header_whole, item_text, is_item, is_header in *. cbn in *. destruct ty; discriminate.
Qed.
Lemma item_other : forall t q, other_pat q = true -> regex_match (item_line t) q = true -> item_says (fun s => reads_default s \/ reads_sample s \/ reads_relation s) t.
Proof.
  intros t q O H. unfold other_pat in O.
  assert (X : forall (P Q : string -> Prop), (forall s, P s -> Q s) -> item_says P t -> item_says Q t).
  { intros P Q PQ. destruct t as [[] x z m [|[ty y z' m' cs'] cs]]; cbn; auto. intros (l & a & s & b & u & A1 & A2 & A3 & A4 & A5). exists l, a, s, b, u. auto 10. }
  apply orb_prop in O as [O|O]; [apply orb_prop in O as [O|O]|]; apply is_spec in O; subst q.
  - apply (check_item _ reads_default) in H; [|discriminate|exact default_text]. revert H. apply X. auto.
  - apply (check_item _ reads_sample) in H; [|discriminate|exact sample_text]. revert H. apply X. auto.
  - apply (check_item _ reads_relation) in H; [|discriminate|exact relation_text]. revert H. apply X. auto.
Qed.
Lemma model_says : forall t, regex_match (item_line t) ModelRegex = true -> item_says reads_model t.
Proof. intros t H. apply (check_item _ reads_model) in H; [exact H|discriminate|exact model_text]. Qed.
Lemma header_both : forall t p q (P Q : string -> Prop), p <> "" -> q <> "" -> (forall s, lang (whole p) s -> P s) -> (forall s, lang (whole q) s -> Q s) ->
  regex_match (header_whole t) p = true -> regex_match (header_whole t) q = true -> header_says_whole (fun s => P s /\ Q s) t.
Proof.
  intros t p q P Q Np Nq HP HQ A C. apply regex_match_whole in A as (N & _ & A). apply regex_match_whole in C as (_ & _ & C).
  destruct t as [ty x z m cs]. unfold header_whole, is_header in *. cbn in *. destruct ty; try (now elim N).
  apply (says_whole x (fun s => P s /\ Q s)). split; [exact N|]. split; [now apply HP|now apply HQ].
Qed.
Lemma header_swap : forall t (P Q : string -> Prop), header_says_whole (fun s => P s /\ Q s) t -> header_says_whole (fun s => Q s /\ P s) t.
Proof. intros [[] x z m cs] P Q; cbn; auto. intros (a & s & b & u & A1 & A2 & A3 & A4 & A5). exists a, s, b, u. auto 10. Qed.
Lemma given_text : forall p, given_pat p = true -> p <> "" /\ forall s, lang (whole p) s -> reads_default s \/ reads_sample s.
Proof.
  intros p H. apply orb_prop in H as [H|H]; apply is_spec in H; subst p; (split; [discriminate|]); intros s L; [left; now apply default_text|right; now apply sample_text].
Qed.
Lemma named_text : forall p, named_pat p = true -> p <> "" /\ forall s, lang (whole p) s -> named path s \/ named (method_then (gap_then path)) s \/ in_brackets s.
Proof.
  intros p H. apply orb_prop in H as [H|H]; [apply orb_prop in H as [H|H]|]; apply is_spec in H; subst p; (split; [discriminate|]); intros s L.
  - left. now apply named_resource_text.
  - right. left. now apply named_endpoint_text.
  - right. right. now apply named_action_text.
Qed.
Lemma resource_texts : forall p, In p (nth 10 header_pats []) -> p <> "" /\ forall s, lang (whole p) s -> reads_resource s.
Proof.
  intros p [<-|[<-|[<-|[]]]]; (split; [discriminate|]); intros s L; unfold reads_resource.
  - right. right. left. now apply named_resource_text.
  - right. right. right. now apply named_endpoint_text.
  - apply resource_text in L. tauto.
Qed.
Lemma action_texts : forall p, In p (nth 11 header_pats []) -> p <> "" /\ forall s, lang (whole p) s -> reads_action s.
Proof.
  intros p [<-|[<-|[]]]; (split; [discriminate|]); intros s L; unfold reads_action.
  - left. now apply action_text.
  - right. now apply named_action_text.
Qed.
Lemma apart_pats_spec : forall p q, apart_pats p q = true -> (is p ModelRegex && other_pat q || is q ModelRegex && other_pat p = true)%bool \/
  (forall s, lang (whole p) s -> lang (whole q) s -> False).
Proof. intros p q H. unfold apart_pats, unless in H. match type of H with (if ?c then _ else _) = _ => destruct c end; [now left|right]. revert H. apply apart_sound. Qed.
Lemma apart_wide_spec : forall p q, apart_wide p q = true -> (is p ModelRegex && is q MSONMixinRegex = true)%bool \/
  (forall s, lang (widen (whole p)) s -> lang (whole q) s -> False).
Proof. intros p q H. unfold apart_wide, unless in H. match type of H with (if ?c then _ else _) = _ => destruct c end; [now left|right]. revert H. apply apart_sound. Qed.
Lemma apart_headers_spec : forall i j p q, apart_headers i j p q = true -> (given_pat p && named_pat q || given_pat q && named_pat p || path_pats i j = true)%bool \/
  (forall s, lang (whole p) s -> lang (whole q) s -> False).
Proof. intros i j p q H. unfold apart_headers, unless in H. match type of H with (if ?c then _ else _) = _ => destruct c end; [now left|right]. revert H. apply apart_sound. Qed.
Lemma apart_both_spec : forall p q, apart_both p q = true -> forall s, lang (whole p) s -> lang (whole q) s -> False.
Proof. intros p q. unfold apart_both. apply apart_sound. Qed.
Lemma overlap : forall i j f g t, nth_error keyword_checks i = Some f -> nth_error keyword_checks j = Some g -> i < j -> one_line t ->
  f t <> UndefinedSection -> g t <> UndefinedSection -> ambiguous t.
Proof.
  intros i j f g t Ef Eg L O Hf Hg.
  assert (Lj : j < 14) by (apply (nth_error_Some keyword_checks j); congruence).
  pose proof (check_pattern _ _ _ Ef O Hf) as F. pose proof (check_pattern _ _ _ Eg O Hg) as G.
  destruct (order_spec i j ltac:(lia)) as (O1 & O2 & O3).
  destruct F as [(p & Ip & Hp)|[(p & Ip & Hp)|(p & Ip & Hp)]], G as [(q & Iq & Hq)|[(q & Iq & Hq)|(q & Iq & Hq)]].
  - apply (every_spec _ _ _ _ _ O1) with (q := q) in Ip; [|exact Iq]. apply apart_pats_spec in Ip as [A|A].
    + left. apply orb_prop in A as [A|A]; apply andb_prop in A as [A1 A2]; apply is_spec in A1; subst; split; auto using model_says; left; eapply item_other; eassumption.
    + exfalso. exact (A _ (match_lang _ _ Hp) (match_lang _ _ Hq)).
  - apply (every_spec _ _ item_pats whole_pats apart_wide (wide_spec i j ltac:(lia) ltac:(lia))) with (q := q) in Ip; [|exact Iq]. apply apart_wide_spec in Ip as [A|A].
    + left. apply andb_prop in A as [A1 A2]. apply is_spec in A1, A2. subst. split; [now apply model_says|]. right.
      apply (check_item_whole _ reads_include) in Hq; [exact Hq|discriminate|exact include_text].
    + exfalso. exact (A _ (match_widen _ _ Hp) (match_lang _ _ Hq)).
  - exfalso. eapply item_not_header; eassumption.
  - apply (every_spec _ _ item_pats whole_pats apart_wide (wide_spec j i ltac:(lia) ltac:(lia))) with (q := p) in Iq; [|exact Ip]. apply apart_wide_spec in Iq as [A|A].
    + left. apply andb_prop in A as [A1 A2]. apply is_spec in A1, A2. subst. split; [now apply model_says|]. right.
      apply (check_item_whole _ reads_include) in Hp; [exact Hp|discriminate|exact include_text].
    + exfalso. exact (A _ (match_widen _ _ Hq) (match_lang _ _ Hp)).
  - apply (every_spec _ _ _ _ _ O2) with (q := q) in Ip; [|exact Iq]. exfalso. exact (apart_both_spec _ _ Ip _ (match_lang _ _ Hp) (match_lang _ _ Hq)).
  - exfalso. eapply whole_not_header; eassumption.
  - exfalso. eapply item_not_header; eassumption.
  - exfalso. eapply whole_not_header; eassumption.
  - right. pose proof (every_spec _ _ _ _ _ O3 _ _ Ip Iq) as A. apply apart_headers_spec in A as [A|A].
    + apply orb_prop in A as [A|A]; [apply orb_prop in A as [A|A]; apply andb_prop in A as [A1 A2]; left|right].
      * apply given_text in A1 as [N1 A1]. apply named_text in A2 as [N2 A2]. exact (header_both _ _ _ _ _ N1 N2 A1 A2 Hp Hq).
      * apply given_text in A1 as [N1 A1]. apply named_text in A2 as [N2 A2]. exact (header_both _ _ _ _ _ N1 N2 A1 A2 Hq Hp).
      * apply orb_prop in A as [A|A]; apply andb_prop in A as [A1 A2]; apply Nat.eqb_eq in A1, A2; [|lia]. subst i j.
        apply resource_texts in Ip as [N1 A1]. apply action_texts in Iq as [N2 A2]. exact (header_both _ _ _ _ _ N1 N2 A1 A2 Hp Hq).
    + exfalso. exact (A _ (match_lang _ _ Hp) (match_lang _ _ Hq)).
Qed.

(** ** the order of the checks *)
Definition firsts (l : list section_type) : section_type := fold_right or_else UndefinedSection l.
Lemma first_check_firsts : forall l t, first_check l t = firsts (map (fun f => f t) l).
Proof. induction l as [|f l IH]; intros t; cbn; [reflexivity|]. unfold first_check, firsts in *. now rewrite IH. Qed.
Lemma firsts_in : forall l, firsts l <> UndefinedSection -> In (firsts l) l.
Proof. induction l as [|x l IH]; intros H; [now elim H|]. cbn in *. destruct x; cbn in *; auto. Qed.
Lemma firsts_none : forall l, firsts l = UndefinedSection -> forall x, In x l -> x = UndefinedSection.
Proof. induction l as [|y l IH]; intros H x I; [destruct I|]. cbn in *. destruct I as [->|I]; [destruct x; auto; discriminate|]. apply IH; auto. destruct y; auto; discriminate. Qed.
Definition st_dec : forall x y : section_type, {x = y} + {x <> y}.
Proof. decide equality. Defined.
Lemma in_check : forall f, In f keyword_checks -> exists i, nth_error keyword_checks i = Some f.
Proof. intros f I. now apply In_nth_error. Qed.
Lemma unique_check : forall f g t, one_line t -> ~ ambiguous t -> In f keyword_checks -> In g keyword_checks -> f t <> UndefinedSection -> g t <> UndefinedSection -> f t = g t.
Proof.
  intros f g t O N If Ig Hf Hg. apply in_check in If as (i & Ei), Ig as (j & Ej).
  destruct (Nat.lt_trichotomy i j) as [L|[->|L]].
  - elim N. exact (overlap _ _ _ _ _ Ei Ej L O Hf Hg).
  - congruence.
  - elim N. exact (overlap _ _ _ _ _ Ej Ei L O Hg Hf).
Qed.
Lemma one_check : forall f t, one_line t -> ~ ambiguous t -> In f keyword_checks -> f t <> UndefinedSection -> section_keyword t = f t.
Proof.
  intros f t O N If Hf. unfold section_keyword. rewrite first_check_firsts. set (l := map _ _).
  destruct (st_dec (firsts l) UndefinedSection) as [E|E].
  - elim Hf. apply (firsts_none l E). now apply in_map with (f := fun f => f t).
  - pose proof (firsts_in l E) as I. apply in_map_iff in I as (g & Eg & Ig). rewrite <- Eg in E |- *. now apply unique_check.
Qed.
Lemma any_order : forall l t, Permutation l keyword_checks -> one_line t -> ~ ambiguous t -> first_check l t = section_keyword t.
Proof.
  intros l t P O N. rewrite first_check_firsts. set (m := map _ l). destruct (st_dec (firsts m) UndefinedSection) as [E|E].
  - rewrite E. destruct (st_dec (section_keyword t) UndefinedSection) as [H|H]; [now rewrite H|]. exfalso.
    unfold section_keyword in H. rewrite first_check_firsts in H. apply firsts_in in H as I. apply in_map_iff in I as (f & Ef & If).
    rewrite <- Ef in H. apply H. apply (firsts_none m E). apply in_map with (f := fun f => f t). now apply (Permutation_in _ (Permutation_sym P)).
  - pose proof (firsts_in m E) as I. apply in_map_iff in I as (g & Eg & Ig). rewrite <- Eg in E |- *. symmetry. apply one_check; auto. now apply (Permutation_in _ P).
Qed.
(** other lists of the same checks *)
Lemma some_checks : forall l t, incl l keyword_checks -> one_line t -> ~ ambiguous t -> first_check l t = UndefinedSection \/ first_check l t = section_keyword t.
Proof.
  intros l t P O N. rewrite first_check_firsts. set (m := map _ l). destruct (st_dec (firsts m) UndefinedSection) as [E|E]; [now left|right].
  pose proof (firsts_in m E) as I. apply in_map_iff in I as (g & Eg & Ig). rewrite <- Eg in E |- *. symmetry. apply one_check; auto.
Qed.
Ltac checks_in := intros f I; cbn in I |- *; intuition (subst; auto 20).
Lemma or_undefined : forall x, or_else x UndefinedSection = x.
Proof. now intros []. Qed.
Lemma nested_payload : forall t, payload_nested_type t = first_check [headers_type; asset_type; attributes_type; parameters_type] t.
Proof. intros t. unfold first_check, payload_nested_type. cbn [fold_right]. now rewrite or_undefined. Qed.
Lemma nested_action : forall t, action_nested_type t = first_check [relation_type; parameters_type; headers_type; attributes_type; payload_type] t.
Proof. intros t. unfold first_check, action_nested_type. cbn [fold_right]. now rewrite or_undefined. Qed.
Lemma nested_blueprint : forall t, blueprint_nested_type t = first_check [resource_type; resource_group_type; data_structures_type] t.
Proof. intros t. unfold first_check, blueprint_nested_type. cbn [fold_right]. now rewrite or_undefined. Qed.
Lemma or_else_cases : forall x y, or_else x y = x \/ or_else x y = y.
Proof. intros [] y; cbn; auto. Qed.
Lemma nested_resource : forall t, resource_nested_type t = UndefinedSection \/ exists f, In f keyword_checks /\ resource_nested_type t = f t.
Proof.
  intros t. unfold resource_nested_type.
  repeat match goal with |- context [or_else ?x ?y] => destruct (or_else_cases x y) as [->| ->] end.
  - right. exists parameters_type. split; [cbn; tauto|reflexivity].
  - right. exists headers_type. split; [cbn; tauto|reflexivity].
  - destruct (payload_type t) eqn:D; auto; right; exists payload_type; (split; [cbn; tauto|now rewrite D]).
  - right. exists attributes_type. split; [cbn; tauto|reflexivity].
  - destruct (action_section_type t) eqn:F; auto. destruct (action_type_of t); auto; right; exists action_section_type; (split; [cbn; tauto|now rewrite F]).
Qed.
Lemma agrees : forall t r, one_line t -> ~ ambiguous t -> (r = UndefinedSection \/ exists f, In f keyword_checks /\ r = f t) -> r = UndefinedSection \/ r = section_keyword t.
Proof.
  intros t r O N [H|(f & If & ->)]; [now left|]. destruct (st_dec (f t) UndefinedSection) as [E|E]; [now left|right]. symmetry. now apply one_check.
Qed.
Lemma nested_agrees : forall t f, one_line t -> ~ ambiguous t ->
  In f [payload_nested_type; action_nested_type; resource_nested_type; resource_group_nested_type; blueprint_nested_type] -> f t = UndefinedSection \/ f t = section_keyword t.
Proof.
  intros t f O N [<-|[<-|[<-|[<-|[<-|[]]]]]].
  - rewrite nested_payload. apply some_checks; auto. checks_in.
  - rewrite nested_action. apply some_checks; auto. checks_in.
  - apply agrees; auto. apply nested_resource.
  - apply agrees; auto. right. exists resource_type. split; [cbn; tauto|reflexivity].
  - rewrite nested_blueprint. apply some_checks; auto. checks_in.
Qed.
Lemma members_agree : forall t f, one_line t -> ~ ambiguous t -> In f [member_nested_type; type_section_nested_type; one_of_nested_type] ->
  In (f t) [UndefinedSection; MSONSection; MSONPropertyMemberSection] \/ f t = section_keyword t.
Proof.
  intros t f O N I.
  assert (X : forall l r, incl l keyword_checks -> In r [UndefinedSection; MSONSection; MSONPropertyMemberSection] ->
    In (or_else (first_check l t) r) [UndefinedSection; MSONSection; MSONPropertyMemberSection] \/ or_else (first_check l t) r = section_keyword t).
  { intros l r Il Ir. destruct (some_checks l t Il O N) as [E|E]; rewrite E; [now left|].
    destruct (st_dec (section_keyword t) UndefinedSection) as [U|U]; [rewrite U; now left|right]. destruct (section_keyword t); auto. now elim U. }
  assert (Y : forall a b c, or_else a (or_else b c) = or_else (or_else a b) c) by (intros [] b c; reflexivity).
  destruct I as [<-|[<-|[<-|[]]]].
  - specialize (X [type_section_type; mixin_type; one_of_type] MSONSection). unfold first_check in X. cbn [fold_right] in X. unfold member_nested_type.
    rewrite !Y in *. rewrite or_undefined in X. apply X; [checks_in|cbn; tauto].
  - specialize (X [mixin_type; one_of_type] MSONSection). unfold first_check in X. cbn [fold_right] in X. unfold type_section_nested_type.
    rewrite !Y in *. rewrite or_undefined in X. apply X; [checks_in|cbn; tauto].
  - specialize (X [mixin_type; one_of_type; type_section_type] (if_ (is_item t) MSONPropertyMemberSection)). unfold first_check in X. cbn [fold_right] in X. unfold one_of_nested_type.
    rewrite !Y in *. rewrite or_undefined in X. apply X; [checks_in|]. destruct (is_item t); cbn; tauto.
Qed.
