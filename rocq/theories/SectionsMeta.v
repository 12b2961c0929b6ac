From Verif Require Import Base StringUtility StringSpec StringProofs ByteBuffer Markdown MarkdownSpec Keywords KeywordsSpec TypeTables Sections SectionsSpec.
Local Open Scope string_scope.

Lemma solid_white : forall s, solid s <-> exists c, has c s /\ ~ white c.
Proof.
  intros s. unfold solid. split; intros (c & H & N); exists c; (split; [exact H|]); intros K; apply N.
  - unfold white in K. cbn [In] in K |- *. destruct K as [K|[K|[K|[K|[K|[K|[]]]]]]]; apply (f_equal chr) in K; rewrite chr_byte in K; rewrite <- K; auto 10.
  - unfold white. cbn [In] in K. destruct K as [<-|[<-|[<-|[<-|[<-|[<-|[]]]]]]]; vm_compute; auto 10.
Qed.
Lemma all_or_not : forall s, all white s \/ exists c, has c s /\ ~ white c.
Proof.
  induction s as [|c s [IH|(d & H & N)]].
  - left. apply Forall_nil.
  - destruct (is_space c) eqn:E.
    + left. apply all_cons. split; [now apply is_space_spec|exact IH].
    + right. exists c. split; [now left|now apply is_space_not].
  - right. exists d. split; [now right|exact N].
Qed.
Lemma has_all : forall (P : ascii -> Prop) c s, all P s -> has c s -> P c.
Proof. intros P c s A H. unfold all in A. rewrite Forall_forall in A. now apply A. Qed.
Lemma trim_solid : forall s, trim s <> "" <-> solid s.
Proof.
  intros s. rewrite solid_white. destruct (trim_spec s) as (a & b & E & A & B & H1 & _). split.
  - intros N. destruct (trim s) as [|c r]; [congruence|]. exists c. split; [|exact (H1 c r eq_refl)]. rewrite E. apply has_app. right. cbn. now left.
  - intros (c & H & N) Z. rewrite Z in E. cbn in E. rewrite E in H. apply has_app in H as [H|H]; apply N; [exact (has_all _ _ _ A H)|exact (has_all _ _ _ B H)].
Qed.
Lemma key_value_iff : forall l, key_value l = true <-> exists k v, l = k +++ ":" +++ v /\ ~ has ":" k /\ solid k /\ solid v.
Proof.
  intros l. unfold key_value. destruct (in_dec ascii_dec ":"%char (list_ascii_of_string l)) as [H|H].
  - destruct (has_split _ _ H) as (k & v & -> & K). rewrite (split_first_some _ _ _ K). rewrite andb_true_iff, !negb_true_iff.
    split.
    + intros [A B]. exists k, v. split; [reflexivity|]. split; [exact K|]. rewrite <- !trim_solid. split; now apply String.eqb_neq.
    + intros (k' & v' & E & K' & S1 & S2). assert (X : k' = k /\ v' = v).
      { pose proof (split_first_some _ _ v K) as P. rewrite E in P. cbn in P. change (k' +++ String ":" v') with (k' +++ String ":" v') in P. rewrite (split_first_some _ _ v' K') in P. now injection P. }
      destruct X as [-> ->]. rewrite <- trim_solid in S1, S2. split; now apply String.eqb_neq.
  - rewrite (split_first_none _ _ H). split; [discriminate|]. intros (k & v & -> & _). elim H. change (has ":" (k +++ ":" +++ v)). apply has_app. right. now left.
Qed.
Lemma terminated_app : forall d a b, terminated d (a ++ b)%list = terminated d a +++ terminated d b.
Proof. intros. unfold terminated. now rewrite map_app, sconcat_app. Qed.
Lemma terminated_end : forall d ps, terminated d ps = "" \/ exists r, terminated d ps = r +++ String d "".
Proof.
  intros d ps. destruct (rev ps) as [|p r] eqn:E.
  - left. apply (f_equal (@rev _)) in E. rewrite rev_involutive in E. now subst.
  - right. apply (f_equal (@rev _)) in E. rewrite rev_involutive in E. subst ps. cbn [rev]. rewrite terminated_app. exists (terminated d (rev r) +++ p). unfold terminated at 2. cbn. rewrite append_nil_r.
    now rewrite append_assoc.
Qed.
Lemma in_lines : forall d s l, In l (split s d) -> ~ has d l /\ exists a b, s = a +++ l +++ b /\ (a = "" \/ exists r, a = r +++ String d "").
Proof.
  intros d s l H. destruct (pieces_of d s) as (ps & tail & F & T & ->). rewrite (split_terminated d ps tail F T) in H.
  assert (G : In l ps \/ (l = tail)) by (apply in_app_or in H as [H|H]; [now left|]; destruct (String.eqb tail ""); [destruct H|]; destruct H as [H|[]]; now right).
  destruct G as [G| ->].
  - split; [rewrite Forall_forall in F; now apply F|]. apply in_split in G as (p & q & ->). exists (terminated d p), (String d (terminated d q) +++ tail). split; [|apply terminated_end].
    rewrite terminated_app. unfold terminated at 2. cbn [map sconcat]. change (sconcat (map (fun p0 => p0 +++ String d "") q)) with (terminated d q). rewrite !append_assoc. reflexivity.
  - split; [exact T|]. exists (terminated d ps), "". split; [now rewrite append_nil_r|apply terminated_end].
Qed.
Lemma lines_in : forall d a l b, ~ has d l -> l <> "" -> (a = "" \/ exists r, a = r +++ String d "") -> exists c, In (l +++ c) (split (a +++ l +++ b) d) /\ ~ has d c /\ exists e, b = c +++ e.
Proof.
  intros d a l b N Ne A.
  assert (X : exists ps, Forall (fun p => ~ has d p) ps /\ a = terminated d ps).
  { destruct A as [->|(r & ->)]; [exists []; split; [constructor|reflexivity]|]. destruct (pieces_of d r) as (ps & tail & F & T & ->). exists (ps ++ [tail])%list.
    split; [apply Forall_app; split; [exact F|constructor; [exact T|constructor]]|]. rewrite terminated_app. unfold terminated at 2. cbn. now rewrite append_nil_r, append_assoc. }
  destruct X as (ps & F & ->). destruct (in_dec ascii_dec d (list_ascii_of_string b)) as [H|H].
  - destruct (has_split _ _ H) as (c & e & -> & C). exists c. split; [|split; [exact C|eexists; reflexivity]].
    destruct (pieces_of d e) as (qs & tail & G & T & ->).
    replace (terminated d ps +++ l +++ c +++ String d (terminated d qs +++ tail)) with (terminated d (ps ++ (l +++ c) :: qs)%list +++ tail).
    + rewrite split_terminated; [apply in_or_app; left; apply in_or_app; right; now left| |exact T]. apply Forall_app. split; [exact F|]. constructor; [|exact G]. intros K. apply has_app in K as [K|K]; [now apply N|now apply C].
    + rewrite terminated_app. unfold terminated at 2. cbn [map sconcat]. change (sconcat (map (fun p0 => p0 +++ String d "") qs)) with (terminated d qs). rewrite !append_assoc. reflexivity.
  - exists b. split; [|split; [exact H|exists ""; now rewrite append_nil_r]]. rewrite split_terminated; [|exact F|].
    + apply in_or_app. right. destruct (String.eqb_spec (l +++ b) "") as [E|_]; [destruct l; [congruence|discriminate]|now left].
    + intros K. apply has_app in K as [K|K]; [now apply N|now apply H].
Qed.
Lemma has_last : forall c s, has c s -> exists a b, s = a +++ String c "" +++ b.
Proof. intros c s H. destruct (has_split _ _ H) as (a & b & -> & _). now exists a, b. Qed.
Lemma trim_end_keeps : forall x p c b, x = p +++ String c b -> ~ white c -> exists b', trim_end x = p +++ String c b'.
Proof.
  intros x p c b E N. destruct (trim_end_spec x) as (w & Ex & W & _). revert Ex. generalize (trim_end x). intros y Ex. rewrite E in Ex. clear E x.
  revert p Ex. induction y as [|d y IH]; intros p Ex; cbn in Ex.
  - exfalso. apply N. apply (has_all _ _ _ W). rewrite <- Ex. apply has_app. right. now left.
  - destruct p as [|e p]; cbn in Ex; injection Ex as E1 E2.
    + subst d. now exists y.
    + subst e. destruct (IH p E2) as (b' & ->). now exists b'.
Qed.
Lemma metadata_iff : forall t, t_type t = ParagraphNode -> (metadata t = true <-> metadata_p t).
Proof.
  intros [ty x z m cs] E. cbn in E. subst ty. unfold metadata, metadata_p. cbn [t_text]. rewrite existsb_exists. split.
  - intros (l & I & K). apply in_lines in I as (N & a & b & E & A). apply key_value_iff in K as (k & v & -> & Nk & S1 & S2).
    destruct (trim_end_spec x) as (w & Ex & _). exists a, k, v, (b +++ w). split; [rewrite Ex, E, !append_assoc; reflexivity|]. split; [exact A|].
    assert (Hk : forall c, has c k \/ has c v -> has c (k +++ ":" +++ v)) by (intros c [H|H]; apply has_app; [now left|right; now right]).
    split; [intros H; apply N, Hk; now left|]. split; [exact Nk|]. split; [intros H; apply N, Hk; now right|]. split; assumption.
  - intros (a & k & v & b & E & A & N1 & Nk & N2 & S1 & S2).
    apply solid_white in S2 as (c & Hc & Nc). apply has_last in Hc as (v1 & v2 & Ev). cbn in Ev. subst v.
    destruct (trim_end_keeps x (a +++ k +++ ":" +++ v1) c (v2 +++ b)) as (b' & E'); [rewrite E, !append_assoc; reflexivity|exact Nc|].
    assert (Nv : ~ has "010" (v1 +++ String c "")).
    { intros H. apply N2. apply has_app in H as [H|H]; apply has_app; [now left|]. right. destruct H as [H|[]]. now left. }
    assert (Nl : ~ has "010" (k +++ ":" +++ v1 +++ String c "")).
    { intros H. apply has_app in H as [H|[H|H]]; [now apply N1|discriminate|now apply Nv]. }
    destruct (lines_in "010" a (k +++ ":" +++ v1 +++ String c "") b' Nl) as (e & I & _).
    { destruct k; discriminate. } { exact A. }
    exists ((k +++ ":" +++ v1 +++ String c "") +++ e). split.
    + rewrite E'. replace ((a +++ k +++ ":" +++ v1) +++ String c b') with (a +++ (k +++ ":" +++ v1 +++ String c "") +++ b') by (rewrite !append_assoc; reflexivity). exact I.
    + apply key_value_iff. exists k, (v1 +++ String c e). split; [rewrite append_assoc; cbn; now rewrite append_assoc|]. split; [exact Nk|]. split; [exact S1|].
      apply solid_white. exists c. split; [apply has_app; right; now left|exact Nc].
Qed.
