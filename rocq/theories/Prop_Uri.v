(** C72: URI templates *)
From Verif Require Import Base Peg Utf8Spec MediaType MediaSpec UriTemplate UriSpec UriChars UriProofs UriReport.
Local Open Scope string_scope.

(** A text is cut into expressions and what lies between them in one way only. *)
Lemma brace_unique : forall a b r r', free "}" a -> free "}" b -> closes r -> closes r' -> a +++ r = b +++ r' -> a = b /\ r = r'.
Proof.
  induction a as [|x a IH]; intros [|y b] r r' A B R R' E; cbn [append] in E.
  - now split.
  - exfalso. subst r. destruct R as [Z|[q Z]]; [discriminate|]. injection Z as -> _. apply B. now left.
  - exfalso. subst r'. destruct R' as [Z|[q Z]]; [discriminate|]. injection Z as -> _. apply A. now left.
  - injection E as <- E. assert (A' : free "}" a) by (intros Q; apply A; now right). assert (B' : free "}" b) by (intros Q; apply B; now right).
    destruct (IH b r r') as [-> ->]; auto.
Qed.
Lemma cuts_inv : forall uri segs, cuts uri segs ->
  (uri = "" /\ segs = []) \/
  (exists t rest l, uri = t +++ rest /\ segs = Text t :: l /\ t <> "" /\ free "{" t /\ (rest = "" \/ starts "{" rest) /\ cuts rest l) \/
  (exists b rest l, uri = String "{" (b +++ String "}" rest) /\ segs = Braces b true :: l /\ free "}" b /\ cuts rest l) \/
  (exists b, uri = String "{" b /\ segs = [Braces b false] /\ free "}" b).
Proof.
  intros uri segs H. destruct H; [left; now split|right; left|right; right; left|right; right; right].
  - now exists t, rest, l.
  - now exists b, rest, l.
  - now exists b.
Qed.
Theorem C72_cut_once : forall uri, exists segs, cuts uri segs /\ forall segs', cuts uri segs' -> segs' = segs.
Proof.
  intros uri. destruct (cuts_total uri) as [segs C]. exists segs. split; [exact C|].
  induction C as [|t rest segs N F K C IH|b rest segs B C IH|b B]; intros segs' C';
    apply cuts_inv in C' as [[E ->]|[(t' & rest' & l & E & -> & N' & F' & K' & C2)|[(b' & rest' & l & E & -> & B' & C2)|(b' & E & -> & B')]]].
  - reflexivity.
  - destruct t'; [congruence|discriminate].
  - discriminate.
  - discriminate.
  - destruct t; [congruence|discriminate].
  - destruct (stop_unique t t' rest rest' F F' K K' E) as [-> ->]. now rewrite (IH _ C2).
  - destruct t as [|x t]; [congruence|]. injection E as -> _. destruct F. now left.
  - destruct t as [|x t]; [congruence|]. injection E as -> _. destruct F. now left.
  - discriminate.
  - destruct t' as [|x t']; [congruence|]. injection E as <- _. destruct F'. now left.
  - injection E as E. destruct (brace_unique b b' (String "}" rest) (String "}" rest')) as [-> [= ->]]; [exact B|exact B'|right; now eexists|right; now eexists|exact E|]. now rewrite (IH _ C2).
  - injection E as E. exfalso. apply B'. rewrite <- E. clear. induction b; cbn; auto.
  - discriminate.
  - destruct t' as [|x t']; [congruence|]. injection E as <- _. destruct F'. now left.
  - injection E as E. exfalso. apply B. rewrite E. clear. induction b'; cbn; auto.
  - now injection E as ->.
Qed.

(** The parts found are exactly the ones described: nothing is lost or misplaced, and parsing ends without an exception. *)
Theorem C72_parts : forall uri l, uri <> "" -> (parse_parts uri = Some l <-> exists segs, cuts uri segs /\ Forall2 part_of segs l).
Proof.
  intros uri l N. split.
  - intros E. destruct (cuts_total uri) as [segs C]. destruct (parts_total uri segs C) as [l' L]. pose proof (template_ok uri segs l' C L N) as E'.
    rewrite E in E'. injection E' as ->. now exists segs.
  - intros (segs & C & L). exact (template_ok uri segs l C L N).
Qed.

(** Every text yields its warnings: one for each disallowed text, unsupported operator, invalid variable and missing bracket, in this order. *)
Theorem C72_warnings : forall uri, exists segs ws, cuts uri segs /\ Forall2 remarks segs ws /\ uri_warnings uri = Some (concat ws).
Proof.
  intros uri. destruct (cuts_total uri) as [segs C]. destruct (warnings_ok uri segs C) as (ws & E & R). now exists segs, ws.
Qed.

(** Nothing is said exactly about the templates. *)
Lemma supported_simple : forall o, about_operator o = [] <-> simple_operator o.
Proof. intros o. unfold simple_operator. destruct o; cbn; intuition discriminate. Qed.
Lemma remarks_fine : forall s ws, remarks s ws -> (ws = [] <-> fine s).
Proof.
  intros s ws [t L|t w L A|b closed o rest ps ws' O P I].
  - split; [intros _; now constructor|reflexivity].
  - split; [discriminate|]. intros H. inversion H. contradiction.
  - split.
    + intros H. apply app_eq_nil in H as [H1 H]. apply app_eq_nil in H as [H2 H3]. destruct closed; [|discriminate]. apply supported_simple in H1.
      apply (fine_braces b o rest ps); [exact O|exact H1|exact P|]. clear P O. induction I as [|p w ps ws' Hp I IH]; [constructor|].
      cbn [concat] in H2. apply app_eq_nil in H2 as [-> H2]. constructor; [|now apply IH]. destruct Hp as [[V _]|[_ (m & K & _)]]; [exact V|discriminate].
    + intros H. inversion H as [|? o' rest' ps' O' S' P' V]; subst.
      assert (K : o' = o /\ rest' = rest).
      { destruct O as [(c & E & Oc)|(-> & -> & N)], O' as [(c' & E' & Oc')|(-> & -> & N')].
        - rewrite E in E'. injection E' as <- <-. split; [|reflexivity]. cbn in Oc, Oc'. repeat (destruct Oc as [[= <- <-]|Oc]; [intuition congruence|]). now destruct Oc.
        - exfalso. apply (N' c rest E). apply in_map_iff. now exists (c, o).
        - exfalso. apply (N c' rest' E'). apply in_map_iff. now exists (c', o').
        - now split. }
      destruct K as [-> ->]. apply supported_simple in S'. rewrite S'. cbn [app].
      assert (K : ps' = ps).
      { clear -P P'. destruct P as (N & F & E), P' as (N' & F' & E'). rewrite E in E'. clear E. revert ps' N' F' E'. induction F as [|p ps Hp F IH]; [congruence|].
        intros [|q qs] N' F' E'; [congruence|]. inversion F' as [|? ? Hq F'']; subst.
        assert (U : forall a b r r', free "," a -> free "," b -> (r = "" \/ starts "," r) -> (r' = "" \/ starts "," r') -> a +++ r = b +++ r' -> a = b /\ r = r').
        { clear. induction a as [|x a IH]; intros [|y b] r r' A B R R' E; cbn [append] in E.
          - now split.
          - exfalso. subst r. destruct R as [Z|[q Z]]; [discriminate|]. injection Z as -> _. apply B. now left.
          - exfalso. subst r'. destruct R' as [Z|[q Z]]; [discriminate|]. injection Z as -> _. apply A. now left.
          - injection E as <- E. assert (A' : free "," a) by (intros Q; apply A; now right). assert (B' : free "," b) by (intros Q; apply B; now right).
            destruct (IH b r r') as [-> ->]; auto. }
        assert (J : forall l : list string, sconcat (map (fun p => "," +++ p) l) = "" \/ starts "," (sconcat (map (fun p => "," +++ p) l))).
        { intros [|x l]; [now left|right]. cbn [map sconcat]. rewrite append_assoc. now eexists. }
        rewrite !join_sconcat in E'. destruct (U p q _ _ Hp Hq (J ps) (J qs) E') as [<- E]. f_equal.
        destruct ps as [|x ps], qs as [|y qs]; [reflexivity|discriminate|discriminate|].
        apply IH; [discriminate|discriminate|exact F''|]. rewrite !join_sconcat. cbn [map sconcat] in E. rewrite !append_assoc in E. now injection E. }
      subst ps'. rewrite app_nil_r. clear P P' O O' H. induction I as [|p w ps ws' Hp I IH]; [reflexivity|]. inversion V as [|? ? V1 V2]; subst.
      cbn [concat]. destruct Hp as [[_ ->]|[Z _]]; [now apply IH|]. destruct V1 as [v V1]. now destruct (Z v).
Qed.
Theorem C72_silent : forall uri, uri_warnings uri = Some [] <-> template uri.
Proof.
  intros uri. destruct (C72_cut_once uri) as (segs & C & U). destruct (warnings_ok uri segs C) as (ws & E & R). rewrite E. split.
  - intros [= K]. exists segs. split; [exact C|]. clear E C U. induction R as [|s w segs ws H R IH]; [constructor|]. cbn [concat] in K. apply app_eq_nil in K as [-> K].
    constructor; [now apply (remarks_fine s [] H)|now apply IH].
  - intros (segs' & C' & F). rewrite (U _ C') in F. f_equal. clear E C U C'. induction R as [|s w segs ws H R IH]; [reflexivity|]. inversion F as [|? ? F1 F2]; subst.
    cbn [concat]. rewrite (proj2 (remarks_fine s w H) F1), (IH F2). reflexivity.
Qed.

(** The encoding proposed for a control character is none: "%1" instead of "%01". *)
Theorem C72_encoding_refuted :
  uri_warnings (String "{" (String (chr 1) "}")) =
  Some ["URI template variable '" +++ String (chr 1) "" +++ "' contains invalid character '" +++ String (chr 1) "" +++
        "', which should be encoded as '%1'. Allowed characters for expressions are A-Z a-z 0-9 _ and percent encoded characters"] /\
  percent (String (chr 1) "") = "%01".
Proof. split; vm_compute; reflexivity. Qed.
(** An allowed character may be blamed, if it follows a modifier; an empty variable is reported without saying what is wrong. *)
Theorem C72_blame_refuted :
  uri_warnings "{a:12x}" =
  Some ["URI template variable 'a:12x' contains invalid character 'x', which should be encoded as '%78'. Allowed characters for expressions are A-Z a-z 0-9 _ and percent encoded characters"] /\
  uri_warnings "{a,}" =
  Some ["URI template variable '' contains invalid . Allowed characters for expressions are A-Z a-z 0-9 _ and percent encoded characters"].
Proof. split; vm_compute; reflexivity. Qed.
(** RFC 6570 allows prefixes of one to four digits, and dots between the characters of a name only. *)
Theorem C72_rfc_refuted : uri_warnings "{a:1234}" <> Some [] /\ uri_warnings "{a:}" = Some [] /\ uri_warnings "{a.}" = Some [].
Proof. repeat split; try (vm_compute; reflexivity). vm_compute. discriminate. Qed.

(** a template, and a text that is none *)
Example C72_nonvacuous : uri_warnings "/people/{id}{?name*,page:2}" = Some [] /\ template "/people/{id}{?name*,page:2}" /\
  exists w, uri_warnings "/a b{/c}" = Some ["URI template contains disallowed character ' '. Disallowed characters must be percent encoded."; w].
Proof. split; [vm_compute; reflexivity|]. split; [apply C72_silent; vm_compute; reflexivity|]. eexists. vm_compute. reflexivity. Qed.
Example C72_parts_nonvacuous : parse_parts "/p/{?q*,r..s" =
  Some [Literals "/p/"; Expression (Expr QueryParam [GoodItem (Var "q" 0 true); InvalidItem "r..s"] true)].
Proof. vm_compute. reflexivity. Qed.
Print Assumptions C72_cut_once.
Print Assumptions C72_parts.
Print Assumptions C72_warnings.
Print Assumptions C72_silent.
