(** Lemmas for C77: the first lines of requests, responses and models *)
From Verif Require Import Base StringUtility StringSpec StringProofs SignatureProofs Regex RegexSpec RegexProofs ByteBuffer ByteSpec Markdown MarkdownSpec MarkdownTree Keywords KeywordsSpec KeywordsProofs KeywordsOrder Prop_Keywords Prop_Strings RegexCaps TypeTables SectionsSpec SectionsKeys.
From Verif Require Import Source Headers HeadersSpec HeadersProofs Payloads PayloadsSpec PayloadsText.
Local Open Scope string_scope.

(** ** the media type and the blanks around it *)
Definition inner_re : re := Star (Set_ true [(92, 92); (41, 41)]%N).
Definition tail_re (g h : nat) : re :=
  Cat (Alt (Grp g (Cat (Star blank_re) (Cat (Set_ false [(byte "(", byte "(")]) (Cat (Grp h (Cat inner_re Eps)) (Cat (Set_ false [(byte ")", byte ")")]) Eps))))) Eps)
    (Cat (Star blank_re) Eps).
Definition media_text (x : string) : Prop := all (fun c => c <> ")"%char /\ c <> "\"%char) x.
Lemma inner_lang : forall x, lang inner_re x <-> media_text x.
Proof.
  intros x. unfold inner_re. rewrite star_set. apply all_iff. intros c. rewrite not_in. change [(92, 92); (41, 41)]%N with (map (fun d => (byte d, byte d)) ["\"; ")"]%char).
  rewrite exact_set. cbn. intuition congruence.
Qed.
(** the media type: the text, and the capture *)
Definition media_capture (m x : string) : Prop := (m = "" /\ x = "") \/ (m = "(" +++ x +++ ")" /\ media_text x).
Lemma caps_tail : forall g h s l, caps (tail_re g h) s l -> g <> h -> exists b m x y, s = b +++ m +++ y /\ blanks b /\ blanks y /\ media_capture m x /\ group h l = x /\
  (forall k, k <> g -> k <> h -> group k l = "").
Proof.
  intros g h s l C N. apply caps_cat_inv in C as (p1 & q1 & m1 & n1 & -> & -> & C1 & C). apply caps_cat_inv in C as (p2 & q2 & m2 & n2 & -> & -> & C2 & C).
  apply caps_plain in C2 as [-> L2]; [|reflexivity]. apply caps_eps_inv in C as [-> ->]. rewrite append_nil_r. apply blanks_lang in L2. rewrite !app_nil_r.
  apply caps_alt_inv in C1 as [C|C].
  - apply caps_grp_inv in C as (k & -> & C). apply caps_cat_inv in C as (p3 & q3 & m3 & n3 & -> & -> & C3 & C). apply caps_plain in C3 as [-> L3]; [|reflexivity].
    apply (caps_lit "(") in C as (q4 & -> & C). apply caps_cat_inv in C as (p5 & q5 & m5 & n5 & -> & -> & C5 & C). apply caps_grp_inv in C5 as (k5 & -> & C5).
    apply caps_cat_inv in C5 as (p6 & q6 & m6 & n6 & -> & -> & C6 & C7). apply caps_plain in C6 as [-> L6]; [|reflexivity]. apply caps_eps_inv in C7 as [-> ->].
    apply (caps_lit ")") in C as (q8 & -> & C). apply caps_eps_inv in C as [-> ->]. rewrite append_nil_r. exists p3, ("(" +++ p6 +++ ")"), p6, p2.
    split; [rewrite !append_assoc; cbn; now rewrite !append_assoc|]. split; [now apply blanks_lang|]. split; [exact L2|]. split; [right; split; [reflexivity|now apply inner_lang]|].
    cbn [app group]. rewrite !Nat.eqb_refl. destruct (Nat.eqb_spec g h) as [E|_]; [contradiction|]. split; [reflexivity|]. intros k A D.
    destruct (Nat.eqb_spec g k) as [E|_]; [congruence|]. destruct (Nat.eqb_spec h k) as [E|_]; [congruence|reflexivity].
  - apply caps_eps_inv in C as [-> ->]. exists "", "", "", p2. split; [reflexivity|]. split; [apply Forall_nil|]. split; [exact L2|]. split; [now left|]. split; reflexivity.
Qed.
Lemma lang_tail : forall g h b m x y, blanks b -> blanks y -> media_capture m x -> lang (tail_re g h) (b +++ m +++ y).
Proof.
  intros g h b m x y B Y [[-> ->]|[-> X]].
  - change ("" +++ y) with y. change (lang (tail_re g h) ("" +++ (b +++ y))). apply lang_cat; [apply lang_alt_iff; right; exact lang_eps|].
    rewrite <- (append_nil_r (b +++ y)). apply lang_cat; [apply blanks_lang, all_app; now split|exact lang_eps].
  - rewrite <- append_assoc. apply lang_cat.
    + apply lang_alt_iff. left. apply lang_grp_iff, lang_cat; [now apply blanks_lang|]. apply lang_lit. apply lang_cat.
      * apply lang_grp_iff. rewrite <- (append_nil_r x). apply lang_cat; [now apply inner_lang|exact lang_eps].
      * apply lang_lit. exact lang_eps.
    + rewrite <- (append_nil_r y). apply lang_cat; [now apply blanks_lang|exact lang_eps].
Qed.

Definition request_re : re :=
  Cat (Star blank_re) (Cat (Set_ false (map (fun d => (byte d, byte d)) ["R"; "r"]%char)) (Cat (Set_ false [(byte "e", byte "e")]) (Cat (Set_ false [(byte "q", byte "q")])
  (Cat (Set_ false [(byte "u", byte "u")]) (Cat (Set_ false [(byte "e", byte "e")]) (Cat (Set_ false [(byte "s", byte "s")]) (Cat (Set_ false [(byte "t", byte "t")])
  (Cat (Alt (Grp 1 (Cat blank_re (Cat (Grp 2 name_re) Eps))) Eps) (tail_re 3 4))))))))).
Definition digits_re : re := Set_ false [(32, 32); (9, 9); (48, 57)]%N.
Definition response_re : re :=
  Cat (Star blank_re) (Cat (Set_ false (map (fun d => (byte d, byte d)) ["R"; "r"]%char)) (Cat (Set_ false [(byte "e", byte "e")]) (Cat (Set_ false [(byte "s", byte "s")])
  (Cat (Set_ false [(byte "p", byte "p")]) (Cat (Set_ false [(byte "o", byte "o")]) (Cat (Set_ false [(byte "n", byte "n")]) (Cat (Set_ false [(byte "s", byte "s")])
  (Cat (Set_ false [(byte "e", byte "e")]) (Cat (Alt (Grp 1 (Cat (Cat digits_re (Star digits_re)) Eps)) Eps) (tail_re 2 3)))))))))).
Definition model_re : re :=
  Cat (Star blank_re) (Cat (Alt (Grp 1 (Cat (Grp 2 name_re) (Cat gap_re Eps))) Eps)
  (Cat (Set_ false (map (fun d => (byte d, byte d)) ["M"; "m"]%char)) (Cat (Set_ false [(byte "o", byte "o")]) (Cat (Set_ false [(byte "d", byte "d")])
  (Cat (Set_ false [(byte "e", byte "e")]) (Cat (Set_ false [(byte "l", byte "l")]) (tail_re 3 4))))))).
Lemma request_compiled : compile RequestRegex = Some (true, request_re, false).
Proof. vm_compute. reflexivity. Qed.
Lemma response_compiled : compile ResponseRegex = Some (true, response_re, false).
Proof. vm_compute. reflexivity. Qed.
Lemma model_compiled : compile ModelRegex = Some (true, model_re, true).
Proof. vm_compute. reflexivity. Qed.

(** ** the parts of the text that is matched *)
Lemma caps_request : forall u l, caps request_re u l -> exists b w n m x z, u = b +++ w +++ n +++ m +++ z /\ blanks b /\ In w ["Request"; "request"] /\ no_brackets n /\
  (n = "" \/ exists c n', n = String c n' /\ blank_char c) /\ blanks z /\ media_capture m x /\ trim (group 1 l) = trim n /\ group 4 l = x.
Proof.
  intros u l C. unfold request_re in C.
  apply caps_cat_inv in C as (p1 & q1 & m1 & n1 & -> & -> & C1 & C). apply caps_plain in C1 as [-> L1]; [|reflexivity]. apply blanks_lang in L1.
  apply caps_set_cat in C as (c & q2 & -> & W & C). apply pick_set in W.
  apply (caps_lit "e") in C as (q3 & -> & C). apply (caps_lit "q") in C as (q4 & -> & C). apply (caps_lit "u") in C as (q5 & -> & C). apply (caps_lit "e") in C as (q6 & -> & C).
  apply (caps_lit "s") in C as (q7 & -> & C). apply (caps_lit "t") in C as (q8 & -> & C).
  apply caps_cat_inv in C as (p9 & q9 & m9 & n9 & -> & -> & C9 & C). apply caps_tail in C as (b & m & x & y & -> & Bb & By & M & G & G0); [|discriminate].
  assert (Hw : In (String c "equest") ["Request"; "request"]) by (destruct W as [<-|[<-|[]]]; cbn; auto).
  apply caps_alt_inv in C9 as [C|C].
  - apply caps_grp_inv in C as (k & -> & C). apply caps_cat_inv in C as (pa & qa & ma & na & -> & -> & Ca & C). apply caps_plain in Ca as [-> La]; [|reflexivity].
    apply caps_cat_inv in C as (pb & qb & mb & nb & -> & -> & Cb & C). apply caps_grp_plain in Cb as [-> Lb]; [|reflexivity]. apply caps_eps_inv in C as [-> ->].
    apply lang_set_iff in La as (d & -> & D). apply blank_set in D. apply name_lang in Lb as [Lb Lc]. rewrite append_nil_r.
    exists p1, (String c "equest"), (String d (pb +++ b)), m, x, y. split; [cbn; now rewrite !append_assoc|]. split; [exact L1|]. split; [exact Hw|].
    split; [apply all_cons; split; [destruct D as [-> | ->]; cbn; intuition discriminate|apply all_app; split; [exact Lc|]]|].
    { refine (all_impl _ _ _ _ Bb). intros e [-> | ->]; cbn; intuition discriminate. }
    split; [right; eauto|]. split; [exact By|]. split; [exact M|]. split; [|exact G].
    change (String d (pb +++ b)) with (String d pb +++ b). rewrite trim_more by now apply blank_white. reflexivity.
  - apply caps_eps_inv in C as [-> ->]. exists p1, (String c "equest"), b, m, x, y. split; [reflexivity|]. split; [exact L1|]. split; [exact Hw|].
    split; [refine (all_impl _ _ _ _ Bb); intros e [-> | ->]; cbn; intuition discriminate|]. split; [destruct b as [|d b]; [now left|right; apply all_cons in Bb; destruct Bb; eauto]|].
    split; [exact By|]. split; [exact M|]. split; [|exact G]. cbn [app]. rewrite G0 by discriminate. symmetry. now apply trim_white, blank_white.
Qed.
Lemma digits_lang : forall s, lang (Star digits_re) s <-> all digit_or_blank s.
Proof.
  intros s. unfold digits_re. rewrite star_set. apply all_iff. intros c. rewrite in_set_spec. unfold digit_or_blank. rewrite <- blank_set, in_set_spec. rewrite !Exists_cons, !Exists_nil. cbn [fst snd]. intuition.
Qed.
Lemma caps_response : forall u l, caps response_re u l -> exists b w n m x z, u = b +++ w +++ n +++ m +++ z /\ blanks b /\ In w ["Response"; "response"] /\ all digit_or_blank n /\
  blanks z /\ media_capture m x /\ trim (group 1 l) = trim n /\ group 3 l = x.
Proof.
  intros u l C. unfold response_re in C.
  apply caps_cat_inv in C as (p1 & q1 & m1 & n1 & -> & -> & C1 & C). apply caps_plain in C1 as [-> L1]; [|reflexivity]. apply blanks_lang in L1.
  apply caps_set_cat in C as (c & q2 & -> & W & C). apply pick_set in W.
  apply (caps_lit "e") in C as (q3 & -> & C). apply (caps_lit "s") in C as (q4 & -> & C). apply (caps_lit "p") in C as (q5 & -> & C). apply (caps_lit "o") in C as (q6 & -> & C).
  apply (caps_lit "n") in C as (q7 & -> & C). apply (caps_lit "s") in C as (q8 & -> & C). apply (caps_lit "e") in C as (q8' & -> & C).
  apply caps_cat_inv in C as (p9 & q9 & m9 & n9 & -> & -> & C9 & C). apply caps_tail in C as (b & m & x & y & -> & Bb & By & M & G & G0); [|discriminate].
  assert (Hw : In (String c "esponse") ["Response"; "response"]) by (destruct W as [<-|[<-|[]]]; cbn; auto).
  assert (Bd : all digit_or_blank b) by (refine (all_impl _ _ _ _ Bb); intros e H; now left).
  apply caps_alt_inv in C9 as [C|C].
  - apply caps_grp_plain in C as [-> L]; [|reflexivity]. apply lang_cat_iff in L as (pa & qa & -> & L & Le). apply lang_eps_iff in Le. subst qa. rewrite append_nil_r.
    apply lang_cat_iff in L as (pb & qb & -> & L & Lb).
    assert (D : all digit_or_blank (pb +++ qb)). { apply all_app. split; apply digits_lang; [|exact Lb]. apply lang_set_iff in L as (d & -> & L). apply star_set. apply all_cons. split; [exact L|apply Forall_nil]. }
    exists p1, (String c "esponse"), ((pb +++ qb) +++ b), m, x, y. split; [cbn; now rewrite !append_assoc|]. split; [exact L1|]. split; [exact Hw|]. split; [apply all_app; now split|].
    split; [exact By|]. split; [exact M|]. split; [|exact G]. rewrite trim_more by now apply blank_white. reflexivity.
  - apply caps_eps_inv in C as [-> ->]. exists p1, (String c "esponse"), b, m, x, y. split; [reflexivity|]. split; [exact L1|]. split; [exact Hw|]. split; [exact Bd|].
    split; [exact By|]. split; [exact M|]. split; [|exact G]. cbn [app]. rewrite G0 by discriminate. symmetry. now apply trim_white, blank_white.
Qed.
Lemma blanks_no_brackets : forall s, blanks s -> no_brackets s.
Proof. intros s H. refine (all_impl _ _ _ _ H). intros e [-> | ->]; cbn; intuition discriminate. Qed.
Lemma blanks_last : forall b, blanks b -> b = "" \/ exists q c, b = q +++ String c "" /\ blank_char c.
Proof.
  intros [|c b] H; [now left|]. right. destruct (last_char c b) as (r & d & E). exists r, d. split; [exact E|]. rewrite E in H. apply all_app in H as [_ H]. now apply all_cons in H.
Qed.
Lemma caps_model : forall u l, caps model_re u l -> exists p w b m x y, u = p +++ w +++ b +++ m +++ y /\ no_brackets p /\ (p = "" \/ exists q c, p = q +++ String c "" /\ blank_char c) /\
  In w ["Model"; "model"] /\ blanks b /\ blanks y /\ media_capture m x /\ trim (group 2 l) = trim p /\ group 4 l = x.
Proof.
  intros u l C. unfold model_re in C.
  apply caps_cat_inv in C as (p1 & q1 & m1 & n1 & -> & -> & C1 & C). apply caps_plain in C1 as [-> L1]; [|reflexivity]. apply blanks_lang in L1.
  apply caps_cat_inv in C as (p9 & q9 & m9 & n9 & -> & -> & C9 & C).
  apply caps_set_cat in C as (c & q2 & -> & W & C). apply pick_set in W.
  apply (caps_lit "o") in C as (q3 & -> & C). apply (caps_lit "d") in C as (q4 & -> & C). apply (caps_lit "e") in C as (q5 & -> & C). apply (caps_lit "l") in C as (q6 & -> & C).
  apply caps_tail in C as (b & m & x & y & -> & Bb & By & M & G & G0); [|discriminate].
  assert (Hw : In (String c "odel") ["Model"; "model"]) by (destruct W as [<-|[<-|[]]]; cbn; auto).
  apply caps_alt_inv in C9 as [C|C].
  - apply caps_grp_inv in C as (k & -> & C). apply caps_cat_inv in C as (pa & qa & ma & na & -> & -> & Ca & C). apply caps_grp_plain in Ca as [-> La]; [|reflexivity].
    apply caps_plain in C as [-> Lb]; [|reflexivity]. apply lang_cat_iff in Lb as (g & e & -> & Lb & Le). apply lang_eps_iff in Le. subst e. apply gap_lang in Lb as (d & g' & -> & D & Lb).
    apply name_lang in La as [La Lc]. rewrite append_nil_r. assert (Bg : blanks (String d g')) by (apply all_cons; now split).
    exists (p1 +++ pa +++ String d g'), (String c "odel"), b, m, x, y. split; [cbn; now rewrite !append_assoc|].
    split; [apply all_app; split; [now apply blanks_no_brackets|apply all_app; split; [exact Lc|now apply blanks_no_brackets]]|].
    split. { right. destruct (blanks_last _ Bg) as [E|(q & e & E & Be)]; [discriminate|]. exists (p1 +++ pa +++ q), e. rewrite E, !append_assoc. now split. }
    split; [exact Hw|]. split; [exact Bb|]. split; [exact By|]. split; [exact M|]. split; [|exact G].
    rewrite trim_before by now apply blank_white. rewrite trim_more by now apply blank_white. reflexivity.
  - apply caps_eps_inv in C as [-> ->]. exists p1, (String c "odel"), b, m, x, y. split; [reflexivity|]. split; [now apply blanks_no_brackets|]. split; [now apply blanks_last|].
    split; [exact Hw|]. split; [exact Bb|]. split; [exact By|]. split; [exact M|]. split; [|exact G]. cbn [app]. rewrite G0 by discriminate. symmetry. now apply trim_white, blank_white.
Qed.

(** ** one reading *)
Lemma skip_blanks : forall l c x l' c' x', blanks l -> blanks l' -> ~ blank_char c -> ~ blank_char c' -> l +++ String c x = l' +++ String c' x' -> l = l' /\ c = c' /\ x = x'.
Proof.
  induction l as [|d l IH]; intros c x [|d' l'] c' x' A C N N' E; cbn in E.
  - injection E as -> ->. now split.
  - injection E as -> _. apply all_cons in C as [C _]. contradiction.
  - injection E as <- _. apply all_cons in A as [A _]. contradiction.
  - injection E as -> E. apply all_cons in A as [_ A]. apply all_cons in C as [_ C]. destruct (IH _ _ _ _ _ A C N N' E) as (-> & -> & ->). now split.
Qed.
Lemma skip_white : forall r c b r' c' b', all white b -> all white b' -> ~ white c -> ~ white c' -> r +++ String c b = r' +++ String c' b' -> r = r' /\ c = c' /\ b = b'.
Proof.
  induction r as [|d r IH]; intros c b [|d' r'] c' b' A C N N' E; cbn in E.
  - injection E as -> ->. now split.
  - injection E as -> ->. apply all_app in A as [_ A]. apply all_cons in A as [A _]. contradiction.
  - injection E as -> <-. apply all_app in C as [_ C]. apply all_cons in C as [C _]. contradiction.
  - injection E as -> E. destruct (IH _ _ _ _ _ A C N N' E) as (-> & -> & ->). now split.
Qed.
Lemma same_ends : forall a x b y, String.length x = String.length y -> a +++ x = b +++ y -> a = b /\ x = y.
Proof.
  induction a as [|c a IH]; intros x [|d b] y L E; cbn in E.
  - now split.
  - exfalso. apply (f_equal String.length) in E. cbn in E. rewrite length_append in E. lia.
  - exfalso. apply (f_equal String.length) in E. cbn in E. rewrite length_append in E. lia.
  - injection E as -> E. destruct (IH _ _ _ L E) as [-> ->]. now split.
Qed.
Lemma tail_unique : forall n m x z n' m' x' z', media_capture m x -> media_capture m' x' -> all (fun c => c <> "("%char) n -> all (fun c => c <> "("%char) n' ->
  all (fun c => c <> "("%char) z -> all (fun c => c <> "("%char) z' -> n +++ m +++ z = n' +++ m' +++ z' -> x = x' /\ (n +++ z = n' +++ z' \/ n = n').
Proof.
  assert (X : forall n x' z' r, all (fun c => c <> "("%char) r -> r <> n +++ ("(" +++ x' +++ ")") +++ z').
  { intros n x' z' r A ->. apply all_app in A as [_ A]. apply all_cons in A as [A _]. now apply A. }
  intros n m x z n' m' x' z' [[-> ->]|[-> M]] [[-> ->]|[-> M']] A A' Z Z' E.
  - split; [reflexivity|now left].
  - exfalso. refine (X _ _ _ (n +++ "" +++ z) _ E). apply all_app. split; [exact A|exact Z].
  - exfalso. refine (X _ _ _ (n' +++ "" +++ z') _ (eq_sym E)). apply all_app. split; [exact A'|exact Z'].
  - rewrite !append_assoc in E. apply (until_char (fun c => c <> "("%char) "(" n _ n') in E as [-> E]; [|intros H; now apply H|assumption..].
    apply (until_char (fun c => c <> ")"%char /\ c <> "\"%char) ")" x _ x') in E as [-> _]; [|intros [H _]; now apply H|assumption..].
    split; [reflexivity|now right].
Qed.
Lemma media_part_iff : forall m media, media_part m media <-> exists x, media_capture m x /\ media = trim x.
Proof.
  intros m media. unfold media_part, media_capture. split.
  - intros [[-> ->]|(x & -> & A & T)]; [exists ""; split; [now left|reflexivity]|]. apply trims_is in T. exists x. split; [right; now split|exact T].
  - intros (x & [[-> ->]|[-> A]] & ->); [now left|]. right. exists x. split; [reflexivity|]. split; [exact A|now apply trims_is].
Qed.
Lemma white_open : forall z, all white z -> all (fun c => c <> "("%char) z.
Proof. intros z H. refine (all_impl _ _ _ _ H). intros a W ->. cbn in W. intuition discriminate. Qed.
Lemma nb_open : forall z, no_brackets z -> all (fun c => c <> "("%char) z.
Proof. intros z H. refine (all_impl _ _ _ _ H). intros a W ->. apply W. cbn. tauto. Qed.
Lemma word_start : forall l w x l' w' x' ws, (forall v, In v ws -> exists c y, v = String c y /\ ~ blank_char c /\ String.length v = String.length w) -> In w ws -> In w' ws -> blanks l -> blanks l' ->
  l +++ w +++ x = l' +++ w' +++ x' -> x = x'.
Proof.
  intros l w x l' w' x' ws H A A' L L' E. destruct (H _ A) as (c & y & -> & N & _). destruct (H _ A') as (c' & y' & -> & N' & Len). cbn in E.
  apply (skip_blanks l c _ l' c' _ L L' N N') in E as (_ & <- & E). cbn in Len. injection Len as Len. clear - E Len. revert y' Len E.
  induction y as [|d y IH]; intros [|d' y'] Len E; cbn in Len; try discriminate; [exact E|]. injection Len as Len. injection E as _ E. now apply (IH y').
Qed.
Lemma named_unique : forall n m media z n' m' media' z', media_part m media -> media_part m' media' -> all (fun c => c <> "("%char) n -> all (fun c => c <> "("%char) n' -> all white z -> all white z' ->
  n +++ m +++ z = n' +++ m' +++ z' -> trim n = trim n' /\ media = media'.
Proof.
  intros n m media z n' m' media' z' M M' A A' Z Z' E. apply media_part_iff in M as (x & M & ->). apply media_part_iff in M' as (x' & M' & ->).
  destruct (tail_unique _ _ _ _ _ _ _ _ M M' A A' (white_open _ Z) (white_open _ Z') E) as [-> [F| ->]]; [|now split]. split; [|reflexivity].
  rewrite <- (trim_more n z Z), <- (trim_more n' z' Z'). now rewrite F.
Qed.
Lemma request_unique : forall s n m n' m', request_line s n m -> request_line s n' m' -> n = n' /\ m = m'.
Proof.
  intros s n m n' m' (_ & l & w & k & p & z & -> & L & W & K & _ & Z & T & M) (_ & l' & w' & k' & p' & z' & E & L' & W' & K' & _ & Z' & T' & M').
  apply trims_is in T, T'. subst n n'. apply (word_start l w _ l' w' _ ["Request"; "request"]) in E; [|intros v [<-|[<-|[]]]; do 2 eexists; (split; [reflexivity|]); (split; [intros [H|H]; discriminate|]); destruct W as [<-|[<-|[]]]; reflexivity|assumption..].
  exact (named_unique _ _ _ _ _ _ _ _ M M' (nb_open _ K) (nb_open _ K') Z Z' E).
Qed.
Lemma digit_open : forall z, all digit_or_blank z -> all (fun c => c <> "("%char) z.
Proof. intros z H. refine (all_impl _ _ _ _ H). intros a W ->. destruct W as [[W|W]|W]; [discriminate..|]. cbn in W. lia. Qed.
Lemma response_unique : forall s n m n' m', response_line s n m -> response_line s n' m' -> n = n' /\ m = m'.
Proof.
  intros s n m n' m' (_ & l & w & k & p & z & -> & L & W & K & Z & T & M) (_ & l' & w' & k' & p' & z' & E & L' & W' & K' & Z' & T' & M').
  apply trims_is in T, T'. subst n n'. apply (word_start l w _ l' w' _ ["Response"; "response"]) in E; [|intros v [<-|[<-|[]]]; do 2 eexists; (split; [reflexivity|]); (split; [intros [H|H]; discriminate|]); destruct W as [<-|[<-|[]]]; reflexivity|assumption..].
  exact (named_unique _ _ _ _ _ _ _ _ M M' (digit_open _ K) (digit_open _ K') Z Z' E).
Qed.
Lemma model_unique : forall s n m n' m', model_line s n m -> model_line s n' m' -> n = n' /\ m = m'.
Proof.
  intros s n m n' m' (_ & p & w & b & k & y & -> & P & _ & W & B & Y & T & M) (_ & p' & w' & b' & k' & y' & E & P' & _ & W' & B' & Y' & T' & M').
  apply trims_is in T, T'. subst n n'. apply media_part_iff in M as (x & M & ->). apply media_part_iff in M' as (x' & M' & ->).
  assert (Hw : forall w, In w ["Model"; "model"] -> exists v, w = v +++ "l" /\ String.length v = 4 /\ all (fun c => c <> "("%char) w).
  { intros v [<-|[<-|[]]]; [exists "Mode"|exists "mode"]; (split; [reflexivity|]); (split; [reflexivity|]); unfold all; cbn; repeat constructor; discriminate. }
  destruct (Hw _ W) as (v & -> & V & O). destruct (Hw _ W') as (v' & -> & V' & O'). clear Hw.
  assert (X : forall p v b r, p +++ (v +++ "l") +++ b +++ r = (p +++ v +++ String "l" b) +++ r) by (intros p0 v0 b0 r0; rewrite !append_assoc; cbn; now rewrite ?append_assoc).
  rewrite !X in E. clear X.
  assert (O1 : all (fun c => c <> "("%char) (p +++ v +++ String "l" b)).
  { apply all_app. split; [now apply nb_open|]. apply all_app in O as [O O2]. apply all_app. split; [exact O|]. apply all_cons. split; [discriminate|]. now apply white_open, blank_white. }
  assert (O1' : all (fun c => c <> "("%char) (p' +++ v' +++ String "l" b')).
  { apply all_app. split; [now apply nb_open|]. apply all_app in O' as [O' O2]. apply all_app. split; [exact O'|]. apply all_cons. split; [discriminate|]. now apply white_open, blank_white. }
  destruct (tail_unique _ _ _ _ _ _ _ _ M M' O1 O1' (white_open _ (blank_white _ Y)) (white_open _ (blank_white _ Y')) E) as [-> F]. split; [|reflexivity]. f_equal.
  assert (G : exists u u', all white u /\ all white u' /\ (p +++ v) +++ String "l" u = (p' +++ v') +++ String "l" u').
  { apply blank_white in B, B', Y, Y'. destruct F as [F|F].
    - exists (b +++ y), (b' +++ y'). split; [apply all_app; now split|]. split; [apply all_app; now split|]. revert F. clear. rewrite !append_assoc. cbn [append]. intros F. exact F.
    - exists b, b'. split; [assumption|]. split; [assumption|]. rewrite !append_assoc. exact F. }
  destruct G as (u & u' & U & U' & G). apply (skip_white _ "l" _ _ "l") in G as (G & _ & _); [|assumption..|cbn; intuition discriminate|cbn; intuition discriminate].
  exact (proj1 (same_ends _ _ _ _ (eq_trans V (eq_sym V')) G)).
Qed.

(** ** a line of the right form is matched, but for whitespace at its end *)
Lemma suffix_of : forall u z v r, u +++ z = v +++ r -> String.length u <= String.length v -> exists t, z = t +++ r.
Proof.
  induction u as [|c u IH]; intros z [|d v] r E L; cbn in *.
  - exists "". exact E.
  - exists (String d v). exact E.
  - lia.
  - injection E as _ E. apply (IH _ v); [exact E|lia].
Qed.
Lemma request_found : forall s n m, request_line s n m -> s <> "" /\ exists u z, s = u +++ z /\ all white z /\ lang request_re u.
Proof.
  intros s n m (_ & l & w & k & p & z & -> & L & W & K & Kb & Z & T & M). apply media_part_iff in M as (x & M & ->). split.
  { intros E. apply (f_equal String.length) in E. rewrite !length_append in E. destruct W as [<-|[<-|[]]]; cbn in E; lia. }
  exists (l +++ w +++ k +++ p), z. split; [now rewrite !append_assoc|]. split; [exact Z|]. unfold request_re. apply lang_cat; [now apply blanks_lang|].
  assert (X : lang (Cat (Alt (Grp 1 (Cat blank_re (Cat (Grp 2 name_re) Eps))) Eps) (tail_re 3 4)) (k +++ p)).
  { destruct Kb as [->|(c & [|d k'] & -> & C)].
    - apply lang_cat; [apply lang_alt_iff; right; exact lang_eps|]. rewrite <- (append_nil_r p). apply (lang_tail 3 4 "" p x ""); [apply Forall_nil..|exact M].
    - change (String c "" +++ p) with ("" +++ (String c "" +++ p)). apply lang_cat; [apply lang_alt_iff; right; exact lang_eps|]. rewrite <- (append_nil_r p).
      apply (lang_tail 3 4 (String c "") p x ""); [apply all_cons; split; [exact C|apply Forall_nil]|apply Forall_nil|exact M].
    - apply lang_cat.
      + apply lang_alt_iff. left. apply lang_grp_iff. change (String c (String d k')) with (String c "" +++ String d k'). apply lang_cat; [apply lang_set_iff; exists c; split; [reflexivity|now apply blank_set]|].
        rewrite <- (append_nil_r (String d k')). apply lang_cat; [|exact lang_eps]. apply lang_grp_iff, name_lang. split; [discriminate|]. now apply all_cons in K.
      + rewrite <- (append_nil_r p). apply (lang_tail 3 4 "" p x ""); [apply Forall_nil..|exact M]. }
  destruct W as [<-|[<-|[]]]; (apply lang_pick; [cbn; tauto|]); do 6 apply lang_lit; exact X.
Qed.
Lemma response_found : forall s n m, response_line s n m -> s <> "" /\ exists u z, s = u +++ z /\ all white z /\ lang response_re u.
Proof.
  intros s n m (_ & l & w & k & p & z & -> & L & W & K & Z & T & M). apply media_part_iff in M as (x & M & ->). split.
  { intros E. apply (f_equal String.length) in E. rewrite !length_append in E. destruct W as [<-|[<-|[]]]; cbn in E; lia. }
  exists (l +++ w +++ k +++ p), z. split; [now rewrite !append_assoc|]. split; [exact Z|]. unfold response_re. apply lang_cat; [now apply blanks_lang|].
  assert (X : lang (Cat (Alt (Grp 1 (Cat (Cat digits_re (Star digits_re)) Eps)) Eps) (tail_re 2 3)) (k +++ p)).
  { apply lang_cat; [|rewrite <- (append_nil_r p); apply (lang_tail 2 3 "" p x ""); [apply Forall_nil..|exact M]]. apply lang_alt_iff. destruct k as [|c k]; [right; exact lang_eps|left].
    apply lang_grp_iff. rewrite <- (append_nil_r (String c k)). apply lang_cat; [|exact lang_eps]. change (String c k) with (String c "" +++ k). apply all_cons in K as [C K].
    apply lang_cat; [|now apply digits_lang]. assert (Y : lang (Star digits_re) (String c "")) by (apply digits_lang, all_cons; split; [exact C|apply Forall_nil]).
    apply star_set, all_cons in Y. apply lang_set_iff. exists c. now split. }
  destruct W as [<-|[<-|[]]]; (apply lang_pick; [cbn; tauto|]); do 7 apply lang_lit; exact X.
Qed.
Lemma model_found : forall s n m, model_line s n m -> s <> "" /\ lang model_re s.
Proof.
  intros s n m (_ & p & w & b & k & y & -> & P & Pb & W & Bb & Y & T & M). apply media_part_iff in M as (x & M & ->). split.
  { intros E. apply (f_equal String.length) in E. rewrite !length_append in E. destruct W as [<-|[<-|[]]]; cbn in E; lia. }
  unfold model_re.
  assert (X : lang (tail_re 3 4) (b +++ k +++ y)) by exact (lang_tail 3 4 b k x y Bb Y M).
  assert (V : lang (Cat (Set_ false (map (fun d => (byte d, byte d)) ["M"; "m"]%char)) (Cat (Set_ false [(byte "o", byte "o")]) (Cat (Set_ false [(byte "d", byte "d")])
    (Cat (Set_ false [(byte "e", byte "e")]) (Cat (Set_ false [(byte "l", byte "l")]) (tail_re 3 4)))))) (w +++ b +++ k +++ y)).
  { destruct W as [<-|[<-|[]]]; (apply lang_pick; [cbn; tauto|]); do 4 apply lang_lit; exact X. }
  destruct Pb as [->|(q & c & -> & C)].
  - change ("" +++ w +++ b +++ k +++ y) with ("" +++ ("" +++ (w +++ b +++ k +++ y))). apply lang_cat; [now apply blanks_lang, Forall_nil|].
    apply lang_cat; [apply lang_alt_iff; right; exact lang_eps|exact V].
  - destruct q as [|d q].
    + change (("" +++ String c "") +++ w +++ b +++ k +++ y) with (String c "" +++ ("" +++ (w +++ b +++ k +++ y))). apply lang_cat; [apply blanks_lang, all_cons; split; [exact C|apply Forall_nil]|].
      apply lang_cat; [apply lang_alt_iff; right; exact lang_eps|exact V].
    + change ((String d q +++ String c "") +++ w +++ b +++ k +++ y) with ("" +++ ((String d q +++ String c "") +++ (w +++ b +++ k +++ y))). apply lang_cat; [now apply blanks_lang, Forall_nil|].
      apply lang_cat; [|exact V]. apply lang_alt_iff. left. apply lang_grp_iff, lang_cat.
      * apply lang_grp_iff, name_lang. split; [discriminate|]. now apply all_app in P.
      * rewrite <- (append_nil_r (String c "")). apply lang_cat; [|exact lang_eps]. apply gap_lang. exists c, "". split; [reflexivity|]. split; [exact C|apply Forall_nil].
Qed.

(** ** what stands behind a C string *)
Lemma c_rest : forall s, exists r, s = c_text s +++ r /\ (r = "" \/ exists q, r = String NUL q).
Proof.
  induction s as [|c s (r & E & H)]; [exists ""; now auto|]. cbn. destruct (Ascii.eqb_spec c NUL) as [->|N].
  - exists (String NUL s). split; [reflexivity|right; eauto].
  - exists r. split; [cbn; now rewrite <- E|exact H].
Qed.
Lemma c_text_free : forall s, ~ StringSpec.has NUL (c_text s).
Proof.
  induction s as [|c s IH]; [intros []|]. cbn. destruct (Ascii.eqb_spec c NUL) as [->|N]; [intros []|]. intros [H|H]; [now apply N|now apply IH].
Qed.
Lemma c_text_id : forall s, ~ StringSpec.has NUL s -> c_text s = s.
Proof. intros s H. symmetry. apply before_c_text. left. now split. Qed.
Lemma rest_white : forall s u v, c_text s = u +++ v -> (trim (from s (String.length u)) = "" <-> s = u +++ v /\ all white v).
Proof.
  intros s u v E. destruct (c_rest s) as (r & Es & R). rewrite E, append_assoc in Es. rewrite Es at 1. rewrite from_app by reflexivity. rewrite trim_white, all_app. split.
  - intros [V W]. destruct R as [->|(q & ->)]; [rewrite append_nil_r in Es; now split|]. apply all_cons in W as [W _]. cbn in W. intuition discriminate.
  - intros [Es' V]. split; [exact V|]. rewrite Es in Es'. destruct R as [->|(q & ->)]; [apply Forall_nil|]. exfalso. rewrite <- append_assoc in Es'.
    rewrite <- (append_nil_r (u +++ v)) in Es' at 2. apply (f_equal String.length) in Es'. rewrite !length_append in Es'. cbn in Es'. lia.
Qed.

(** ** signatures *)
Definition pattern_of (k : payload_kind) : string * nat * nat :=
  match k with Request_ => (RequestRegex, 1, 4) | Response_ => (ResponseRegex, 1, 3) | Model_ => (ModelRegex, 2, 4) end.
Definition capture_of (k : payload_kind) (s : string) : option (list string) := regex_capture s (fst (fst (pattern_of k))) 5.
Definition rest_of (s : string) (g : list string) : string := trim (from s (String.length (nth 0 g ""))).
Lemma capture_none : forall k s, capture_of k s = None -> ~ (s <> "" /\ signature_start k (c_text s)).
Proof.
  intros k s H [N X]. unfold capture_of in H. destruct k; cbn [pattern_of fst] in H.
  - pose proof (capture_prefix RequestRegex _ s 5 ltac:(discriminate) request_compiled) as C. rewrite H in C. destruct C as [C|C]; [contradiction|].
    apply request_text in X. unfold whole in X. rewrite request_compiled in X. apply lang_cat_iff in X as (u & v & E & X & _). exact (C u v E X).
  - pose proof (capture_prefix ResponseRegex _ s 5 ltac:(discriminate) response_compiled) as C. rewrite H in C. destruct C as [C|C]; [contradiction|].
    apply response_text in X. unfold whole in X. rewrite response_compiled in X. apply lang_cat_iff in X as (u & v & E & X & _). exact (C u v E X).
  - pose proof (capture_whole ModelRegex _ s 5 ltac:(discriminate) model_compiled) as C. rewrite H in C. destruct C as [C|C]; [contradiction|].
    apply model_text in X. unfold whole in X. rewrite model_compiled in X. exact (C X).
Qed.
Lemma free_of : forall s u v z, s = u +++ v -> c_text s = u +++ z -> ~ StringSpec.has NUL v -> ~ StringSpec.has NUL s.
Proof.
  intros s u v z E C F H. rewrite E in H. apply has_app in H as [H|H]; [|contradiction]. apply (c_text_free s). rewrite C. apply has_app. now left.
Qed.
Lemma white_free : forall v, all white v -> ~ StringSpec.has NUL v.
Proof. intros v W H. unfold all, StringSpec.has in *. rewrite Forall_forall in W. apply W in H. cbn in H. intuition discriminate. Qed.
Lemma capture_some : forall k s g, capture_of k s = Some g -> s <> "" /\ signature_start k (c_text s) /\
  (rest_of s g = "" -> signature_line k s (trim (nth (snd (fst (pattern_of k))) g "")) (trim (nth (snd (pattern_of k)) g ""))).
Proof.
  intros k s g H. unfold capture_of in H. destruct k; cbn [pattern_of fst snd] in H |- *.
  - pose proof (capture_prefix RequestRegex _ s 5 ltac:(discriminate) request_compiled) as C. rewrite H in C. destruct C as (N & u & v & l & E & C & -> & _).
    split; [exact N|]. split.
    { apply request_text. unfold whole. rewrite request_compiled. rewrite E. apply lang_cat; [exact (caps_lang _ _ _ C)|apply anything_spec]. }
    unfold rest_of. cbn [groups seq map nth]. intros R. apply (rest_white s u v E) in R as [Es W].
    apply caps_request in C as (b & w & n & m & x & z & -> & Bb & Hw & Hn & Hb & Z & M & G1 & G4).
    split; [exact (free_of _ _ _ _ Es E (white_free _ W))|]. exists b, w, n, m, (z +++ v). split; [rewrite Es; now rewrite !append_assoc|]. split; [exact Bb|]. split; [exact Hw|]. split; [exact Hn|]. split; [exact Hb|].
    split; [apply all_app; split; [now apply blank_white|exact W]|]. split; [apply trims_is; exact G1|]. apply media_part_iff. exists x. split; [exact M|now rewrite G4].
  - pose proof (capture_prefix ResponseRegex _ s 5 ltac:(discriminate) response_compiled) as C. rewrite H in C. destruct C as (N & u & v & l & E & C & -> & _).
    split; [exact N|]. split.
    { apply response_text. unfold whole. rewrite response_compiled. rewrite E. apply lang_cat; [exact (caps_lang _ _ _ C)|apply anything_spec]. }
    unfold rest_of. cbn [groups seq map nth]. intros R. apply (rest_white s u v E) in R as [Es W].
    apply caps_response in C as (b & w & n & m & x & z & -> & Bb & Hw & Hn & Z & M & G1 & G4).
    split; [exact (free_of _ _ _ _ Es E (white_free _ W))|]. exists b, w, n, m, (z +++ v). split; [rewrite Es; now rewrite !append_assoc|]. split; [exact Bb|]. split; [exact Hw|]. split; [exact Hn|].
    split; [apply all_app; split; [now apply blank_white|exact W]|]. split; [apply trims_is; exact G1|]. apply media_part_iff. exists x. split; [exact M|now rewrite G4].
  - pose proof (capture_whole ModelRegex _ s 5 ltac:(discriminate) model_compiled) as C. rewrite H in C. destruct C as (N & l & C & ->).
    split; [exact N|]. split. { apply model_text. unfold whole. rewrite model_compiled. exact (caps_lang _ _ _ C). }
    unfold rest_of. cbn [groups seq map nth]. intros R. apply (rest_white s (c_text s) "") in R as [Es _]; [|now rewrite append_nil_r]. rewrite append_nil_r in Es.
    apply caps_model in C as (p & w & b & m & x & y & E & Hp & Hb & Hw & Bb & Y & M & G1 & G4).
    split; [rewrite Es; apply c_text_free|]. exists p, w, b, m, y. split; [now rewrite Es|]. split; [exact Hp|]. split; [exact Hb|]. split; [exact Hw|]. split; [exact Bb|]. split; [exact Y|].
    split; [apply trims_is; exact G1|]. apply media_part_iff. exists x. split; [exact M|now rewrite G4].
Qed.
Lemma capture_line : forall k s n m, signature_line k s n m -> exists g, capture_of k s = Some g /\ rest_of s g = "".
Proof.
  intros k s n m H. unfold capture_of. destruct k; cbn [pattern_of fst snd].
  - assert (F : c_text s = s) by (apply c_text_id; exact (proj1 H)). apply request_found in H as (N & u & z & E & W & L).
    pose proof (capture_prefix RequestRegex _ s 5 ltac:(discriminate) request_compiled) as C. destruct (regex_capture s RequestRegex 5) as [g|].
    + exists g. split; [reflexivity|]. destruct C as (_ & u' & v & l & E' & C & -> & M). unfold rest_of. cbn [groups seq map nth]. apply (rest_white s u' v E'). split; [congruence|].
      rewrite F in E', M. specialize (M u z E L). rewrite E in E'. destruct (suffix_of _ _ _ _ E' M) as (t & ->). now apply all_app in W.
    + destruct C as [C|C]; [contradiction|]. rewrite F in C. now elim (C u z E).
  - assert (F : c_text s = s) by (apply c_text_id; exact (proj1 H)). apply response_found in H as (N & u & z & E & W & L).
    pose proof (capture_prefix ResponseRegex _ s 5 ltac:(discriminate) response_compiled) as C. destruct (regex_capture s ResponseRegex 5) as [g|].
    + exists g. split; [reflexivity|]. destruct C as (_ & u' & v & l & E' & C & -> & M). unfold rest_of. cbn [groups seq map nth]. apply (rest_white s u' v E'). split; [congruence|].
      rewrite F in E', M. specialize (M u z E L). rewrite E in E'. destruct (suffix_of _ _ _ _ E' M) as (t & ->). now apply all_app in W.
    + destruct C as [C|C]; [contradiction|]. rewrite F in C. now elim (C u z E).
  - assert (F : c_text s = s) by (apply c_text_id; exact (proj1 H)). apply model_found in H as (N & L).
    pose proof (capture_whole ModelRegex _ s 5 ltac:(discriminate) model_compiled) as C. destruct (regex_capture s ModelRegex 5) as [g|].
    + exists g. split; [reflexivity|]. destruct C as (_ & l & C & ->). unfold rest_of. cbn [groups seq map nth]. apply (rest_white s (c_text s) ""); [now rewrite append_nil_r|].
      rewrite append_nil_r. split; [congruence|apply Forall_nil].
    + destruct C as [C|C]; [contradiction|]. rewrite F in C. contradiction.
Qed.
Lemma line_unique : forall k s n m n' m', signature_line k s n m -> signature_line k s n' m' -> n = n' /\ m = m'.
Proof. intros []; [exact request_unique|exact response_unique|exact model_unique]. Qed.
