(** Property C77: what the list item of a request, a response or a model says *)
From Verif Require Import Base StringUtility StringSpec StringProofs SignatureProofs Regex RegexSpec RegexProofs ByteBuffer ByteSpec ByteProofs Prop_Bytes Markdown MarkdownSpec MarkdownTree Keywords KeywordsSpec KeywordsProofs KeywordsOrder Prop_Keywords Prop_Strings RegexCaps TypeTables SectionsSpec SectionsKeys.
From Verif Require Import Source Headers HeadersSpec HeadersProofs Prop_Headers Payloads PayloadsSpec PayloadsText PayloadsLine PayloadsNodes PayloadsParts PayloadsLoop PayloadsShort PayloadsWhole.
Local Open Scope string_scope.

(** the item lies in the source, its headers are lines of it, and it has none of the texts at which the parser fails or that it loses *)
Definition readable (source : string) (index : list N) (item : tree) : Prop :=
  (slen source < 2 ^ 63)%N /\ List.length index = String.length source /\ ~ StringSpec.has NUL source /\
  inside_source source item /\ shown_lines source item /\ long_enough source item /\ no_blank_reference item.
Definition answers (nested : section_type -> list tree -> tree -> outcome (list annotation)) : Prop := forall ty l t, exists a, nested ty l t = Val a.

Lemma form_item : forall ty k sh item, form ty k sh -> payload_type item = ty -> (exists P, item_says P item) /\ (sh = true -> ~ holds_section item).
Proof.
  intros ty k sh item Fo E. destruct C75_payloads as (A & B & C). specialize (A item). specialize (B item). specialize (C item). destruct k, sh; cbn in Fo; subst ty.
  - apply A in E as [E1 E2]. split; [now eexists; eauto|now intros _].
  - apply A in E as [E1 E2]. split; [now eexists; eauto|discriminate].
  - apply B in E as [E1 E2]. split; [now eexists; eauto|now intros _].
  - apply B in E as [E1 E2]. split; [now eexists; eauto|discriminate].
  - apply C in E as [[E1 _] E2]. split; [now eexists; eauto|now intros _].
  - apply C in E as [[E1 _] E2]. split; [now eexists; eauto|discriminate].
Qed.
(** ** C77: the item says exactly one thing, and the parser gives it *)
Theorem C77_item : forall source index models nested found_none ty k sh item w,
  readable source index item -> answers nested -> form ty k sh -> payload_type item = ty ->
  (exists p cs, says source index models nested found_none k sh item p cs) /\
  (forall p cs, says source index models nested found_none k sh item p cs ->
     parse_payload source index models nested found_none ty item w = Val (p, w ++ map (shown index) cs)%list).
Proof.
  intros source index models nested found_none ty k sh item w (Small & Indexed & Nul & In_ & Shn & Long & Nb) Nest Fo Ty. destruct (form_item ty k sh item Fo Ty) as ((P & It) & Hs). destruct sh; unfold says; split.
  - exact (short_form_total source index models found_none Small Indexed P k item It In_).
  - intros p cs H. exact (short_form_ok source index models nested found_none Small Indexed ty k item p cs w Fo (Hs eq_refl) In_ Nb H).
  - exact (full_total source index models nested found_none Small Indexed P k item It Nul Nest In_ Shn Long).
  - intros p cs H. exact (full_ok source index models nested found_none Small Indexed ty k item p cs w Fo In_ Long H).
Qed.
(** the reading is unique *)
Theorem C77_unique : forall source index models nested found_none ty k sh item p cs p' cs',
  readable source index item -> answers nested -> form ty k sh -> payload_type item = ty ->
  says source index models nested found_none k sh item p cs -> says source index models nested found_none k sh item p' cs' -> p = p' /\ map (shown index) cs = map (shown index) cs'.
Proof.
  intros source index models nested found_none ty k sh item p cs p' cs' R A Fo Ty H H'. destruct (C77_item source index models nested found_none ty k sh item [] R A Fo Ty) as [_ X].
  pose proof (X _ _ H) as E. rewrite (X _ _ H') in E. injection E as -> E. split; [reflexivity|now symmetry].
Qed.

(** ** a body of code blocks *)
Definition plain_code (t : tree) : Prop :=
  code_block t /\ (forall id, ~ refers (the_text t) id) /\ ~ looks_like reads_headers t /\ ~ looks_like reads_body t /\ ~ looks_like reads_schema t.
Definition typed_by (media : string) : list header := if String.eqb media "" then [] else [("Content-Type", media)].
Lemma typed_by_is : forall media, (media = "" /\ typed_by media = []) \/ (media <> "" /\ typed_by media = [("Content-Type", media)]).
Proof. intros media. unfold typed_by. destruct (String.eqb_spec media ""); [now left|now right]. Qed.
Lemma text_plain : forall t, text_block t -> plain_node t.
Proof. intros [ty x z m cs] [H|H]; destruct ty; try contradiction; (split; intros [K|K]; exact K). Qed.
Lemma one_line_lines : forall x, ~ StringSpec.has LF x -> lines x x "".
Proof. intros x H. left. now split. Qed.
Lemma empty_refers : forall id, ~ refers "" id.
Proof. intros id H. apply refers_iff in H. discriminate H. Qed.
Lemma row_all : forall (P : tree -> Prop) l, Forall P l -> row P l l [].
Proof. intros P l H. split; [now rewrite app_nil_r|]. split; [exact H|tauto]. Qed.
Lemma none_ignored : all_ignored [] [].
Proof. exists []. constructor. Qed.
Theorem C77_code_body : forall source index models nested found_none ty k item w t r name media,
  readable source index item -> answers nested -> form ty k true -> payload_type item = ty ->
  opens item t r -> ~ StringSpec.has LF (the_text t) -> signature_line k (the_text t) name media -> name <> "" \/ k <> Response_ -> Forall plain_code r ->
  exists cs, let p := Load name "" [] (typed_by media) [] (sconcat (map the_text r)) "" no_reference in
    parse_payload source index models nested found_none ty item w = Val (p, w ++ map (shown index) cs)%list /\ checked found_none k item p cs.
Proof.
  intros source index models nested found_none ty k item w t r name media R A Fo Ty O One Sig Nn Code. cbv zeta. set (p := Load name "" [] (typed_by media) [] (sconcat (map the_text r)) "" no_reference).
  pose proof R as (Small & Indexed & Rr). destruct (checked_total source index found_none Small Indexed k item p (line_tidy _ _ _ _ Sig)) as (cs & Ch). exists cs. split; [|exact Ch].
  destruct (C77_item source index models nested found_none ty k true item w R A Fo Ty) as [_ X]. apply (X p cs).
  assert (T : in_turn (content source Short_ Body_) r (map the_text r) []).
  { clear -Code. induction Code as [|u r (C & Nr & Lh & Lb & Ls) _ IH]; [constructor|]. change (@nil complaint) with ([] ++ [] : list complaint)%list. cbn [map]. constructor; [|exact IH].
    exists [], []. split; [right; now split|]. split; [left; now split|]. split; [reflexivity|]. left. split; [exact C|]. right. right. right. now repeat split. }
  exists t, r, r, [], (the_text t), "", name, name, (typed_by media), [], [], [], [], cs. split; [exact O|]. split; [apply row_all; rewrite Forall_forall in *; intros u I; apply text_plain; left; now apply Code|].
  split; [now apply one_line_lines|]. split; [left; exists media; split; [exact Sig|]; split; [apply typed_by_is|reflexivity]|]. split; [right; split; [intros [K1 K2]; tauto|now split]|].
  split; [|split; [apply none_ignored|split; [exact Ch|reflexivity]]]. right. split; [apply empty_refers|]. exists "", []. split; [left; now split|]. right. split; [|exists (map the_text r), []; split; [exact T|now split]].
  intros e q z id _ E _ [Pq _]. rewrite E in Code. apply Forall_app in Code as [_ Code]. inversion Code as [|? ? (Cq & _) _]. destruct q as [[] ? ? ? ?]; contradiction.
Qed.
(** ** a reference to a model *)
Theorem C77_reference : forall source index models nested found_none ty k item w t q name media id m,
  readable source index item -> answers nested -> form ty k true -> payload_type item = ty ->
  opens item t [q] -> ~ StringSpec.has LF (the_text t) -> signature_line k (the_text t) name media -> name <> "" \/ k <> Response_ -> is_reference q id -> models id = Some m ->
  exists hs cs v, let p := Load name (q_description m) (q_parameters m) hs [] (q_body m) (q_schema m) (Ref id Resolved (place q)) in
    parse_payload source index models nested found_none ty item w = Val (p, w ++ map (shown index) (v ++ cs))%list /\ checked found_none k item p cs /\
    ((media = "" /\ hs = q_headers m /\ v = []) \/
     (media <> "" /\ ~ typed (q_headers m) /\ hs = ("Content-Type", media) :: q_headers m /\ v = []) \/
     (media <> "" /\ typed (q_headers m) /\ hs = q_headers m /\
      v = [About 5 ("ignoring additional " +++ kind_name k +++ " header(s), specify this header(s) in the referenced model definition instead") (place q)])).
Proof.
  intros source index models nested found_none ty k item w t q name media id m R A Fo Ty O One Sig Nn Q M. pose proof R as (Small & Indexed & Rr).
  assert (H : exists hs v, referred models k q id (Load name "" [] (typed_by media) [] "" "" no_reference) (Load name (q_description m) (q_parameters m) hs [] (q_body m) (q_schema m) (Ref id Resolved (place q))) v /\
    ((media = "" /\ hs = q_headers m /\ v = []) \/ (media <> "" /\ ~ typed (q_headers m) /\ hs = ("Content-Type", media) :: q_headers m /\ v = []) \/
     (media <> "" /\ typed (q_headers m) /\ hs = q_headers m /\
      v = [About 5 ("ignoring additional " +++ kind_name k +++ " header(s), specify this header(s) in the referenced model definition instead") (place q)]))).
  { destruct (typed_by_is media) as [[N E]|[N E]]; rewrite E.
    - do 2 eexists. split; [right; exists m; split; [exact M|]; eexists; split; [reflexivity|]; left; now split|]. left. now split.
    - assert (D : typed (q_headers m) \/ ~ typed (q_headers m)) by (rewrite <- typed_iff; destruct (content_type (q_headers m)); [now left|now right]). destruct D as [D|D].
      + do 2 eexists. split; [right; exists m; split; [exact M|]; eexists; split; [reflexivity|]; right; right; split; [discriminate|]; now split|]. right. right. now split.
      + do 2 eexists. split; [right; exists m; split; [exact M|]; eexists; split; [reflexivity|]; right; left; split; [discriminate|]; now split|]. right. left. now split. }
  destruct H as (hs & v & H & V). set (p := Load name (q_description m) (q_parameters m) hs [] (q_body m) (q_schema m) (Ref id Resolved (place q))) in *.
  destruct (checked_total source index found_none Small Indexed k item p (line_tidy _ _ _ _ Sig)) as (cs & Ch). exists hs, cs, v. cbv zeta. split; [|split; [exact Ch|exact V]].
  destruct (C77_item source index models nested found_none ty k true item w R A Fo Ty) as [_ X]. apply (X p (v ++ cs)%list). destruct Q as [Pq Rq].
  exists t, [q], [q], [], (the_text t), "", name, name, (typed_by media), [], [], v, [], cs. split; [exact O|]. split; [apply row_all; constructor; [apply text_plain; now right|constructor]|].
  split; [now apply one_line_lines|]. split; [left; exists media; split; [exact Sig|]; split; [apply typed_by_is|reflexivity]|]. split; [right; split; [intros [K1 K2]; tauto|now split]|].
  split; [|split; [apply none_ignored|split; [exact Ch|reflexivity]]]. right. split; [apply empty_refers|]. exists "", []. split; [left; now split|]. left. exists [], q, [], [], id, [], v.
  split; [reflexivity|]. split; [reflexivity|]. split; [constructor|]. split; [intros u i []|]. split; [now split|]. split; [constructor|]. split; [exact H|]. cbn. now rewrite app_nil_r.
Qed.
(** a model not defined before: the reference is left for later, nothing of the payload is lost *)
Theorem C77_pending : forall source index models nested found_none ty k item w t q name media id,
  readable source index item -> answers nested -> form ty k true -> payload_type item = ty ->
  opens item t [q] -> ~ StringSpec.has LF (the_text t) -> signature_line k (the_text t) name media -> name <> "" \/ k <> Response_ -> is_reference q id -> models id = None ->
  parse_payload source index models nested found_none ty item w = Val (Load name "" [] (typed_by media) [] "" "" (Ref id Pending (place q)), w).
Proof.
  intros source index models nested found_none ty k item w t q name media id R A Fo Ty O One Sig Nn Q M. pose proof R as (Small & Indexed & Rr).
  set (p := Load name "" [] (typed_by media) [] "" "" (Ref id Pending (place q))).
  assert (Ch : checked found_none k item p []).
  { destruct (checked_total source index found_none Small Indexed k item p (line_tidy _ _ _ _ Sig)) as (cs & Ch). destruct k; cbn [checked] in *.
    - destruct Ch as (len & enc & L & E & H). exists len, enc. split; [exact L|]. split; [exact E|]. cbv zeta. left. split; [|reflexivity]. intros ((_ & _ & Z) & _). now apply Z.
    - destruct Ch as (n & St & H). exists n. split; [exact St|]. cbv zeta. left. split; [|reflexivity]. intros (_ & _ & Z). now apply Z.
    - reflexivity. }
  destruct (C77_item source index models nested found_none ty k true item w R A Fo Ty) as [_ X]. rewrite (X p []); [now rewrite app_nil_r|]. destruct Q as [Pq Rq].
  exists t, [q], [q], [], (the_text t), "", name, name, (typed_by media), [], [], [], [], []. split; [exact O|]. split; [apply row_all; constructor; [apply text_plain; now right|constructor]|].
  split; [now apply one_line_lines|]. split; [left; exists media; split; [exact Sig|]; split; [apply typed_by_is|reflexivity]|]. split; [right; split; [intros [K1 K2]; tauto|now split]|].
  split; [|split; [apply none_ignored|split; [exact Ch|reflexivity]]]. right. split; [apply empty_refers|]. exists "", []. split; [left; now split|]. left. exists [], q, [], [], id, [], [].
  split; [reflexivity|]. split; [reflexivity|]. split; [constructor|]. split; [intros u i []|]. split; [now split|]. split; [constructor|]. split; [left; now split|reflexivity].
Qed.

(** ** a request in full *)
Definition line_feed : string := String LF "".
Definition sample_source : string :=
  "+ Request Create (application/json)" +++ line_feed +++ line_feed +++ "    Some words" +++ line_feed +++ line_feed +++ "    + Headers" +++ line_feed +++ line_feed +++
  "            X-Id: 1" +++ line_feed +++ line_feed +++ "    + Body" +++ line_feed +++ line_feed +++ "            {}" +++ line_feed +++ line_feed +++ "    + Schema" +++ line_feed +++ line_feed +++
  "            {""a"":1}" +++ line_feed.
Definition bytes (n : nat) : list N := map N.of_nat (seq 0 n).
Definition node (ty : node_type) (x : string) (a b : N) (l : list tree) : tree := Tree ty x 0 [R a b] l.
Definition sample_section (word : string) (a : N) (x : string) (b : N) : tree :=
  node ItemNode "" a (slen word + 2) [node ParagraphNode word (a + 2) (slen word) []; node CodeNode x b (slen x) []].
Definition sample_item : tree :=
  node ItemNode "" 0 151 [node ParagraphNode "Request Create (application/json)" 2 33 []; node ParagraphNode "Some words" 41 10 [];
    sample_section "Headers" 57 ("X-Id: 1" +++ line_feed) 80; sample_section "Body" 93 ("{}" +++ line_feed) 113; sample_section "Schema" 121 ("{""a"":1}" +++ line_feed) 143].
Definition silent (ty : section_type) (l : list tree) (t : tree) : outcome (list annotation) := Val [].
Definition nothing (ty : section_type) (l : list tree) : bool := match l with [] => true | _ => false end.
Definition no_models (id : string) : option payload := None.
Example C77_sample : payload_type sample_item = RequestSection /\
  parse_payload sample_source (bytes 151) no_models silent nothing RequestSection sample_item [] =
    Val (Load "Create" "Some words" [] [("Content-Type", "application/json"); ("X-Id", "1")] [] ("{}" +++ line_feed) ("{""a"":1}" +++ line_feed) no_reference, []).
Proof. split; vm_compute; reflexivity. Qed.
Ltac inside := unfold inside_source; cbn; repeat (split || constructor || discriminate).
Ltac unlike H := first [apply lines_iff in H|apply refers_iff in H]; vm_compute in H; discriminate H.
Ltac unwritten := intros _; split; intros [[K H]|[K H]]; first [contradiction|vm_compute in H; discriminate H|now elim K].
Ltac no_nul H := vm_compute in H; repeat (destruct H as [H|H]; [discriminate H|]); destruct H.
Ltac too_long := split; [unwritten|intros first H; unlike H].
Ltac no_blank := intros c first rest I L; repeat (destruct I as [<-|I]; [apply lines_iff in L; vm_compute in L; injection L as <- <-; split; intros H; unlike H|]); destruct I.
Ltac no_headers H := apply (proj2 (proj1 (nested_type_is _))) in H; vm_compute in H; discriminate H.
Lemma shows_part : forall source x y z, source = x +++ y +++ z -> trim y <> "" -> exists line, HeadersSpec.shows source (R (slen x) (slen y)) line.
Proof. intros source x y z -> N. destruct (trim_spec y) as (a & b & T). exists (trim y). split; [exact N|]. exists x, a, b, z. pose proof T as (E & _). rewrite <- E. split; [reflexivity|]. split; [reflexivity|exact T]. Qed.
Example C77_sample_readable : readable sample_source (bytes 151) sample_item.
Proof.
  split; [vm_compute; reflexivity|]. split; [reflexivity|]. split; [intros H; no_nul H|]. split; [inside|]. split; [|split; [|no_blank]].
  - intros c [<-|[<-|[<-|[<-|[<-|[]]]]]] H; [no_headers H|no_headers H| |no_headers H|no_headers H]. clear H. intros d r [<-|[<-|[]]] [<-|[]].
    + apply (shows_part sample_source (substring 0 59 sample_source) "Headers" (substring 66 100 sample_source)); [vm_compute; reflexivity|discriminate].
    + apply (shows_part sample_source (substring 0 80 sample_source) ("X-Id: 1" +++ line_feed) (substring 88 100 sample_source)); [vm_compute; reflexivity|discriminate].
  - intros c [<-|[<-|[<-|[<-|[<-|[]]]]]]; too_long.
Qed.

(** ** a short response and a reference *)
Definition response_source : string := "+ Response 200 (text/plain)" +++ line_feed +++ line_feed +++ "        Hello" +++ line_feed.
Definition response_item : tree := node ItemNode "" 0 43 [node ParagraphNode "Response 200 (text/plain)" 2 25 []; node CodeNode ("Hello" +++ line_feed) 37 6 []].
Example C77_response : readable response_source (bytes 43) response_item /\ payload_type response_item = ResponseBodySection /\
  (exists t r, opens response_item t r /\ ~ StringSpec.has LF (the_text t) /\ response_line (the_text t) "200" "text/plain" /\ Forall plain_code r) /\
  parse_payload response_source (bytes 43) no_models silent nothing ResponseBodySection response_item [] =
    Val (Load "200" "" [] [("Content-Type", "text/plain")] [] ("Hello" +++ line_feed) "" no_reference, []).
Proof.
  split; [|split; [vm_compute; reflexivity|split; [|vm_compute; reflexivity]]].
  - split; [vm_compute; reflexivity|]. split; [reflexivity|]. split; [intros H; no_nul H|]. split; [inside|]. split; [|split; [|no_blank]].
    + intros c [<-|[<-|[]]] H; no_headers H.
    + intros c [<-|[<-|[]]]; too_long.
  - do 2 eexists. split; [left; exists []; split; [reflexivity|]; split; [constructor|discriminate]|]. split; [intros H; no_nul H|]. split.
    + split; [intros H; no_nul H|]. exists "", "Response", " 200 ", "(text/plain)", "". split; [reflexivity|]. split; [apply Forall_nil|]. split; [now left|]. split.
      * repeat apply Forall_cons; try apply Forall_nil; unfold digit_or_blank, blank_char; vm_compute; first [right; split; discriminate|left; tauto|tauto].
      * split; [apply Forall_nil|]. split; [now apply trims_is|]. right. exists "text/plain". split; [reflexivity|]. split; [|now apply trims_is]. repeat apply Forall_cons; try apply Forall_nil; split; discriminate.
    + constructor; [|constructor]. split; [exact I|]. split; [intros id H; unlike H|].
      assert (X : forall P, ~ looks_like P (node CodeNode ("Hello" +++ line_feed) 37 6 [])); [|now repeat split; apply X].
      intros P H. apply looks_iff in H as (c & x & E & K & _). vm_compute in E. injection E as <- _. repeat (destruct K as [K|K]; [discriminate K|]). destruct K.
Qed.
Definition reference_source : string := "+ Response 200" +++ line_feed +++ line_feed +++ "    [User][]" +++ line_feed.
Definition reference_item : tree := node ItemNode "" 0 29 [node ParagraphNode "Response 200" 2 12 []; node ParagraphNode "[User][]" 20 8 []].
Definition user_model : payload := Load "User" "A user" [] [("Content-Type", "text/plain")] [paragraph "attributes"] "Ann" "" no_reference.
Definition user_models (id : string) : option payload := if String.eqb id "User" then Some user_model else None.
Example C77_user : readable reference_source (bytes 29) reference_item /\ payload_type reference_item = ResponseBodySection /\
  (exists t q, opens reference_item t [q] /\ is_reference q "User") /\
  parse_payload reference_source (bytes 29) user_models silent nothing ResponseBodySection reference_item [] =
    Val (Load "200" "A user" [] [("Content-Type", "text/plain")] [] "Ann" "" (Ref "User" Resolved [R 20 8]), []) /\
  parse_payload reference_source (bytes 29) no_models silent nothing ResponseBodySection reference_item [] = Val (Load "200" "" [] [] [] "" "" (Ref "User" Pending [R 20 8]), []).
Proof.
  split; [|split; [vm_compute; reflexivity|split; [|split; vm_compute; reflexivity]]].
  - split; [vm_compute; reflexivity|]. split; [reflexivity|]. split; [intros H; no_nul H|]. split; [inside|]. split; [|split; [|no_blank]].
    + intros c [<-|[<-|[]]] H; no_headers H.
    + intros c [<-|[<-|[]]]; too_long.
  - do 2 eexists. split; [left; exists []; split; [reflexivity|]; split; [constructor|discriminate]|]. split; [exact I|]. apply refers_iff. vm_compute. reflexivity.
Qed.

(** ** what does not hold *)
(** the attributes of a model do not come with a reference *)
Theorem C77_attributes_refuted : exists source index models item m p w, readable source index item /\ payload_type item = ResponseBodySection /\ models "User" = Some m /\ q_attributes m <> [] /\
  parse_payload source index models silent nothing ResponseBodySection item [] = Val (p, w) /\ r_id (q_reference p) = "User" /\ r_state (q_reference p) = Resolved /\ q_attributes p = [] /\ w = [].
Proof.
  destruct C77_user as (Rd & Ty & _ & E & _). exists reference_source, (bytes 29), user_models, reference_item, user_model. do 2 eexists. split; [exact Rd|]. split; [exact Ty|]. split; [reflexivity|]. split; [discriminate|].
  split; [exact E|]. now repeat split.
Qed.
(** "ignoring additional 'body' content": the first body is lost, not the second *)
Definition twice_source : string := "+ Response 200" +++ line_feed +++ line_feed +++ "    + Body" +++ line_feed +++ line_feed +++ "            one" +++ line_feed +++ line_feed +++
  "    + Body" +++ line_feed +++ line_feed +++ "            two" +++ line_feed.
Definition twice_item : tree := node ItemNode "" 0 73 [node ParagraphNode "Response 200" 2 12 [];
  sample_section "Body" 20 ("one" +++ line_feed) 40; sample_section "Body" 49 ("two" +++ line_feed) 69].
Theorem C77_second_body_refuted : exists source index item, readable source index item /\ payload_type item = ResponseSection /\
  parse_payload source index no_models silent nothing ResponseSection item [] =
    Val (Load "200" "" [] [] [] ("two" +++ line_feed) "" no_reference, [An [R 49 6] 4 "ignoring additional 'body' content, it is already defined"]).
Proof.
  exists twice_source, (bytes 73), twice_item. split; [|split; vm_compute; reflexivity].
  split; [vm_compute; reflexivity|]. split; [reflexivity|]. split; [intros H; no_nul H|]. split; [inside|]. split; [|split; [|no_blank]].
  - intros c [<-|[<-|[<-|[]]]] H; no_headers H.
  - intros c [<-|[<-|[<-|[]]]]; too_long.
Qed.
(** a blank reference: the paragraph is lost without a warning *)
Theorem C77_blank_reference_refuted : exists source index item, inside_source source item /\ payload_type item = ResponseBodySection /\ List.length index = String.length source /\
  parse_payload source index no_models silent nothing ResponseBodySection item [] = Val (Load "200" "" [] [] [] "" "" (Ref "" Pending [R 20 5]), []).
Proof.
  exists ("+ Response 200" +++ line_feed +++ line_feed +++ "    [ ][]" +++ line_feed), (bytes 26), (node ItemNode "" 0 26 [node ParagraphNode "Response 200" 2 12 []; node ParagraphNode "[ ][]" 20 5 []]).
  split; [inside|]. split; [vm_compute; reflexivity|]. split; vm_compute; reflexivity.
Qed.
(** an empty text behind a body: a read before the start of a string *)
Theorem C77_dangling_refuted : exists source index item, inside_source source item /\ payload_type item = ResponseSection /\ List.length index = String.length source /\
  parse_payload source index no_models silent nothing ResponseSection item [] = ByteBuffer.Wild.
Proof.
  exists twice_source, (bytes 73), (node ItemNode "" 0 73 [node ParagraphNode "Response 200" 2 12 []; sample_section "Body" 20 ("one" +++ line_feed) 40; node CodeNode "" 49 0 []]).
  split; [inside|]. split; [vm_compute; reflexivity|]. split; vm_compute; reflexivity.
Qed.
(** the section's kind is decided by its first node, its text begins at the first that takes source *)
Example C77_no_source : exists item, inside_source twice_source item /\ payload_type item = ResponseBodySection /\
  parse_payload twice_source (bytes 73) no_models silent nothing ResponseBodySection item [] =
    Val (Load "200" "" [] [] [] "" "" no_reference, [An [R 20 6] 6 "missing response HTTP status code, assuming 'Response 200'"]).
Proof. exists (node ItemNode "" 0 73 [node ParagraphNode "Response 404" 2 0 []; node ParagraphNode "+ Body" 20 6 []]). split; [inside|]. split; vm_compute; reflexivity. Qed.
Print Assumptions C77_item.
Print Assumptions C77_unique.
Print Assumptions C77_code_body.
Print Assumptions C77_reference.
Print Assumptions C77_pending.
Print Assumptions C77_attributes_refuted.
Print Assumptions C77_second_body_refuted.
Print Assumptions C77_blank_reference_refuted.
Print Assumptions C77_dangling_refuted.
