(** Specification for C77: what the list item of a request, a response or a model says. The keywords are those of KeywordsSpec, header lines those of C53;
    of Payloads only the types of the result are used. *)
From Verif Require Import Base StringSpec ByteBuffer ByteSpec Markdown MarkdownSpec KeywordsSpec Source Headers HeadersSpec Keywords Payloads.
Local Open Scope string_scope.

(** ** texts *)
(** the first line, and what follows it *)
Definition lines (x first rest : string) : Prop := (~ has "010" x /\ first = x /\ rest = "") \/ (x = first +++ String "010" rest /\ ~ has "010" first).
Definition trims (s t : string) : Prop := exists a b, trimmed a s t b.
(** as few line feeds are added as are needed for the text to end in two *)
Definition padded (s t : string) : Prop :=
  exists k u, t = s +++ run_of k "010" /\ t = u +++ run_of 2 "010" /\ forall j v, s +++ run_of j "010" = v +++ run_of 2 "010" -> k <= j.
(** "[name][]" *)
Definition refers (s id : string) : Prop :=
  exists u v l n r, trims s u /\ u <> "" /\ before "000" u v /\ v = l +++ "[" +++ n +++ "][]" +++ r /\ blanks l /\ blanks r /\ n <> "" /\ no_brackets n /\ trims n id.

(** ** nodes *)
Definition the_text (t : tree) : string := match t with Tree _ x _ _ _ => x end.
Definition place (t : tree) : list range := match t with Tree _ _ _ m _ => m end.
Definition code_block (t : tree) : Prop := match t with Tree CodeNode _ _ _ _ => True | _ => False end.
Definition paragraph_node (t : tree) : Prop := match t with Tree ParagraphNode _ _ _ _ => True | _ => False end.
Definition text_block (t : tree) : Prop := code_block t \/ paragraph_node t.
Definition header_node (t : tree) : Prop := match t with Tree HeaderNode _ _ _ _ => True | _ => False end.
(** the content: the text of a code block, for other nodes the part of the source they take *)
Definition writes (source : string) (t : tree) (c : string) : Prop := (code_block t /\ c = the_text t) \/ (~ code_block t /\ c = text_at source (covered (place t))).
Definition plain_node (t : tree) : Prop := ~ keyword_item t /\ ~ keyword_header t.
Definition begins (P : tree -> Prop) (l : list tree) : Prop := match l with t :: _ => P t | [] => False end.
(** the node a list item opens with: its first that takes any source *)
Definition takes_nothing (t : tree) : Prop := match place t with r :: _ => length r = 0%N | [] => False end.
Definition takes_source (t : tree) : Prop := match place t with r :: _ => length r <> 0%N | [] => False end.
Definition opens (item t : tree) (rest : list tree) : Prop :=
  match item with
  | Tree ItemNode _ _ _ cs =>
    (exists a, cs = (a ++ t :: rest)%list /\ Forall takes_nothing a /\ takes_source t) \/ (cs = t :: rest /\ Forall takes_nothing cs)
  | _ => False
  end.
(** the longest row of nodes with [P], and the others *)
Definition row (P : tree -> Prop) (l d x : list tree) : Prop := l = (d ++ x)%list /\ Forall P d /\ ~ begins P x.

(** ** the report *)
(** about the ranges of a node; about all from the first byte of a node to the last; as given by a parser not considered here *)
Inductive complaint : Type := About (code : N) (text : string) (m : list range) | Spanning (code : N) (text : string) (m : list range) | Given (a : annotation).
(** the positions in characters: C33 *)
Definition characters (index : list N) (m : list range) : list range := match index_set_to_characters m index with Val l => l | _ => [] end.
Definition shown (index : list N) (c : complaint) : annotation :=
  match c with About code text m => An (characters index m) code text | Spanning code text m => An (set_to_consecutive m index) code text | Given a => a end.
(** a node without effect *)
Definition ignored (t : tree) (w : list complaint) : Prop :=
  (header_node t /\ w = [About 5 "unexpected header block, expected a group, resource or an action definition, e.g. '# Group <name>', '# <resource name> [<URI>]' or '# <HTTP method> <URI>'" (place t)]) \/
  (~ header_node t /\ w = [About 5 "ignoring unrecognized block" (place t)]).
(** what looks like a reference where none is allowed *)
Definition stray_reference (where_ : string) (t : tree) (w : list complaint) : Prop :=
  (exists id, refers (the_text t) id /\
    w = [About 5 ("found a possible '" +++ id +++ "' model reference, a reference must be directly in the " +++ where_ +++ " section, indented by 4 spaces or 1 tab, without any additional sections") (place t)]) \/
  ((forall id, ~ refers (the_text t) id) /\ w = []).
(** a code block that looks like a section indented too much *)
Definition looks_like (P : string -> Prop) (t : tree) : Prop :=
  exists first rest l c x a y v, lines (the_text t) first rest /\ trims first l /\ l = String c x /\ In c ["-"; "+"; "*"]%char /\
    x = a +++ y /\ all white a /\ (forall d z, y = String d z -> ~ white d) /\ y <> "" /\ before "000" y v /\ P v.
Definition too_deep (t : tree) (w : list complaint) : Prop :=
  let say name := [About 10 ("excessive indentation, " +++ name +++ " section is expected to be indented by just 8 spaces or 2 tabs") (place t)] in
  (looks_like reads_headers t /\ w = say "headers") \/ (looks_like reads_body t /\ w = say "message-body") \/ (looks_like reads_schema t /\ w = say "message-schema") \/
  (~ looks_like reads_headers t /\ ~ looks_like reads_body t /\ ~ looks_like reads_schema t /\ w = []).

(** ** bodies and schemas *)
(** the section's name in messages, and the indentation expected in a section *)
Inductive asset_kind : Type := Body_ | Schema_ | Headers_.
Definition name_of (k : asset_kind) : string := match k with Body_ => "message-body" | Schema_ => "message-schema" | Headers_ => "headers" end.
Definition title_of (k : asset_kind) : string := match k with Body_ => "message-body asset" | Schema_ => "message-schema" | Headers_ => "headers" end.
(** where it stands: in a section of a payload; in the short form of a payload; in a section of an action or a resource *)
Inductive depth : Type := Deep_ | Short_ | Top_.
Definition indent_of (at_ : depth) : string := match at_ with Deep_ => "12 spaces or 3 tabs" | Short_ => "8 spaces or 2 tabs" | Top_ => "4 spaces or 1 tabs" end.
(** a node as content *)
Definition content (source : string) (at_ : depth) (k : asset_kind) (t : tree) (c : string) (w : list complaint) : Prop :=
  exists w1 w2, stray_reference (name_of k) t w1 /\ writes source t c /\ w = (w1 ++ w2)%list /\
    ((code_block t /\ too_deep t w2) \/
     (~ code_block t /\ w2 = [Spanning 10 (title_of k +++ " is expected to be a pre-formatted code block, every of its line indented by exactly " +++ indent_of at_) (place t)])).
(** the lines behind the keyword, without a blank line between *)
Definition own_lines (at_ : depth) (k : asset_kind) (t : tree) (c : string) (w : list complaint) : Prop :=
  exists first rest, lines (the_text t) first rest /\
    ((rest = "" /\ c = "" /\ w = []) \/
     (rest <> "" /\ c = rest +++ String "010" "" /\
      w = [About 10 (title_of k +++ " is expected to be a pre-formatted code block, separate it by a newline and indent every of its line by " +++ indent_of at_) (place t)])).
Inductive in_turn {A} (step : tree -> A -> list complaint -> Prop) : list tree -> list A -> list complaint -> Prop :=
| turn_none : in_turn step [] [] []
| turn_more : forall t l a r w v, step t a w -> in_turn step l r v -> in_turn step (t :: l) (a :: r) (w ++ v).
Definition all_ignored (l : list tree) (w : list complaint) : Prop := exists u, in_turn (fun t (_ : unit) => ignored t) l u w.
(** a "Body" or "Schema" item: the nodes up to the first with a keyword are its text *)
Definition asset (source : string) (k : asset_kind) (item : tree) (s : string) (w : list complaint) : Prop :=
  exists t r d x c cs w1 w2 w3, opens item t r /\ row plain_node r d x /\ own_lines Deep_ k t c w1 /\ in_turn (content source Deep_ k) d cs w2 /\ all_ignored x w3 /\
    s = c +++ sconcat cs /\ w = (w1 ++ w2 ++ w3)%list.

(** ** headers. The lines are those of C53; the first of an item names the section *)
Definition header_lines (source : string) (index : list N) (ranges : list range) (hs hs' : list header) (w : list complaint) : Prop :=
  exists ws, headers_from_content ranges source index hs [] = Val (hs', ws) /\ w = map Given ws.
Inductive header_blocks (source : string) (index : list N) (at_ : depth) : list tree -> list header -> list header -> list complaint -> Prop :=
| blocks_none : forall hs, header_blocks source index at_ [] hs hs []
| blocks_more : forall t l hs hs' hs'' c w1 w2 w3, content source at_ Headers_ t c w1 -> header_lines source index (place t) hs hs' w2 ->
    header_blocks source index at_ l hs' hs'' w3 -> header_blocks source index at_ (t :: l) hs hs'' (w1 ++ w2 ++ w3).
Definition headers_item (source : string) (index : list N) (at_ : depth) (item : tree) (hs hs' : list header) (w : list complaint) : Prop :=
  exists t r d x c first ranges hs1 w1 w2 w3 w4, opens item t r /\ row plain_node r d x /\ own_lines at_ Headers_ t c w1 /\
    place t = first :: ranges /\ header_lines source index ranges hs hs1 w2 /\ header_blocks source index at_ d hs1 hs' w3 /\ all_ignored x w4 /\
    w = (w1 ++ w2 ++ w3 ++ w4 ++ match hs' with [] => [About 3 "no valid headers specified" (place item)] | _ => [] end)%list.

(** ** the first line *)
Definition media_part (m media : string) : Prop :=
  (m = "" /\ media = "") \/ exists x, m = "(" +++ x +++ ")" /\ all (fun c => c <> ")"%char /\ c <> "\"%char) x /\ trims x media.
(** "Request name (media type)" *)
Definition request_line (s name media : string) : Prop :=
  ~ has "000" s /\ exists l w n m z, s = l +++ w +++ n +++ m +++ z /\ blanks l /\ In w ["Request"; "request"] /\ no_brackets n /\
    (n = "" \/ exists c n', n = String c n' /\ blank_char c) /\ all white z /\ trims n name /\ media_part m media.
(** "Response 200 (media type)" *)
Definition digit_or_blank (c : ascii) : Prop := blank_char c \/ (48 <= byte c <= 57)%N.
Definition response_line (s name media : string) : Prop :=
  ~ has "000" s /\ exists l w n m z, s = l +++ w +++ n +++ m +++ z /\ blanks l /\ In w ["Response"; "response"] /\ all digit_or_blank n /\
    all white z /\ trims n name /\ media_part m media.
(** "name Model (media type)" *)
Definition model_line (s name media : string) : Prop :=
  ~ has "000" s /\ exists p w b m y, s = p +++ w +++ b +++ m +++ y /\ no_brackets p /\ (p = "" \/ exists q c, p = q +++ String c "" /\ blank_char c) /\
    In w ["Model"; "model"] /\ blanks b /\ blanks y /\ trims p name /\ media_part m media.
Inductive payload_kind : Type := Request_ | Response_ | Model_.
Definition signature_line (k : payload_kind) : string -> string -> string -> Prop :=
  match k with Request_ => request_line | Response_ => response_line | Model_ => model_line end.
(** the pattern begins here; what follows it may be anything *)
Definition signature_start (k : payload_kind) (s : string) : Prop :=
  match k with Request_ => reads_request s | Response_ => reads_response s | Model_ => reads_model s end.
Definition kind_name (k : payload_kind) : string := match k with Request_ => "request" | Response_ => "response" | Model_ => "model" end.
Definition expected_line (k : payload_kind) : string :=
  match k with
  | Request_ => "'request [<identifier>] [(<media type>)]'" | Response_ => "'response [<HTTP status code>] [(<media type>)]'" | Model_ => "'model [(<media type>)]'"
  end.
(** name and headers. A line that begins as it should and does not go on so is reported and gives nothing; one that does not even begin so is not reported *)
Definition named_by (k : payload_kind) (t : tree) (s name : string) (hs : list header) (w : list complaint) : Prop :=
  (exists media, signature_line k s name media /\ ((media = "" /\ hs = []) \/ (media <> "" /\ hs = [("Content-Type", media)])) /\ w = []) \/
  ((forall n m, ~ signature_line k s n m) /\ name = "" /\ hs = [] /\ exists u, before "000" s u /\
    ((s <> "" /\ signature_start k u /\ w = [About 3 ("unable to parse " +++ kind_name k +++ " signature, expected " +++ expected_line k) (place t)]) \/
     (~ (s <> "" /\ signature_start k u) /\ w = []))).
(** a response without a status code *)
Definition with_status (k : payload_kind) (t : tree) (name name' : string) (w : list complaint) : Prop :=
  (k = Response_ /\ name = "" /\ name' = "200" /\ w = [About 6 "missing response HTTP status code, assuming 'Response 200'" (place t)]) \/
  (~ (k = Response_ /\ name = "") /\ name' = name /\ w = []).

(** ** payloads in full: a description and sections *)
Definition headers_section := item_says reads_headers.
Definition body_section := item_says reads_body.
Definition schema_section := item_says reads_schema.
Definition attributes_section := item_says reads_attributes.
Definition parameters_section := item_says reads_parameters.
Definition a_section (t : tree) : Prop := headers_section t \/ body_section t \/ schema_section t \/ attributes_section t \/ parameters_section t.
(** paragraphs, separated by blank lines *)
Inductive description (source : string) : string -> list tree -> string -> Prop :=
| description_end : forall s, description source s [] s
| description_start : forall t l c d, trims (text_at source (covered (place t))) c -> description source c l d -> description source "" (t :: l) d
| description_next : forall s s' t l c d, s <> "" -> padded s s' -> trims (text_at source (covered (place t))) c -> description source (s' +++ c) l d -> description source s (t :: l) d.
(** every section with the nodes behind it *)
Definition grouped (x : list tree) (gs : list (tree * list tree)) : Prop :=
  x = flat_map (fun g => fst g :: snd g) gs /\ Forall (fun g => a_section (fst g) /\ Forall (fun t => ~ a_section t) (snd g)) gs.
(** the nodes behind a body that belong to it: the texts that follow; one node of another kind may stand before them *)
Definition after_body (n u d z : list tree) : Prop :=
  n = (u ++ d ++ z)%list /\ Forall text_block d /\ ~ begins text_block z /\ match u with [] => begins text_block n \/ n = [] | [q] => ~ text_block q | _ => False end.
(** [at_]: where it should stand; a code block is one level deeper than it looks *)
Definition above (at_ : depth) : depth := match at_ with Deep_ => Short_ | _ => Top_ end.
Definition dangling_block (source : string) (at_ : depth) (t : tree) (s : string) (w : list complaint) : Prop :=
  exists c w1, writes source t c /\ padded c s /\ stray_reference "section" t w1 /\
    exists by_, ((code_block t /\ by_ = above at_) \/ (~ code_block t /\ by_ = at_)) /\
    w = (w1 ++ [About 10 ("dangling message-body asset, expected a pre-formatted code block, indent every of it's line by " +++ indent_of by_) (place t)])%list.
(** a second body is reported as ignored. In fact the first one is lost *)
Definition defined_before (what old : string) (t : tree) (w : list complaint) : Prop :=
  (old = "" /\ w = []) \/ (old <> "" /\ w = [About 4 ("ignoring additional '" +++ what +++ "' content, it is already defined") (place t)]).

Section Says.
Context (source : string) (index : list N) (models : string -> option payload).
Context (nested : section_type -> list tree -> tree -> outcome (list annotation)) (found_none : section_type -> list tree -> bool).

(** a section and the nodes behind it *)
Inductive section_tells (k : payload_kind) : payload -> tree -> list tree -> payload -> list complaint -> Prop :=
| tells_headers : forall p t n hs w1 w2, headers_section t -> headers_item source index Deep_ t (q_headers p) hs w1 -> all_ignored n w2 ->
    section_tells k p t n (set_headers hs p) (w1 ++ w2)
| tells_body : forall p t n u d z s cs w0 w1 w2 w3 w4, body_section t -> defined_before "body" (q_body p) t w0 -> asset source Body_ t s w1 ->
    after_body n u d z -> all_ignored u w2 -> in_turn (dangling_block source Deep_) d cs w3 -> all_ignored z w4 ->
    section_tells k p t n (set_body (s +++ sconcat cs) p) (w0 ++ w1 ++ w2 ++ w3 ++ w4)
| tells_schema : forall p t n s w0 w1 w2, schema_section t -> defined_before "schema" (q_schema p) t w0 -> asset source Schema_ t s w1 -> all_ignored n w2 ->
    section_tells k p t n (set_schema s p) (w0 ++ w1 ++ w2)
| tells_attributes : forall p t n a w2, attributes_section t -> nested AttributesSection (q_attributes p) t = Val a -> all_ignored n w2 ->
    section_tells k p t n (set_attributes (q_attributes p ++ [t]) p) (map Given a ++ w2)
| tells_parameters : forall p t n a w2, parameters_section t -> k = Request_ -> nested ParametersSection (q_parameters p) t = Val a -> all_ignored n w2 ->
    section_tells k p t n (set_parameters (q_parameters p ++ [t]) p) (map Given a ++ w2)
| tells_no_parameters : forall p t n w2, parameters_section t -> k <> Request_ -> all_ignored n w2 ->
    section_tells k p t n p (About 5 "ignoring parameters section in a non request payload section" (place t) :: w2).
Inductive tells (k : payload_kind) : payload -> list (tree * list tree) -> payload -> list complaint -> Prop :=
| tells_end : forall p, tells k p [] p []
| tells_more : forall p t n gs p1 p2 w1 w2, section_tells k p t n p1 w1 -> tells k p1 gs p2 w2 -> tells k p ((t, n) :: gs) p2 (w1 ++ w2).

(** ** checks at the end *)
(** the last header of this name, exactly *)
Definition last_value (name : string) (hs : list header) (v : string) : Prop :=
  (exists a b, hs = (a ++ (name, v) :: b)%list /\ forall u, ~ In (name, u) b) \/ ((forall u, ~ In (name, u) hs) /\ v = "").
Definition without_body (p : payload) : Prop := q_body p = "" /\ found_none AttributesSection (q_attributes p) = true /\ r_state (q_reference p) <> Pending.
(** a request that says nothing, or has a length or an encoding but no body *)
Definition request_check (item : tree) (p : payload) (w : list complaint) : Prop :=
  exists len enc, last_value "Content-Length" (q_headers p) len /\ last_value "Transfer-Encoding" (q_headers p) enc /\
    let bad := without_body p /\ ((q_headers p = [] /\ found_none ParametersSection (q_parameters p) = true) \/ len <> "" \/ enc <> "") in
    let say rest := [About 6 ("empty request message-body" +++ rest) (place item)] in
    (~ bad /\ w = []) \/
    (bad /\ ((len <> "" /\ w = say (", expected message-body for '" +++ len +++ "' Content-Length")) \/
             (len = "" /\ enc <> "" /\ w = say (", expected message-body for '" +++ enc +++ "' Transfer-Encoding")) \/ (len = "" /\ enc = "" /\ w = say ""))).
(** the number a status begins with; numbers that are too large become the largest *)
Definition digit (c : ascii) : Prop := (48 <= byte c <= 57)%N.
Fixpoint value (s : string) (n : N) : N := match s with String c r => value r (n * 10 + (byte c - 48))%N | EmptyString => n end.
Definition status (name : string) (n : N) : Prop :=
  exists d r, name = d +++ r /\ all digit d /\ (forall c x, r = String c x -> ~ digit c) /\ n = N.min (value d 0) (2 ^ 32 - 1).
(** status codes of responses without body *)
Definition bodiless (n : N) : Prop := n = 204%N \/ n = 304%N \/ (100 <= n < 200)%N.
Definition response_check (item : tree) (p : payload) (w : list complaint) : Prop :=
  exists n, status (q_name p) n /\
    let bad := bodiless n /\ q_body p <> "" /\ r_state (q_reference p) <> Pending in
    (~ bad /\ w = []) \/ (bad /\ w = [About 6 ("the " +++ decimal n +++ " response MUST NOT include a message-body") (place item)]).
Definition checked (k : payload_kind) (item : tree) (p : payload) (w : list complaint) : Prop :=
  match k with Request_ => request_check item p w | Response_ => response_check item p w | Model_ => w = [] end.

Definition no_reference : reference := Ref "" Unresolved [].
Definition full (k : payload_kind) (item : tree) (p : payload) (w : list complaint) : Prop :=
  exists t r d x gs first rest text name0 name hs w1 w2 w3 w4,
    opens item t r /\ row (fun t => ~ a_section t) r d x /\ grouped x gs /\ lines (the_text t) first rest /\
    named_by k t first name0 hs w1 /\ with_status k t name0 name w2 /\ description source rest d text /\
    tells k (Load name text [] hs [] "" "" no_reference) gs p w3 /\ checked k item p w4 /\ w = (w1 ++ w2 ++ w3 ++ w4)%list.

(** ** payloads in short: a body, or a reference to a model *)
Definition typed (hs : list header) : Prop := exists v, In ("Content-Type", v) hs.
(** name and attributes are kept. Its headers are added to the model's, or give way to them. [what]: the payload's name in the message *)
Definition from_model (what : string) (t : tree) (id : string) (m p p' : payload) (w : list complaint) : Prop :=
  exists hs, p' = Load (q_name p) (q_description m) (q_parameters m) hs (q_attributes p) (q_body m) (q_schema m) (Ref id Resolved (place t)) /\
    ((q_headers p = [] /\ hs = q_headers m /\ w = []) \/
     (q_headers p <> [] /\ ~ typed (q_headers m) /\ hs = (q_headers p ++ q_headers m)%list /\ w = []) \/
     (q_headers p <> [] /\ typed (q_headers m) /\ hs = q_headers m /\
      w = [About 5 ("ignoring additional " +++ what +++ " header(s), specify this header(s) in the referenced model definition instead") (place t)])).
Definition referred (k : payload_kind) (t : tree) (id : string) (p p' : payload) (w : list complaint) : Prop :=
  (models id = None /\ p' = set_reference (Ref id Pending (place t)) p /\ w = []) \/
  exists m, models id = Some m /\ from_model (kind_name k) t id m p p' w.
Definition extraneous (id : string) (l : list tree) : list complaint :=
  map (fun t => About 5 ("ignoring extraneous content after model reference, expected model reference only e.g. '[" +++ id +++ "][]'") (place t)) l.
(** a paragraph that is a reference, with nothing but empty nodes before it *)
Definition is_reference (t : tree) (id : string) : Prop := paragraph_node t /\ refers (the_text t) id.
Definition empty_nodes (l : list tree) : Prop := Forall (fun t => writes source t "") l.
(** [p]: name and headers; [rest]: the lines behind the first; [d]: the nodes *)
Definition short_content (k : payload_kind) (t : tree) (rest : string) (d : list tree) (p p' : payload) (w : list complaint) : Prop :=
  (exists id w1, refers rest id /\ referred k t id p p' w1 /\ w = (w1 ++ extraneous id d)%list) \/
  ((forall id, ~ refers rest id) /\ exists own w1,
    ((rest = "" /\ own = "" /\ w1 = []) \/ (rest <> "" /\ exists c, own_lines Short_ Body_ t c w1 /\ padded c own)) /\
    ((exists e q z es id w2 w3, own = "" /\ d = (e ++ q :: z)%list /\ empty_nodes e /\ (forall u i, In u e -> ~ is_reference u i) /\ is_reference q id /\
       in_turn (content source Short_ Body_) e es w2 /\ referred k q id p p' w3 /\ w = (w1 ++ w2 ++ w3 ++ extraneous id z)%list) \/
     ((forall e q z id, own = "" -> d = (e ++ q :: z)%list -> empty_nodes e -> ~ is_reference q id) /\
      exists cs w2, in_turn (content source Short_ Body_) d cs w2 /\ p' = set_body (own +++ sconcat cs) p /\ w = (w1 ++ w2)%list))).
Definition short (k : payload_kind) (item : tree) (p : payload) (w : list complaint) : Prop :=
  exists t r d x first rest name0 name hs w1 w2 w3 w4 w5,
    opens item t r /\ row plain_node r d x /\ lines (the_text t) first rest /\ named_by k t first name0 hs w1 /\ with_status k t name0 name w2 /\
    short_content k t rest d (Load name "" [] hs [] "" "" no_reference) p w3 /\ all_ignored x w4 /\ checked k item p w5 /\ w = (w1 ++ w2 ++ w3 ++ w4 ++ w5)%list.
End Says.

(** the kinds of sections *)
Definition form (ty : section_type) (k : payload_kind) (is_short : bool) : Prop :=
  match k, is_short with
  | Request_, false => ty = RequestSection | Request_, true => ty = RequestBodySection
  | Response_, false => ty = ResponseSection | Response_, true => ty = ResponseBodySection
  | Model_, false => ty = ModelSection | Model_, true => ty = ModelBodySection
  end.
Definition says (source : string) (index : list N) (models : string -> option payload) (nested : section_type -> list tree -> tree -> outcome (list annotation))
  (found_none : section_type -> list tree -> bool) (k : payload_kind) (is_short : bool) (item : tree) (p : payload) (w : list complaint) : Prop :=
  if is_short then short source models found_none k item p w else full source index nested found_none k item p w.

(** ** what is assumed *)
(** the nodes lie in the source *)
Definition inside_source (source : string) (item : tree) : Prop :=
  every_node (fun t => place t <> [] /\ Forall (fun r => location r < slen source /\ location r + length r <= slen source)%N (place t)) item.
(** the ranges of a headers section are its lines *)
Definition shown_lines (source : string) (item : tree) : Prop :=
  match item with Tree _ _ _ _ cs => forall c, In c cs -> headers_section c -> match c with Tree _ _ _ _ ds => forall d r, In d ds -> In r (place d) -> exists line, HeadersSpec.shows source r line end end.
(** no text that would be made to end in two line feeds is too short for it; no reference is blank *)
Definition long_enough (source : string) (item : tree) : Prop :=
  match item with Tree _ _ _ _ cs => forall c, In c cs ->
    (text_block c -> ~ writes source c "" /\ ~ writes source c (String "010" "")) /\ (forall first, ~ lines (the_text c) first (String "010" "")) end.
Definition no_blank_reference (item : tree) : Prop :=
  match item with Tree _ _ _ _ cs => forall c first rest, In c cs -> lines (the_text c) first rest -> ~ refers (the_text c) "" /\ ~ refers rest "" end.
