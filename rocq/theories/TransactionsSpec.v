(** Specification for C78: the requests, responses and models of a document. Which node belongs to which section is said by C76, what a list item says by C77
    ([says]); of Transactions only the types of the result and the two functions that read a header are used. *)
From Verif Require Import Base StringSpec ByteBuffer ByteSpec Markdown MarkdownSpec KeywordsSpec Source Headers HeadersSpec Keywords Sections SectionsSpec Payloads PayloadsSpec Transactions.
Local Open Scope string_scope.

(** ** the report: warnings, and errors, of which the last is kept *)
Inductive event : Type := Warns (c : complaint) | Fails (text : string) (m : list range).
Definition warnings (index : list N) (ev : list event) : list annotation := flat_map (fun e => match e with Warns c => [shown index c] | Fails _ _ => [] end) ev.
Definition errors (index : list N) (ev : list event) : list annotation := flat_map (fun e => match e with Warns _ => [] | Fails text m => [An (characters index m) 3 text] end) ev.
Definition last_error (index : list N) (ev : list event) : option annotation := last (map Some (errors index ev)) None.

(** ** the parts of a section, and what has been read from them *)
Inductive reading : Type := Loads (p : payload) | Adds (s : string) | Heads (hs : list header) | Acts (a : action) | Nothing_.
Definition listing : Type := list (part * reading).
(** the headers of the section: those of its last "Headers" item, each of which keeps those before *)
Definition headers_so_far (l : listing) (hs : list header) : Prop :=
  (exists a x b, l = (a ++ (x, Heads hs) :: b)%list /\ forall y h, ~ In (y, Heads h) b) \/ ((forall y h, ~ In (y, Heads h) l) /\ hs = []).
(** the item a text is behind *)
Definition behind_item (l : listing) (ty : section_type) : Prop :=
  exists a t r b, l = (a ++ (Listed ty t, r) :: b)%list /\ forall x q, In (x, q) b -> (exists u, x = Ignored u) \/ exists u, x = Dangling u.
Definition deprecated (t : tree) : complaint :=
  About 9 "the 'headers' section at this level is deprecated and will be removed in a future, use respective payload header section(s) instead" (place t).

(** ** are two payloads the same: their names, and their first headers "Content-Type" *)
Definition first_value (name : string) (hs : list header) (v : string) : Prop :=
  (exists a b, hs = (a ++ (name, v) :: b)%list /\ forall u, ~ In (name, u) a) \/ ((forall u, ~ In (name, u) hs) /\ v = "").
Definition alike (p q : payload) : Prop := q_name p = q_name q /\ exists v, first_value "Content-Type" (q_headers p) v /\ first_value "Content-Type" (q_headers q) v.

(** ** transactions *)
(** a payload, and the texts behind it *)
Record loaded : Type := Loaded { l_type : section_type; l_node : tree; l_payload : payload; l_texts : list (tree * string) }.
Definition pieces (l : loaded) : listing := (Listed (l_type l) (l_node l), Loads (l_payload l)) :: map (fun x => (Dangling (fst x), Adds (snd x))) (l_texts l).
Definition of_payload (x : part * reading) : bool := match snd x with Loads _ | Adds _ => true | _ => false end.
(** requests, then responses; a request behind a response begins another *)
Definition exchanges (l : listing) (ex : list (list loaded * list loaded)) : Prop :=
  filter of_payload l = flat_map pieces (flat_map (fun e => fst e ++ snd e)%list ex) /\
  (forall e, In e ex -> Forall (fun y => In (l_type y) [RequestSection; RequestBodySection]) (fst e) /\ Forall (fun y => In (l_type y) [ResponseSection; ResponseBodySection]) (snd e)) /\
  (forall a e b, ex = (a ++ e :: b)%list -> (b <> [] -> snd e <> []) /\ (a <> [] -> fst e <> []) /\ e <> ([], [])).
(** the texts are added to the body *)
Definition complete (l : loaded) : payload := set_body (q_body (l_payload l) +++ sconcat (map snd (l_texts l))) (l_payload l).
(** headers of the action or the resource come first *)
Definition headed (hs : list header) (p : payload) : payload := set_headers (hs ++ q_headers p)%list p.
Definition on_payloads {A B} (f : A -> B) (ex : list (list A * list A)) : list (list B * list B) := map (fun e => (map f (fst e), map f (snd e))) ex.

Section Says.
Context (source : string) (index : list N).
Context (nested : section_type -> list tree -> tree -> outcome (list annotation)) (found_none : section_type -> list tree -> bool).
Definition table : Type := string -> option payload.
Definition item_says_ (T : table) := says source index T nested found_none.

(** ** actions *)
(** a payload like another of the same transaction. One in short form is not reported *)
Definition repeated (l : listing) (k : payload_kind) (p : payload) : Prop :=
  exists a ty t q b sh, l = (a ++ (Listed ty t, Loads q) :: b)%list /\ form ty k sh /\ alike q p /\
    forall ty' t' q', In (Listed ty' t', Loads q') b -> exists sh', form ty' k sh'.
Definition repetition (method : string) (l : listing) (k : payload_kind) (sh : bool) (t : tree) (p : payload) (w : list complaint) : Prop :=
  (sh = false /\ repeated l k p /\ w = [About 2 (kind_name k +++ " payload `" +++ q_name p +++ "` already defined for `" +++ method +++ "` method") (place t)]) \/
  (~ (sh = false /\ repeated l k p) /\ w = []).
(** methods whose responses have no body *)
Definition unwelcome (method : string) (k : payload_kind) (p : payload) (what : string) : Prop :=
  k = Response_ /\ q_body p <> "" /\
  ((method = "HEAD" /\ what = "HEAD") \/ (method = "CONNECT" /\ exists n, status (q_name p) n /\ (200 <= n < 300)%N /\ what = decimal n +++ " CONNECT")).
Definition body_check (method : string) (k : payload_kind) (t : tree) (p : payload) (w : list complaint) : Prop :=
  (exists what, unwelcome method k p what /\ w = [About 6 ("the response for " +++ what +++ " request MUST NOT include a message-body") (place t)]) \/
  ((forall what, ~ unwelcome method k p what) /\ w = []).
Definition payload_reads (T : table) (method : string) (l : listing) (ty : section_type) (t : tree) (p : payload) (w : list complaint) : Prop :=
  exists k sh w1 w2 w3, form ty k sh /\ k <> Model_ /\ item_says_ T k sh t p w1 /\ repetition method l k sh t p w2 /\ body_check method k t p w3 /\ w = (w1 ++ w2 ++ w3)%list.
Definition headers_read (l : listing) (t : tree) (hs : list header) (w : list complaint) : Prop :=
  exists hs0 w1, headers_so_far l hs0 /\ headers_item source index Top_ t hs0 hs w1 /\ w = (w1 ++ [deprecated t])%list.
Definition text_read (kinds : section_type -> Prop) (l : listing) (t : tree) (s : string) (w : list complaint) : Prop :=
  exists ty k sh, behind_item l ty /\ kinds ty /\ form ty k sh /\ dangling_block source (if sh then Short_ else Deep_) t s w.
Definition misplaced (t : tree) (w : list complaint) : Prop :=
  let say name := [About 5 ("Ignoring " +++ name +++ " list item, " +++ name +++ " list item is expected to be indented by 4 spaces or 1 tab") (place t)] in
  (item_says reads_body t /\ w = say "message-body") \/ (item_says reads_schema t /\ w = say "message-schema") \/
  (~ item_says reads_body t /\ ~ item_says reads_schema t /\ ignored t w).
Definition action_reads (T : table) (method : string) (l : listing) (x : part) (r : reading) (w : list complaint) : Prop :=
  match x with
  | Listed ty t =>
    (a_payload ty /\ exists p, r = Loads p /\ payload_reads T method l ty t p w) \/
    (ty = HeadersSection /\ exists hs, r = Heads hs /\ headers_read l t hs w) \/
    (~ a_payload ty /\ ty <> HeadersSection /\ r = Nothing_ /\ w = [])
  | Dangling t => exists s, r = Adds s /\ text_read a_payload l t s w
  | Ignored t => r = Nothing_ /\ misplaced t w
  | _ => False
  end.
(** one part after the other *)
Inductive read_through (step : listing -> part -> reading -> list complaint -> Prop) : listing -> listing -> list complaint -> Prop :=
| through_end : forall l, read_through step l [] []
| through_more : forall l x r rest w v, step l x r w -> read_through step (l ++ [(x, r)])%list rest v -> read_through step l ((x, r) :: rest) (w ++ v).
(** an action should end in a response *)
Definition missing_response (t : tree) (ex : list (list loaded * list loaded)) (w : list complaint) : Prop :=
  (ex = [] /\ w = [About 6 "action is missing a response" (place t)]) \/
  (exists a q l, ex = (a ++ [(q ++ [l], [])])%list /\ exists who,
    ((q_name (l_payload l) = "" /\ who = "a request") \/ (q_name (l_payload l) <> "" /\ who = "the '" +++ q_name (l_payload l) +++ "' request")) /\
    w = [About 6 ("action is missing a response for " +++ who) (place t)]) \/
  (exists a q r l, ex = (a ++ [(q, r ++ [l])])%list /\ w = []).
Definition action_says (T : table) (ps : list part) (a : action) (w : list complaint) : Prop :=
  exists h d l ex hs name method uri w1 w2,
    ps = (Head h :: map Text d ++ map fst l)%list /\ action_signature h = (name, method, uri) /\ read_through (action_reads T method) [] l w1 /\
    headers_so_far l hs /\ exchanges l ex /\ missing_response h ex w2 /\
    a = Action name method uri [] (on_payloads (fun y => headed hs (complete y)) ex) /\ w = (w1 ++ w2)%list.

(** ** resources *)
(** the last model, with the texts behind it *)
Definition no_model (l : listing) : Prop := forall x p, ~ In (x, Loads p) l.
Definition added (l : listing) : string := sconcat (flat_map (fun x => match snd x with Adds s => [s] | _ => [] end) l).
Definition model_so_far (l : listing) (m : payload) : Prop :=
  exists a x p b, l = (a ++ (x, Loads p) :: b)%list /\ no_model b /\ m = set_body (q_body p +++ added b) p.
(** a model without a name has that of the resource *)
Definition model_named (name : string) (p0 p : payload) : Prop := (q_name p0 <> "" /\ p = p0) \/ (q_name p0 = "" /\ p = set_name name p0).
Definition second_model (name uri : string) (l : listing) (t : tree) (ev : list event) : Prop :=
  (exists m, model_so_far l m /\ q_name m <> "" /\ exists who, ((name = "" /\ who = uri) \/ (name <> "" /\ who = name +++ "(" +++ uri +++ ")")) /\
    ev = [Warns (About 2 ("overshadowing previous model definition for '" +++ who +++ "' resource, a resource can be represented by a single model only") (place t))]) \/
  ((forall m, model_so_far l m -> q_name m = "") /\ ev = []).
Definition nameless (uri : string) (t : tree) (p : payload) (ev : list event) : Prop :=
  (q_name p = "" /\ ev = [Fails ("resource model can be specified only for a named resource, name your resource, e.g. '# <resource name> [" +++ uri +++ "]'") (place t)]) \/
  (q_name p <> "" /\ ev = []).
(** a name can be defined once *)
Definition defines (T : table) (t : tree) (p : payload) (T' : table) (ev : list event) : Prop :=
  (T (q_name p) <> None /\ T' = T /\ ev = [Fails ("symbol '" +++ q_name p +++ "' already defined") (place t)]) \/
  (T (q_name p) = None /\ T' (q_name p) = Some p /\ (forall i, i <> q_name p -> T' i = T i) /\ ev = []).
Definition model_reads (T : table) (name uri : string) (l : listing) (ty : section_type) (t : tree) (p : payload) (T' : table) (ev : list event) : Prop :=
  exists sh p0 w ev1 ev2 ev3, form ty Model_ sh /\ item_says_ T Model_ sh t p0 w /\ model_named name p0 p /\
    second_model name uri l t ev1 /\ nameless uri t p ev2 /\ defines T t p T' ev3 /\ ev = (map Warns w ++ ev1 ++ ev2 ++ ev3)%list.
Definition repeated_action (uri : string) (l : listing) (h : tree) (a : action) (w : list complaint) : Prop :=
  let known := exists x b, In (x, Acts b) l /\ a_uri b = a_uri a /\ a_method b = a_method a in
  (known /\ w = [About 2 ("action with method '" +++ a_method a +++ "' already defined for resource '" +++ uri +++ "'") (place h)]) \/ (~ known /\ w = []).
Definition resource_reads (name uri : string) (T : table) (l : listing) (x : part) (r : reading) (T' : table) (ev : list event) : Prop :=
  match x with
  | Listed ty t =>
    (a_model ty /\ exists p, r = Loads p /\ model_reads T name uri l ty t p T' ev) \/
    (ty = HeadersSection /\ exists hs w, r = Heads hs /\ T' = T /\ headers_read l t hs w /\ ev = map Warns w) \/
    (~ a_model ty /\ ty <> HeadersSection /\ r = Nothing_ /\ T' = T /\ ev = [])
  | Sub (Sec _ ps _) => exists h a w1 w2, r = Acts a /\ T' = T /\ first_is (fun u => u = h) (nodes_of ps) /\ action_says T ps a w1 /\ repeated_action uri l h a w2 /\ ev = map Warns (w1 ++ w2)
  | Dangling t => exists s m w, r = Adds s /\ text_read a_model l t s w /\ model_so_far l m /\ ev = map Warns w /\
      (* the entry of this name gets the body; if the model's name was defined before, this is another model *)
      T' (q_name m) = match T (q_name m) with Some e => Some (set_body (q_body m +++ s) e) | None => None end /\ (forall i, i <> q_name m -> T' i = T i)
  | Ignored t => exists w, r = Nothing_ /\ T' = T /\ ignored t w /\ ev = map Warns w
  | _ => False
  end.
Inductive go_through (name uri : string) : table -> listing -> listing -> table -> list event -> Prop :=
| go_end : forall T l, go_through name uri T l [] T []
| go_more : forall T l x r T1 rest T2 e f, resource_reads name uri T l x r T1 e -> go_through name uri T1 (l ++ [(x, r)])%list rest T2 f -> go_through name uri T l ((x, r) :: rest) T2 (e ++ f).
Definition actions_of (l : listing) : list action := flat_map (fun x => match snd x with Acts a => [a] | _ => [] end) l.
Definition headed_action (hs : list header) (a : action) : action := Action (a_name a) (a_method a) (a_uri a) (a_headers a) (on_payloads (headed hs) (a_examples a)).
Definition resource_says (T : table) (ps : list part) (r : resource) (T' : table) (ev : list event) : Prop :=
  (exists k qs ex h a w name uri, ps = [Sub (Sec k qs ex)] /\ first_is (fun u => u = h) (nodes_of qs) /\ resource_header h = (name, uri) /\ action_says T qs a w /\ T' = T /\
    r = Resource name uri empty_payload [] [a] /\ ev = map Warns w) \/
  (exists h d l hs name uri m, ps = (Head h :: map Text d ++ map fst l)%list /\ resource_header h = (name, uri) /\ go_through name uri T [] l T' ev /\ headers_so_far l hs /\
    (model_so_far l m \/ (no_model l /\ m = empty_payload)) /\ r = Resource name uri m [] (map (headed_action hs) (actions_of l))).
(** a path that has been used *)
Definition repeated_resource (before_ : list resource) (r : resource) (h : tree) (w : list complaint) : Prop :=
  ((exists q, In q before_ /\ e_uri q = e_uri r) /\ w = [About 2 ("the resource '" +++ e_uri r +++ "' is already defined") (place h)]) \/
  ((forall q, In q before_ -> e_uri q <> e_uri r) /\ w = []).
Inductive resources_say : list resource -> table -> list (list part) -> list resource -> table -> list event -> Prop :=
| resources_end : forall b T, resources_say b T [] [] T []
| resources_more : forall b T ps l r rs h T1 T2 e w f, resource_says T ps r T1 e -> first_is (fun u => u = h) (nodes_of ps) -> repeated_resource b r h w ->
    resources_say (b ++ [r])%list T1 l rs T2 f -> resources_say b T (ps :: l) (r :: rs) T2 (e ++ map Warns w ++ f).

(** ** when all is read: references to models that came later *)
Definition waits (p : payload) : Prop := r_id (q_reference p) <> "" /\ r_state (q_reference p) = Pending.
Definition settled (T : table) (k : payload_kind) (p p' : payload) (ev : list event) : Prop :=
  (~ waits p /\ p' = p /\ ev = []) \/
  (waits p /\ exists q id c, place q = r_place (q_reference p) /\ id = r_id (q_reference p) /\ checked found_none k q p' c /\
    ((T id = None /\ p' = set_reference (Ref id Unresolved (place q)) p /\ ev = Fails ("Undefined resource model " +++ id) (place q) :: map Warns c) \/
     (exists m w, T id = Some m /\ from_model "section" q id m p p' w /\ ev = map Warns (w ++ c)))).
Inductive each_of {A} (step : A -> A -> list event -> Prop) : list A -> list A -> list event -> Prop :=
| each_end : each_of step [] [] []
| each_more : forall x y l r e f, step x y e -> each_of step l r f -> each_of step (x :: l) (y :: r) (e ++ f).
Definition settled_example (T : table) (x y : list payload * list payload) (ev : list event) : Prop :=
  exists e f, each_of (settled T Request_) (fst x) (fst y) e /\ each_of (settled T Response_) (snd x) (snd y) f /\ ev = (e ++ f)%list.
Definition settled_action (T : table) (a b : action) (ev : list event) : Prop :=
  exists l, each_of (settled_example T) (a_examples a) l ev /\ b = Action (a_name a) (a_method a) (a_uri a) (a_headers a) l.
Definition settled_resource (T : table) (r q : resource) (ev : list event) : Prop :=
  exists l, each_of (settled_action T) (e_actions r) l ev /\ q = Resource (e_name r) (e_uri r) (e_model r) (e_headers r) l.

(** ** the document *)
Definition resources_in (ps : list part) : list (list part) :=
  flat_map (fun x => match x with
    | Sub (Sec ResourceSection l _) => [l]
    | Sub (Sec ResourceGroupSection l _) => flat_map (fun y => match y with Sub (Sec ResourceSection k _) => [k] | _ => [] end) l
    | _ => []
    end) ps.
Definition document_says (ps : list part) (rs : list resource) (T : table) (ev : list event) : Prop :=
  exists rs0 e f, resources_say [] (fun _ => None) (resources_in ps) rs0 T e /\ each_of (settled_resource T) rs0 rs f /\ ev = (e ++ f)%list.
End Says.

(** ** what is assumed of a node of the document *)
Definition node_fits (source : string) (t : tree) : Prop :=
  inside_source source t /\
  (item_says reads_request t \/ item_says reads_response t \/ item_says reads_model t -> shown_lines source t /\ long_enough source t /\ no_blank_reference t) /\
  (item_says reads_headers t -> match t with Tree _ _ _ _ ds => forall d r, In d ds -> In r (place d) -> exists line, HeadersSpec.shows source r line end) /\
  (a_text t -> ~ writes source t "" /\ ~ writes source t (String "010" "")).
