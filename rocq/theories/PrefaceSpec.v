(** Specification for C84: what a document says of itself and of its groups. Which node belongs to which section is said by C76; of Preface only the types of the result are used *)
From Verif Require Import Base StringSpec ByteBuffer ByteSpec Markdown MarkdownSpec KeywordsSpec Source Headers HeadersSpec Keywords Sections SectionsSpec Payloads PayloadsSpec Transactions Preface.
Local Open Scope string_scope.

(** ** metadata *)
(** a line "key: value": up to the first colon, and what follows; neither is white space *)
Definition pair_line (line k v : string) : Prop := exists a b, line = a +++ ":" +++ b /\ ~ has ":" a /\ trims a k /\ trims b v /\ k <> "" /\ v <> "".
(** the lines of a text; white space behind it counts for nothing *)
Definition lines_of (x : string) (ls : list string) : Prop :=
  exists y w, x = y +++ w /\ all white w /\ (forall r c, y = r +++ String c "" -> ~ white c) /\
    ((y = "" /\ ls = []) \/ exists ps last_, ls = (ps ++ [last_])%list /\ y = terminated "010" ps +++ last_ /\ last_ <> "" /\ Forall (fun l => ~ has "010" l) ls).
(** the pairs in these lines, in order *)
Inductive pairs_in : list string -> list (string * string) -> Prop :=
| pairs_none : pairs_in [] []
| pairs_more : forall line k v ls ps, pair_line line k v -> pairs_in ls ps -> pairs_in (line :: ls) ((k, v) :: ps)
| pairs_other : forall line ls ps, (forall k v, ~ pair_line line k v) -> pairs_in ls ps -> pairs_in (line :: ls) ps.
(** the keys that are there twice, where they stand first; [a]: the keys before *)
Inductive repeats : list string -> list string -> list string -> Prop :=
| repeats_none : forall a, repeats a [] []
| repeats_first : forall a k r ks, ~ In k a -> In k r -> repeats (a ++ [k])%list r ks -> repeats a (k :: r) (k :: ks)
| repeats_other : forall a k r ks, (In k a \/ ~ In k r) -> repeats (a ++ [k])%list r ks -> repeats a (k :: r) ks.
(** a paragraph of metadata. One line that is no pair, and nothing is said of keys *)
Definition metadata_says (t : tree) (pairs : list (string * string)) (w : list complaint) : Prop :=
  exists ls, lines_of (the_text t) ls /\ pairs_in ls pairs /\
    ((Forall (fun l => exists k v, pair_line l k v) ls /\ exists ks, repeats [] (map fst pairs) ks /\ w = map (fun k => About 2 ("duplicate definition of '" +++ k +++ "'") (place t)) ks) \/
     (~ Forall (fun l => exists k v, pair_line l k v) ls /\ w = [About 3 "ignoring possible metadata, expected '<key> : <value>', one one per line" (place t)])).

(** ** groups *)
(** "Group name", on the whole of the header's text *)
Definition group_words (x n : string) : Prop := exists u l w c, x <> "" /\ before "000" x u /\ u = l +++ w +++ String c n /\ blanks l /\ In w ["Group"; "group"] /\ blank_char c /\ n <> "" /\ no_brackets n.
Definition group_named (t : tree) (name : string) : Prop :=
  (exists n, group_words (the_text t) n /\ trims n name) \/ ((forall n, ~ group_words (the_text t) n) /\ name = "").
(** a resource: the path in its header, which can be that of an action too *)
Definition resource_at (qs : list part) (uri : string) : Prop :=
  exists t r, uri = snd (resource_header t) /\ (qs = Head t :: r \/ exists k ps ex, qs = Sub (Sec k (Head t :: ps) ex) :: r).
Definition has_resource (l : list element) : Prop := exists u, In (Held u) l.
(** a node of a group without effect: of an action in front of all resources there is more to say *)
Definition group_ignores (l : list element) (t : tree) (w : list complaint) : Prop :=
  (own_action t /\ ~ has_resource l /\ exists name method uri, action_signature t = (name, method, uri) /\
     w = [About 5 ("unexpected action '" +++ method +++ "', to define multiple actions for the '' resource omit the HTTP method in its definition, e.g. '# /resource'") (place t)]) \/
  (~ (own_action t /\ ~ has_resource l) /\ ignored t w).
(** [l]: the elements before *)
Inductive group_holds : list element -> list part -> list element -> list complaint -> Prop :=
| holds_none : forall l, group_holds l [] l []
| holds_resource : forall l qs ex r l' uri w, resource_at qs uri -> group_holds (l ++ [Held uri])%list r l' w -> group_holds l (Sub (Sec ResourceSection qs ex) :: r) l' w
| holds_ignored : forall l t r l' w v, group_ignores l t w -> group_holds l r l' v -> group_holds l (Ignored t :: r) l' (w ++ v).
Definition group_says (source : string) (ps : list part) (name : string) (l : list element) (w : list complaint) : Prop :=
  exists h d r, ps = (Head h :: map Text d ++ r)%list /\ group_named h name /\
    ((d = [] /\ group_holds [] r l w) \/ (d <> [] /\ exists text, description source "" d text /\ group_holds [Copy text] r l w)).

(** ** the document *)
Definition group_repeated (l : list element) (name : string) (ps : list part) (w : list complaint) : Prop :=
  ((exists es, In (Grouped name es) l) /\ exists what h r, ((name = "" /\ what = "anonymous group") \/ (name <> "" /\ what = "group '" +++ name +++ "'")) /\
     ps = Head h :: r /\ w = [About 2 (what +++ " is already defined") (place h)]) \/
  ((forall es, ~ In (Grouped name es) l) /\ w = []).
Inductive document_holds (source : string) : list element -> list part -> list element -> list complaint -> Prop :=
| document_none : forall l, document_holds source l [] l []
| document_resource : forall l qs ex r l' uri w, resource_at qs uri -> document_holds source (l ++ [Held uri])%list r l' w -> document_holds source l (Sub (Sec ResourceSection qs ex) :: r) l' w
| document_group : forall l qs ex r l' name es w1 w2 w, group_says source qs name es w1 -> group_repeated l name qs w2 -> document_holds source (l ++ [Grouped name es])%list r l' w ->
    document_holds source l (Sub (Sec ResourceGroupSection qs ex) :: r) l' (w1 ++ w2 ++ w)
| document_structures : forall l qs ex r l' w, document_holds source (l ++ [Structures])%list r l' w -> document_holds source l (Sub (Sec DataStructureGroupSection qs ex) :: r) l' w
| document_ignored : forall l t r l' w v, ignored t w -> document_holds source l r l' v -> document_holds source l (Ignored t :: r) l' (w ++ v).
(** the name is the header behind the metadata; a block in its place belongs to the description *)
Definition named_by_header (o : list part) (name : string) (texts : list tree) : Prop :=
  (o = [] /\ name = "" /\ texts = []) \/ (exists h, o = [Head h] /\ trims (the_text h) name /\ texts = []) \/ (exists t, o = [Text t] /\ name = "" /\ texts = [t]).
Definition name_expected : string := "expected API name, e.g. '# <API Name>'".
(** a document with a description should have a name; if names are required, every document *)
Definition name_missing (required : bool) (nodes : list tree) (f : preface) (e : option (list range)) (w : list complaint) : Prop :=
  exists t, first_is (fun u => u = t) nodes /\
    ((f_name f <> "" /\ e = None /\ w = []) \/
     (f_name f = "" /\ required = true /\ e = Some (place t) /\ w = []) \/
     (f_name f = "" /\ required = false /\ f_description f <> "" /\ e = None /\ w = [About 1 name_expected (place t)]) \/
     (f_name f = "" /\ required = false /\ f_description f = "" /\ e = None /\ w = [])).
(** [e]: where the error is, if there is one *)
Definition preface_says (source : string) (required : bool) (nodes : list tree) (ps : list part) (f : preface) (e : option (list range)) (w : list complaint) : Prop :=
  (nodes = [] /\ f = Preface [] "" "" [] /\ e = None /\ w = []) \/
  (exists m o d r ms texts w1 w2 w3, ps = (map Meta m ++ o ++ map Text d ++ r)%list /\ in_turn metadata_says m ms w1 /\ f_metadata f = concat ms /\
    named_by_header o (f_name f) texts /\ description source "" (texts ++ d)%list (f_description f) /\ document_holds source [] r (f_elements f) w2 /\
    name_missing required nodes f e w3 /\ w = (w1 ++ w2 ++ w3)%list).
