(** Specification for C85: descriptions and relations of resources and actions. Of Relations only the types of the result are used *)
From Verif Require Import Base StringSpec ByteBuffer ByteSpec Markdown MarkdownSpec KeywordsSpec Source Keywords Sections SectionsSpec Payloads PayloadsSpec Transactions TransactionsSpec Preface PrefaceSpec Relations.
Local Open Scope string_scope.

(** ** relations *)
(** "Relation: name"; the name may be missing. It has small letters, digits, points and dashes, and begins with a letter *)
Definition letters : string := "abcdefghijklmnopqrstuvwxyz".
Definition one_of_chars (s : string) (c : ascii) : Prop := In c (list_ascii_of_string s).
Definition relation_name (n : string) : Prop := n = "" \/ exists c m, n = String c m /\ one_of_chars letters c /\ all (one_of_chars (letters +++ "0123456789.-")) m.
Definition relation_line (x n : string) : Prop :=
  exists l w b1 b2 b3, x = l +++ w +++ b1 +++ ":" +++ b2 +++ n +++ b3 /\ blanks l /\ In w ["Relation"; "relation"] /\ blanks b1 /\ blanks b2 /\ blanks b3 /\ relation_name n.
(** the first line is the relation, everything else is ignored. If it is none, the relation of before is left *)
Definition relation_says (item : tree) (old rel : string) (w : list complaint) : Prop :=
  exists t r first rest l u w1 w2, opens item t r /\ lines (the_text t) first rest /\ trims first l /\ before "000" l u /\
    ((relation_line u rel /\ w1 = []) \/
     ((forall n, ~ relation_line u n) /\ rel = old /\ w1 = [About 3 "relation identifier contains illegal characters (only lower case letters, numbers, '-' and '.' allowed)" (place t)])) /\
    all_ignored r w2 /\ w = (w1 ++ w2)%list.

(** ** actions and resources *)
Definition a_description (x : part) : Prop := exists t, x = Text t.
Definition a_relation (x : part) : Prop := exists t, x = Listed RelationSection t.
(** one relation behind the other *)
Inductive relations_say : string -> list part -> string -> list complaint -> Prop :=
| relations_end : forall rel, relations_say rel [] rel []
| relations_more : forall a b c t r w v, relation_says t a b w -> relations_say b r c v -> relations_say a (Listed RelationSection t :: r) c (w ++ v)
| relations_skip : forall a c x r w, ~ a_relation x -> ~ a_description x -> relations_say a r c w -> relations_say a (x :: r) c w.
Definition action_tells (source : string) (ps : list part) (a : action_words) (w : list complaint) : Prop :=
  exists h d r, ps = (Head h :: map Text d ++ r)%list /\ description source "" d (i_description a) /\ relations_say "" r (i_relation a) w.
(** a relation that an action before has too *)
Definition same_relation (before_ : list action_words) (a : action_words) : Prop := i_relation a <> "" /\ exists b, In b before_ /\ i_relation b = i_relation a.
Definition repeated_relation (uri : string) (before_ : list action_words) (ps : list part) (a : action_words) (w : list complaint) : Prop :=
  (same_relation before_ a /\ exists h r, ps = Head h :: r /\ w = [About 2 ("relation identifier '" +++ i_relation a +++ "' already defined for resource '" +++ uri +++ "'") (place h)]) \/
  (~ same_relation before_ a /\ w = []).
Inductive actions_tell (source uri : string) : list action_words -> list part -> list action_words -> list complaint -> Prop :=
| actions_end : forall b, actions_tell source uri b [] [] []
| actions_more : forall b k ps ex r a l w u v, action_tells source ps a w -> repeated_relation uri b ps a u -> actions_tell source uri (b ++ [a])%list r l v ->
    actions_tell source uri b (Sub (Sec k ps ex) :: r) (a :: l) (w ++ u ++ v)
| actions_skip : forall b x r l w, (forall s, x <> Sub s) -> ~ a_description x -> actions_tell source uri b r l w -> actions_tell source uri b (x :: r) l w.
(** an endpoint is an action without words of its own *)
Definition resource_tells (source : string) (ps : list part) (r : resource_words) (w : list complaint) : Prop :=
  exists uri, resource_at ps uri /\
    ((j_description r = "" /\ actions_tell source uri [] ps (j_actions r) w) \/
     (exists h d l, ps = (Head h :: map Text d ++ l)%list /\ description source "" d (j_description r) /\ actions_tell source uri [] l (j_actions r) w)).
Inductive resources_tell (source : string) : list (list part) -> list resource_words -> list complaint -> Prop :=
| resources_done : resources_tell source [] [] []
| resources_next : forall ps l r rs w v, resource_tells source ps r w -> resources_tell source l rs v -> resources_tell source (ps :: l) (r :: rs) (w ++ v).
