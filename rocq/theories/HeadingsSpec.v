(** Specification for C89: the headers of resources and actions. Methods, paths and names are those of KeywordsSpec *)
From Verif Require Import Base StringSpec ByteBuffer Markdown MarkdownSpec Keywords KeywordsSpec.
From Verif Require PayloadsSpec.
Import PayloadsSpec(trims, lines, the_text).
Local Open Scope string_scope.

(** ** resources: a path; a method and a path; a name and in brackets a path, or a method and a path. The path goes on to the end (of the brackets) *)
Inductive resource_heading : string -> string -> string -> Prop :=
| heading_path : forall l u, blanks l -> path u -> resource_heading (l +++ u) "" u
| heading_method : forall l m c b u, blanks l -> In m methods -> blank_char c -> blanks b -> path u -> resource_heading (l +++ m +++ String c b +++ u) "" u
| heading_named : forall n c u name, no_brackets n -> n <> "" -> blank_char c -> path u -> trims n name ->
    ~ reads_path (n +++ String c ("[" +++ u +++ "]")) -> ~ reads_method_path (n +++ String c ("[" +++ u +++ "]")) -> resource_heading (n +++ String c ("[" +++ u +++ "]")) name u
| heading_endpoint : forall n c m d b u name, no_brackets n -> n <> "" -> blank_char c -> In m methods -> blank_char d -> blanks b -> path u -> trims n name ->
    ~ reads_path (n +++ String c ("[" +++ m +++ String d b +++ u +++ "]")) -> ~ reads_method_path (n +++ String c ("[" +++ m +++ String d b +++ u +++ "]")) ->
    resource_heading (n +++ String c ("[" +++ m +++ String d b +++ u +++ "]")) name u.
(** ** actions: a method, perhaps with a path, which is not kept; or a name and such in brackets: then the path is. The last brackets are meant *)
Inductive action_heading (s : string) : string -> string -> string -> Prop :=
| heading_plain : forall l m b x, s = l +++ m +++ b +++ x -> blanks l -> In m methods -> blanks b -> x = "" \/ path x -> action_heading s "" m ""
| heading_action : forall n m b u name, s = n +++ "[" +++ m +++ b +++ u +++ "]" -> n <> "" -> In m methods -> blanks b -> u = "" \/ path u -> trims n name ->
    ~ word_then methods (maybe path) s -> (forall n' x', s = n' +++ "[" +++ x' +++ "]" -> method_then (maybe path) x' -> String.length n' <= String.length n) -> action_heading s name m u.
(** the text of a header up to a null char; of an action, its first line without the white space around it *)
Definition text_of_resource (t : tree) (s : string) : Prop := before "000" (the_text t) s.
Definition text_of_action (t : tree) (s : string) : Prop := exists first rest u, lines (the_text t) first rest /\ trims first u /\ before "000" u s.
