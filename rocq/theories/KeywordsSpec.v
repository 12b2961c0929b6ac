(** Specification for C75: the keywords of sections, described without regular expressions *)
From Verif Require Import Base StringSpec ByteBuffer Markdown MarkdownSpec.
Local Open Scope string_scope.

(** blanks and tabs *)
Definition blank_char (c : ascii) : Prop := c = " "%char \/ c = "009"%char.
Definition blanks (s : string) : Prop := all blank_char s.
Definition no_brackets (s : string) : Prop := all (fun c => ~ In c ["["; "]"; "("; ")"]%char) s.
(** what stands before the first [d], or everything *)
Definition before (d : ascii) (s l : string) : Prop := (~ has d s /\ l = s) \/ exists r, s = l +++ String d r /\ ~ has d l.

(** one of the words in front, behind blanks; what follows it *)
Definition word_then (words : list string) (rest : string -> Prop) (s : string) : Prop :=
  exists l w t, s = l +++ w +++ t /\ blanks l /\ In w words /\ rest t.
Definition anything_else (t : string) : Prop := True.
(** blanks, then nothing or an expression that starts with [c] *)
Definition maybe (rest : string -> Prop) (t : string) : Prop := exists b x, t = b +++ x /\ blanks b /\ (x = "" \/ rest x).
Definition starting (c : ascii) (x : string) : Prop := exists y, x = String c y.
Definition in_parentheses (x : string) : Prop := exists y, x = "(" +++ y +++ ")".
(** at least one blank, then *)
Definition gap_then (rest : string -> Prop) (t : string) : Prop := exists b c x, t = String c (b +++ x) /\ blank_char c /\ blanks b /\ rest x.

(** ** keywords in list items *)
Definition reads_headers := word_then ["Headers"; "headers"; "Header"; "header"] blanks.
Definition reads_body := word_then ["Body"; "body"] blanks.
Definition reads_schema := word_then ["Schema"; "schema"] blanks.
Definition reads_parameters := word_then ["Parameters"; "parameters"; "Parameter"; "parameter"] blanks.
Definition reads_values := word_then ["Values"; "values"] blanks.
Definition reads_members := word_then ["Items"; "items"; "Members"; "members"] blanks.
Definition reads_properties := word_then ["Properties"; "properties"] blanks.
Definition reads_attributes := word_then ["Attributes"; "attributes"; "Attribute"; "attribute"] (maybe in_parentheses).
Definition reads_default := word_then ["Default"; "default"] (maybe (starting ":")).
Definition reads_sample := word_then ["Sample"; "sample"] (maybe (starting ":")).
Definition reads_include := word_then ["Include"; "include"] (gap_then anything_else).
Definition reads_one_of := word_then ["One"; "one"] (gap_then (fun t => exists w r, t = w +++ r /\ In w ["Of"; "of"] /\ blanks r)).
Definition reads_relation := word_then ["Relation"; "relation"] (fun t => exists b x, t = b +++ String ":" x /\ blanks b).
(** any text that begins so, whatever follows *)
Definition reads_request := word_then ["Request"; "request"] anything_else.
Definition reads_response := word_then ["Response"; "response"] anything_else.
(** a name without brackets, separated by a blank; the word; perhaps a media type in parentheses *)
Definition media (t : string) : Prop := exists x y, t = "(" +++ x +++ ")" +++ y /\ all (fun c => c <> ")"%char /\ c <> "\"%char) x /\ blanks y.
Definition reads_model (s : string) : Prop :=
  exists p w t, s = p +++ w +++ t /\ no_brackets p /\ (p = "" \/ exists q c, p = q +++ String c "" /\ blank_char c) /\ In w ["Model"; "model"] /\ maybe media t.

(** ** keywords in headers *)
Definition methods : list string :=
  ["GET"; "POST"; "PUT"; "DELETE"; "OPTIONS"; "PATCH"; "PROPPATCH"; "LOCK"; "UNLOCK"; "COPY"; "MOVE"; "MKCOL"; "HEAD"; "LINK"; "UNLINK"; "CONNECT"].
Definition reads_data_structures := word_then ["Data"; "data"] (gap_then (fun t => exists w r, t = w +++ r /\ In w ["Structures"; "structures"; "Structure"; "structure"] /\ blanks r)).
(** a name of at least one char behind the blank *)
Definition reads_group := word_then ["Group"; "group"] (fun t => exists c d n, t = String c (String d n) /\ blank_char c /\ no_brackets (String d n)).
(** a path, or a method and a path *)
Definition path : string -> Prop := starting "/".
Definition reads_path (s : string) : Prop := exists l t, s = l +++ t /\ blanks l /\ path t.
Definition reads_method_path := word_then methods (gap_then path).
(** a name, a blank, and in brackets ... *)
Definition named (inside : string -> Prop) (s : string) : Prop :=
  exists d n c x, s = String d n +++ String c ("[" +++ x +++ "]") /\ no_brackets (String d n) /\ blank_char c /\ inside x.
Definition method_then (rest : string -> Prop) (x : string) : Prop := exists m y, x = m +++ y /\ In m methods /\ rest y.
Definition reads_resource (s : string) : Prop := reads_path s \/ reads_method_path s \/ named path s \/ named (method_then (gap_then path)) s.
(** a method, perhaps with a path; or such in brackets, behind any text *)
Definition reads_action (s : string) : Prop :=
  word_then methods (maybe path) s \/ exists n x, s = n +++ "[" +++ x +++ "]" /\ n <> "" /\ method_then (maybe path) x.

(** ** nodes *)
(** the line a list item begins with: the first line of its first child, without the whitespace around it, as a C string *)
Definition item_says (P : string -> Prop) (t : tree) : Prop :=
  match t with
  | Tree ItemNode _ _ _ (Tree _ x _ _ _ :: _) => exists l a s b u, before "010" x l /\ trimmed a l s b /\ s <> "" /\ before "000" s u /\ P u
  | _ => False
  end.
(** ... the whole text *)
Definition item_says_whole (P : string -> Prop) (t : tree) : Prop :=
  match t with
  | Tree ItemNode _ _ _ (Tree _ x _ _ _ :: _) => exists a s b u, trimmed a x s b /\ s <> "" /\ before "000" s u /\ P u
  | _ => False
  end.
Definition header_says (P : string -> Prop) (t : tree) : Prop :=
  match t with
  | Tree HeaderNode x _ _ _ => exists l a s b u, before "010" x l /\ trimmed a l s b /\ s <> "" /\ before "000" s u /\ P u
  | _ => False
  end.
Definition header_says_whole (P : string -> Prop) (t : tree) : Prop :=
  match t with
  | Tree HeaderNode x _ _ _ => exists a s b u, trimmed a x s b /\ s <> "" /\ before "000" s u /\ P u
  | _ => False
  end.
(** list items and headers with a keyword *)
Definition keyword_item (t : tree) : Prop :=
  item_says (fun s => reads_default s \/ reads_sample s \/ reads_members s \/ reads_properties s \/ reads_one_of s \/ reads_headers s \/ reads_body s \/ reads_schema s \/
    reads_attributes s \/ reads_request s \/ reads_response s \/ reads_model s \/ reads_parameters s \/ reads_relation s) t \/
  item_says_whole (fun s => reads_include s \/ reads_values s) t.
Definition keyword_header (t : tree) : Prop :=
  header_says (fun s => reads_default s \/ reads_sample s \/ reads_members s \/ reads_properties s \/ reads_data_structures s) t \/
  header_says_whole (fun s => reads_resource s \/ reads_action s \/ reads_group s) t.
(** a header is one line *)
Definition one_line (t : tree) : Prop := match t with Tree HeaderNode x _ _ _ => ~ has "010" x | _ => True end.
(** a node that can be read in two ways: a model whose name begins with another keyword, a sample or a default value whose text
    names a resource or an action, a path with a method, which is a resource and an action *)
Definition in_brackets (s : string) : Prop := exists n x, s = n +++ "[" +++ x +++ "]" /\ n <> "" /\ method_then (maybe path) x.
Definition ambiguous (t : tree) : Prop :=
  (item_says reads_model t /\ (item_says (fun s => reads_default s \/ reads_sample s \/ reads_relation s) t \/ item_says_whole reads_include t)) \/
  header_says_whole (fun s => (reads_default s \/ reads_sample s) /\ (named path s \/ named (method_then (gap_then path)) s \/ in_brackets s)) t \/
  header_says_whole (fun s => reads_resource s /\ reads_action s) t.
