(** Model of packages/apib-parser/src/snowcrash/RelationParser.h:18-84, and of what ResourceParser.h and ActionParser.h do with descriptions (SectionProcessor.h:150-170, called from
    SectionParser.h:66-72) and relations (ActionParser.h:105-108), on the outline of the document (Sections.v). With Transactions.v (names, paths, headers, transactions, models), which
    leaves these out, and C80, C81 (attributes, parameters) this is all a resource or an action gets. Of the warnings only those about relations are given here; source maps are left out. *)
From Verif Require Import Base StringUtility Regex ByteBuffer Markdown MarkdownSpec Source Keywords Sections Payloads Transactions Preface.
Local Open Scope string_scope.

(** RelationParser.h:15-22 *)
Definition RelationIdentifierRegex := "^[[:blank:]]*[Rr]elation[[:blank:]]*:[[:blank:]]*([a-z][a-z0-9.-]*)?[[:blank:]]*$".
Definition relation_message := "relation identifier contains illegal characters (only lower case letters, numbers, '-' and '.' allowed)".
(** 41-42, 44-46: the first line; nothing if it is no relation *)
Definition relation_of (x : string) : option string := match regex_capture (line_of x) RelationIdentifierRegex 3 with Some g => Some (trim (nth 1 g "")) | None => None end.

(** Blueprint.h: Action::description, relation; Resource::description, actions *)
Record action_words : Type := ActionWords { i_description : string; i_relation : string }.
Record resource_words : Type := ResourceWords { j_description : string; j_actions : list action_words }.

Section Parser.
Context (source : string) (index : list N).
(** RelationParser.h:32-65, SectionParser.h:32-93: no nested section is known (SectionProcessor.h:188-200), the other nodes are unexpected. [old]: the relation so far, which is left if there is an error *)
Definition parse_relation (item : tree) (old : string) (w : report) : outcome (string * report) :=
  andthen (starting item) (fun l =>
  match l with
  | [] => ByteBuffer.Wild
  | t :: r =>
    andthen (match relation_of (t_text t) with
             | Some rel => Val (rel, w)
             | None => andthen (warn index FormattingWarning relation_message (t_map t) w) (fun w => Val (old, w))
             end) (fun '(rel, w) => andthen (skip_all index r w) (fun w => Val (rel, w)))
  end).
(** ActionParser.h:105-108; a description: SectionProcessor.h:150-170 *)
Definition action_word (x : part) (a : action_words) (w : report) : outcome (action_words * report) :=
  match x with
  | Text t => andthen (add_description source t (i_description a)) (fun d => Val (ActionWords d (i_relation a), w))
  | Listed RelationSection t => andthen (parse_relation t (i_relation a) w) (fun '(rel, w) => Val (ActionWords (i_description a) rel, w))
  | _ => Val (a, w)
  end.
Fixpoint action_wording (l : list part) (a : action_words) (w : report) : outcome (action_words * report) :=
  match l with [] => Val (a, w) | x :: l => andthen (action_word x a w) (fun '(a, w) => action_wording l a w) end.
(** BlueprintUtility.h:108-113, ActionParser.h:523-528: is there an action with this relation? An empty one is never the same *)
Definition relation_known (l : list action_words) (rel : string) : bool :=
  existsb (fun a => negb (String.eqb (i_relation a) "") && negb (String.eqb rel "") && String.eqb (i_relation a) rel)%bool l.
(** ResourceParser.h:84-130, 331-400: an action, nested or of an endpoint, is added. In the endpoint no relation is looked for, but there is no other action. [uri]: the path of the resource *)
Definition resource_word (uri : string) (x : part) (r : resource_words) (w : report) : outcome (resource_words * report) :=
  match x with
  | Text t => andthen (add_description source t (j_description r)) (fun d => Val (ResourceWords d (j_actions r), w))
  | Sub (Sec _ l _) => andthen (action_wording l (ActionWords "" "") w) (fun '(a, w) =>
      andthen (if relation_known (j_actions r) (i_relation a)
               then warn index DuplicateWarning ("relation identifier '" +++ i_relation a +++ "' already defined for resource '" +++ uri +++ "'") (first_map l) w
               else Val w) (fun w => Val (ResourceWords (j_description r) (j_actions r ++ [a])%list, w)))
  | _ => Val (r, w)
  end.
Fixpoint resource_wording (uri : string) (l : list part) (r : resource_words) (w : report) : outcome (resource_words * report) :=
  match l with [] => Val (r, w) | x :: l => andthen (resource_word uri x r w) (fun '(r, w) => resource_wording uri l r w) end.
(** BlueprintParser.h:102-115, ResourceGroupParser.h:100-147: the resources in order, of groups or not (Transactions.v) *)
Fixpoint wordings (l : list (list part)) (w : report) : outcome (list resource_words * report) :=
  match l with
  | [] => Val ([], w)
  | x :: l => andthen (resource_wording (resource_path x) x (ResourceWords "" []) w) (fun '(r, w) => andthen (wordings l w) (fun '(rs, w) => Val (r :: rs, w)))
  end.
Definition read_words (ps : list part) : outcome (list resource_words * report) := wordings (flat_map resource_of ps) [].
End Parser.
