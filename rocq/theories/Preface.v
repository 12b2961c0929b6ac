(** Model of packages/apib-parser/src/snowcrash/BlueprintParser.h:36-158, 281-315, 535-618 and ResourceGroupParser.h:33-178, 280-320: what the document itself gets (metadata,
    name, description, its elements) and what its groups get (name, descriptions, resources), with the warnings these two processors give. Which node belongs to which
    section is given by the outline (Sections.v). Left out: everything read by the parsers of resources and of data structures with their reports (of a resource only
    the path is kept), resources with the same path (Transactions.v), references (checkLazyReferencing), named types looked up ahead (Lookahead.v), source maps of the result. *)
From Verif Require Import Base StringUtility Regex ByteBuffer Markdown MarkdownSpec Source Headers Keywords Sections Payloads Transactions.
Local Open Scope string_scope.

(** Blueprint.h: Metadata; Element: a text, a resource (its path), a group of resources, a group of data structures *)
Definition metadata_pair : Type := string * string.
Inductive element : Type := Copy (text : string) | Held (uri : string) | Grouped (name : string) (l : list element) | Structures.
Record preface : Type := Preface { f_metadata : list metadata_pair; f_name : string; f_description : string; f_elements : list element }.
Definition no_preface : preface := Preface [] "" "" [].
(** SourceAnnotation.h:107, 123-125 *)
Definition BusinessError : N := 2%N.
Definition APINameWarning : N := 1%N.
Definition FormattingWarning : N := 3%N.

(** ** metadata *)
(** CodeBlockUtility.h:174-186 keyValueFromLine *)
Definition pair_of (line : string) : list metadata_pair :=
  match split_on_first line ":" with
  | [k; v] => if (negb (String.eqb (trim k) "") && negb (String.eqb (trim v) ""))%bool then [(trim k, trim v)] else []
  | _ => []
  end.

Section Parser.
Context (source : string) (index : list N).

(** BlueprintParser.h:559-590; [known]: duplicateKeys *)
Fixpoint duplicates (t : tree) (l : list metadata_pair) (known : list string) (w : report) : outcome report :=
  match l with
  | [] => Val w
  | (k, _) :: r =>
    if (existsb (fun p => String.eqb (fst p) k) r && negb (existsb (String.eqb k) known))%bool
    then andthen (warn index DuplicateWarning ("duplicate definition of '" +++ k +++ "'") (t_map t) w) (fun w => duplicates t r (known ++ [k])%list w)
    else duplicates t r known w
  end.
(** 535-602 parseMetadata *)
Definition parse_metadata (t : tree) (w : report) : outcome (list metadata_pair * report) :=
  let lines := split (trim_end (t_text t)) LF in
  let pairs := flat_map pair_of lines in
  if Nat.eqb (List.length lines) (List.length pairs) then andthen (duplicates t pairs [] w) (fun w => Val (pairs, w))
  else match pairs with
       | [] => Val ([], w)
       | _ => andthen (warn index FormattingWarning "ignoring possible metadata, expected '<key> : <value>', one one per line" (t_map t) w) (fun w => Val (pairs, w))
       end.

(** SectionProcessor.h:150-170 processDescription *)
Definition add_description (t : tree) (d : string) : outcome string :=
  andthen (if String.eqb d "" then Val "" else two_new_lines d) (fun d =>
  andthen (map_ranges (t_map t) source) (fun c => Val (d +++ trim c))).

(** ** groups *)
(** ResourceGroupParser.h:44-49 *)
Definition group_title (t : tree) : string := match regex_capture (t_text t) GroupHeaderRegex 3 with Some g => trim (nth 1 g "") | None => "" end.
(** 63-98 processDescription: the text is added to the last element, or to a new one *)
Definition add_copy (t : tree) (l : list element) : outcome (list element) :=
  match last l (Held "") with
  | Copy d => andthen (add_description t d) (fun d => Val (removelast l ++ [Copy d])%list)
  | _ => andthen (add_description t "") (fun d => Val (l ++ [Copy d])%list)
  end.
(** the path of a resource: ResourceParser.h:52-68; of its only action, if the header is that of an action too *)
Definition resource_path (l : list part) : string :=
  match l with Head t :: _ => snd (resource_header t) | Sub (Sec _ (Head t :: _) _) :: _ => snd (resource_header t) | _ => "" end.
(** 280-292 isResourcePresent. It is true if there is no resource *)
Definition is_resource_present (l : list element) : bool := negb (existsb (fun e => match e with Held _ => true | _ => false end) l).
(** 299-311 lastResource; its path *)
Definition last_resource (l : list element) : string := fold_left (fun u e => match e with Held u => u | _ => u end) l "".
(** 149-178 processUnexpectedNode *)
Definition group_skip (t : tree) (l : list element) (w : report) : outcome report :=
  if (match action_type_of t with DependentAction => true | _ => false end && is_resource_present l)%bool
  then warn index IgnoringWarning ("unexpected action '" +++ snd (fst (action_signature t)) +++ "', to define multiple actions for the '" +++ last_resource l +++
         "' resource omit the HTTP method in its definition, e.g. '# /resource'") (t_map t) w
  else unexpected index t w.
(** 33-178 *)
Definition group_step (x : part) (name : string) (l : list element) (w : report) : outcome (string * list element * report) :=
  match x with
  | Head t => Val (group_title t, l, w)
  | Text t => andthen (add_copy t l) (fun l => Val (name, l, w))
  | Sub (Sec ResourceSection qs _) => Val (name, l ++ [Held (resource_path qs)], w)%list
  | Ignored t => andthen (group_skip t l w) (fun w => Val (name, l, w))
  | _ => Val (name, l, w)
  end.
Fixpoint group_steps (l : list part) (name : string) (es : list element) (w : report) : outcome (string * list element * report) :=
  match l with [] => Val (name, es, w) | x :: r => andthen (group_step x name es w) (fun '(name, es, w) => group_steps r name es w) end.

(** ** the document *)
(** BlueprintParser.h:610-618 isResourceGroupDuplicate *)
Definition group_known (l : list element) (name : string) : bool := existsb (fun e => match e with Grouped n _ => String.eqb n name | _ => false end) l.
Definition with_elements (l : list element) (f : preface) : preface := Preface (f_metadata f) (f_name f) (f_description f) l.
(** 36-158. A section's first node *)
Definition first_map (l : list part) : list range := match l with Head t :: _ => t_map t | _ => [] end.
(** What is ignored here stands in a group without header behind a resource ([is_resource_present] is false), or in no group *)
Definition preface_step (x : part) (f : preface) (w : report) : outcome (preface * report) :=
  match x with
  | Meta t => andthen (parse_metadata t w) (fun '(l, w) => Val (Preface (f_metadata f ++ l)%list (f_name f) (f_description f) (f_elements f), w))
  | Head t => Val (Preface (f_metadata f) (trim (t_text t)) (f_description f) (f_elements f), w)
  | Text t => andthen (add_description t (f_description f)) (fun d => Val (Preface (f_metadata f) (f_name f) d (f_elements f), w))
  | Sub (Sec ResourceSection qs _) => Val (with_elements (f_elements f ++ [Held (resource_path qs)])%list f, w)
  | Sub (Sec ResourceGroupSection qs _) =>
    andthen (group_steps qs "" [] w) (fun '(name, es, w) =>
    andthen (if group_known (f_elements f) name
             then warn index DuplicateWarning ((if String.eqb name "" then "anonymous group" else "group '" +++ name +++ "'") +++ " is already defined") (first_map qs) w
             else Val w) (fun w => Val (with_elements (f_elements f ++ [Grouped name es])%list f, w)))
  | Sub (Sec DataStructureGroupSection _ _) => Val (with_elements (f_elements f ++ [Structures])%list f, w)
  | Ignored t => andthen (unexpected index t w) (fun w => Val (f, w))
  | _ => Val (f, w)
  end.
Fixpoint preface_steps (l : list part) (f : preface) (w : report) : outcome (preface * report) :=
  match l with [] => Val (f, w) | x :: r => andthen (preface_step x f w) (fun '(f, w) => preface_steps r f w) end.
Definition ExpectedAPINameMessage := "expected API name, e.g. '# <API Name>'".
(** 281-308 finalize; [required]: RequireBlueprintNameOption, [t]: the first node *)
Definition preface_finalize (required : bool) (t : tree) (f : preface) (w : report) : outcome (option annotation * report) :=
  if String.eqb (f_name f) "" then
    if required then andthen (index_set_to_characters (t_map t) index) (fun loc => Val (Some (An loc BusinessError ExpectedAPINameMessage), w))
    else if negb (String.eqb (f_description f) "") then andthen (warn index APINameWarning ExpectedAPINameMessage (t_map t) w) (fun w => Val (None, w))
    else Val (None, w)
  else Val (None, w).
(** SectionParser.h:32-93 parse: without nodes it ends before finalize. [nodes]: the children of the root, [ps]: the outline's parts. The error is that of finalize *)
Definition read_preface (required : bool) (nodes : list tree) (ps : list part) : outcome (preface * option annotation * report) :=
  match nodes with
  | [] => Val (no_preface, None, [])
  | t :: _ => andthen (preface_steps ps no_preface []) (fun '(f, w) => andthen (preface_finalize required t f w) (fun '(e, w) => Val (f, e, w)))
  end.
End Parser.
