(** Model of packages/apib-parser/src/markdown-parser/MarkdownNode.{h,cc} and MarkdownParser.cc: the tree built from the
    callbacks of the Markdown library (sundown, not part of the repository at this commit: what it calls is arbitrary). *)
From Verif Require Import Base ByteBuffer.
Local Open Scope N_scope.

(** MarkdownNode.h:22-36 MarkdownNodeType. The table types are never used. *)
Inductive node_type : Type := RootNode | CodeNode | QuoteNode | HtmlNode | HeaderNode | RuleNode | ItemNode | ParagraphNode.

(** MarkdownNode.h:47-103. Nodes have addresses: numbers, in the order of their creation. Nodes live in std::deque containers
    and are only ever added at their ends, so that they are never moved (MarkdownParser.cc: push_back, push_front). The node copied
    into a container has no children; the local variable it is copied from is left out. m_children is never null. *)
Definition address : Type := nat.
Record node : Type := Node { n_type : node_type; n_text : string; n_data : Z; n_map : list range; n_parent : option address; n_children : list address }.
Definition heap : Type := list node.
Definition read (h : heap) (a : address) : option node := nth_error h a.
Fixpoint write (h : heap) (a : address) (n : node) : heap :=
  match h, a with
  | [], _ => []
  | _ :: r, O => n :: r
  | x :: r, S a => x :: write r a n
  end.

(** The ways a callback ends. NoWorkingNode, Mismatch: std::logic_error; NoParent: a string literal is thrown (MarkdownNode.cc:46-58);
    OutOfRange: std::out_of_range from substr; Wild: undefined behaviour. *)
Inductive result (A : Type) : Type := Good (a : A) | NoWorkingNode | Mismatch | NoParent | OutOfRange | Wild.
Arguments Good {A} _.
Arguments NoWorkingNode {A}.
Arguments Mismatch {A}.
Arguments NoParent {A}.
Arguments OutOfRange {A}.
Arguments Wild {A}.
Definition next {A B} (x : result A) (f : A -> result B) : result B :=
  match x with Good a => f a | NoWorkingNode => NoWorkingNode | Mismatch => Mismatch | NoParent => NoParent | OutOfRange => OutOfRange | Wild => Wild end.

(** MarkdownParser.h: m_workingNode, m_listBlockContext *)
Record state : Type := St { s_heap : heap; s_working : option address; s_list : bool }.

(** a pointer read: outside of the heap nothing may be read *)
Definition deref (h : heap) (a : address) : result node := match read h a with Some n => Good n | None => Wild end.
Definition working (s : state) : result (address * node) :=
  match s_working s with None => NoWorkingNode | Some a => next (deref (s_heap s) a) (fun n => Good (a, n)) end.

Definition set_children (n : node) (l : list address) : node := Node (n_type n) (n_text n) (n_data n) (n_map n) (n_parent n) l.
Definition set_map (n : node) (m : list range) : node := Node (n_type n) (n_text n) (n_data n) m (n_parent n) (n_children n).
(** MarkdownNode node(type, m_workingNode, text, data); m_workingNode->children().push_back(node) *)
Definition add_child (t : node_type) (text : string) (data : Z) (s : state) : result (state * address) :=
  next (working s) (fun an =>
    let '(a, n) := an in
    let c := List.length (s_heap s) in
    let h := write (s_heap s) a (set_children n (n_children n ++ [c])) in
    Good (St (h ++ [Node t text data [] (Some a) []]) (s_working s) (s_list s), c)).
(** MarkdownParser.cc:97-104, 193-200, 210-217, 227-234, 244-251: renderHeader, renderBlockCode, renderParagraph, renderHorizontalRule, renderHTML *)
Definition leaf_callback (t : node_type) (text : string) (data : Z) (s : state) : result state :=
  next (add_child t text data s) (fun r => Good (fst r)).
(** MarkdownParser.cc:115-119 beginList *)
Definition begin_list (s : state) : result state := match s_working s with None => NoWorkingNode | Some _ => Good s end.
(** MarkdownParser.cc:130-133 renderList *)
Definition end_list (s : state) : result state := Good (St (s_heap s) (s_working s) true).
(** MarkdownParser.cc:144-154 beginListItem; 262-272 beginQuote *)
Definition begin_container (t : node_type) (data : Z) (s : state) : result state :=
  next (add_child t "" data s) (fun r => Good (St (s_heap (fst r)) (Some (snd r)) (s_list (fst r)))).
(** MarkdownNode.cc:46-51 parent *)
Definition parent_of (n : node) : result address := match n_parent n with Some p => Good p | None => NoParent end.
(** MarkdownParser.cc:165-187 renderListItem *)
Definition end_item (text : string) (flags : Z) (s : state) : result state :=
  next (working s) (fun an =>
    let '(a, n) := an in
    match n_type n with
    | ItemNode =>
      next (match n_children n with [] => Good true | c :: _ => next (deref (s_heap s) c) (fun x => Good (match n_type x with ParagraphNode => false | _ => true end)) end) (fun artificial =>
        let c := List.length (s_heap s) in
        let n := Node (n_type n) (n_text n) flags (n_map n) (n_parent n) (if artificial then c :: n_children n else n_children n) in
        let h := write (s_heap s) a n in
        let h := if artificial then h ++ [Node ParagraphNode text 0 [] (Some a) []] else h in
        next (parent_of n) (fun p => Good (St h (Some p) (s_list s))))
    | _ => Mismatch
    end).
(** MarkdownParser.cc:283-295 renderQuote *)
Definition end_quote (text : string) (s : state) : result state :=
  next (working s) (fun an =>
    let '(a, n) := an in
    match n_type n with
    | QuoteNode =>
      let h := write (s_heap s) a (Node (n_type n) text (n_data n) (n_map n) (n_parent n) (n_children n)) in
      next (parent_of n) (fun p => Good (St h (Some p) (s_list s)))
    | _ => Mismatch
    end).

(** MarkdownParser.cc:326-346 blockDidParse: the source map the last node is extended by. None: the event is ignored.
    [back] of an empty set is undefined behaviour. *)
Definition clip (len : N) (m : list range) : result (option (list range)) :=
  match rev m with
  | [] => Wild
  | b :: r =>
    if len <? wadd (location b) (length b) then
      let n := wsub len (location b) in
      if n =? 0 then Good None else Good (Some (rev r ++ [R (location b) n]))
    else Good (Some m)
  end.
(** MarkdownParser.cc:353-366 the source map of the artificial paragraph *)
Definition lift {A} (o : outcome A) : result A := match o with Val a => Good a | Thrown => OutOfRange | ByteBuffer.Wild => Wild | Endless => Wild end.
Definition text_map (source : string) (m : list range) (text : string) : result (list range) :=
  next (lift (map_ranges m source)) (fun mapped =>
    match String.index 0 text mapped with
    | Some pos => match m with [] => Wild | f :: _ => Good [R (wadd (location f) (N.of_nat pos)) (slen text)] end
    | None => Good m
    end).
(** MarkdownParser.cc:312-367 blockDidParse *)
Definition did_parse (source : string) (m : list range) (s : state) : result state :=
  if s_list s then Good (St (s_heap s) (s_working s) false) else
  next (working s) (fun an =>
    match rev (n_children (snd an)) with
    | [] => Good s
    | c :: _ =>
      next (clip (slen source) m) (fun o =>
        match o with
        | None => Good s
        | Some w =>
          next (deref (s_heap s) c) (fun n =>
            let h := write (s_heap s) c (set_map n (append_set (n_map n) w)) in
            match n_type n, n_children n with
            | ItemNode, f :: _ =>
              next (deref h f) (fun x =>
                match n_map x with
                | [] => next (text_map source m (n_text x)) (fun k => Good (St (write h f (set_map x (append_set (n_map x) k))) (s_working s) (s_list s)))
                | _ => Good (St h (s_working s) (s_list s))
                end)
            | _, _ => Good (St h (s_working s) (s_list s))
            end)
        end)
    end).

(** MarkdownParser.cc:63-86 the callbacks. A source map is not given (null) in DidParse None (297-310). *)
Inductive event : Type :=
| EHeader (text : string) (level : Z)
| ECode (text : string)
| EParagraph (text : string)
| ERule
| EHtml (text : string)
| EBeginList
| EEndList
| EBeginItem (flags : Z)
| EEndItem (text : string) (flags : Z)
| EBeginQuote
| EEndQuote (text : string)
| EDidParse (m : option (list range)).
Definition callback (source : string) (e : event) (s : state) : result state :=
  match e with
  | EHeader t l => leaf_callback HeaderNode t l s
  | ECode t => leaf_callback CodeNode t 0 s
  | EParagraph t => leaf_callback ParagraphNode t 0 s
  | ERule => leaf_callback RuleNode "" 0 s
  | EHtml t => leaf_callback HtmlNode t 0 s
  | EBeginList => begin_list s
  | EEndList => end_list s
  | EBeginItem f => begin_container ItemNode f s
  | EEndItem t f => end_item t f s
  | EBeginQuote => begin_container QuoteNode 0 s
  | EEndQuote t => end_quote t s
  | EDidParse None => Good s
  | EDidParse (Some m) => did_parse source m s
  end.
Fixpoint callbacks (source : string) (es : list event) (s : state) : result state :=
  match es with [] => Good s | e :: r => next (callback source e s) (callbacks source r) end.
(** MarkdownParser.cc:36-61 parse: the state when the library has returned. The node given is at address 0. *)
Definition start (source : string) : state := St [Node RootNode "" 0 [R 0 (slen source)] None []] (Some 0%nat) false.
Definition parse (source : string) (es : list event) : result state := callbacks source es (start source).
