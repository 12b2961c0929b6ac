(** Specification for C73: the tree made of the blocks of a Markdown document *)
From Verif Require Import Base ByteBuffer ByteSpec Markdown.
Local Open Scope N_scope.

(** ** Trees, and memory that holds one: every node knows its parent, no node is in two places *)
Inductive tree : Type := Tree (t : node_type) (text : string) (data : Z) (m : list range) (children : list tree).
Inductive holds (h : heap) : option address -> address -> tree -> list address -> Prop :=
| holds_node p a t text data m cs ts used :
    read h a = Some (Node t text data m p cs) -> hold h (Some a) cs ts used -> holds h p a (Tree t text data m ts) (a :: used)
with hold (h : heap) : option address -> list address -> list tree -> list address -> Prop :=
| hold_nil p : hold h p [] [] []
| hold_cons p c cs t ts used useds : holds h p c t used -> hold h p cs ts useds -> hold h p (c :: cs) (t :: ts) (used ++ useds).
Definition stores (h : heap) (a : address) (t : tree) : Prop := exists used, holds h None a t used /\ NoDup used.

(** ** Documents: what the Markdown library recognises. A gap is a block without a node: empty lines. *)
Inductive leaf : Type := Heading (text : string) (level : Z) | CodeBlock (text : string) | Paragraph (text : string) | HRule | HtmlBlock (text : string).
Inductive block : Type :=
| Leaf (l : leaf) (m : list range)
| QuoteBlock (inner : list block) (text : string) (m : list range)
| ListBlock (items : list block) (m : list range)
| Item (flags_before flags : Z) (inner : list block) (text : string) (m : list range)
| Gap (m : list range).

(** the calls made for a document: a block is announced when it begins, if it may contain others, and when it ends; then its place is told *)
Definition leaf_event (l : leaf) : event :=
  match l with Heading t n => EHeader t n | CodeBlock t => ECode t | Paragraph t => EParagraph t | HRule => ERule | HtmlBlock t => EHtml t end.
Fixpoint events (b : block) : list event :=
  match b with
  | Leaf l m => [leaf_event l; EDidParse (Some m)]
  | QuoteBlock inner t m => EBeginQuote :: concat (map events inner) ++ [EEndQuote t; EDidParse (Some m)]
  | ListBlock items m => EBeginList :: concat (map events items) ++ [EEndList; EDidParse (Some m)]
  | Item f f' inner t m => EBeginItem f :: concat (map events inner) ++ [EEndItem t f'; EDidParse (Some m)]
  | Gap m => [EDidParse (Some m)]
  end.

(** ** Places: ranges of the source in their order. The library ends the source with a line feed if there is none, so that the last
    range may go one byte too far. *)
Definition placed (len : N) (m : list range) : Prop :=
  exists a b, m = (a ++ [b])%list /\ ascending m /\ Forall (fun r => location r + length r <= len) a /\ location b <= len /\ location b + length b <= len + 1.
(** the part of it within the source; none, if the last range is the added line feed *)
Definition inside (len : N) (m : list range) : option (list range) :=
  match rev m with
  | [] => None
  | b :: a =>
    if location b + length b <=? len then Some m
    else if location b <? len then Some (rev a ++ [R (location b) (len - location b)])%list else None
  end.
(** one place behind another *)
Definition join (a b : list range) : list range :=
  match rev a, b with
  | x :: a', y :: b' => if location y =? location x + length x then rev a' ++ R (location x) (length x + length y) :: b' else a ++ b
  | _, _ => a ++ b
  end%list.

(** ** The tree expected. Nothing is made of lists: their items are children of the node that contains the list. *)
Definition leaf_tree (l : leaf) : tree :=
  match l with
  | Heading t n => Tree HeaderNode t n [] []
  | CodeBlock t => Tree CodeNode t 0 [] []
  | Paragraph t => Tree ParagraphNode t 0 [] []
  | HRule => Tree RuleNode "" 0 [] []
  | HtmlBlock t => Tree HtmlNode t 0 [] []
  end.
(** list items begin with a paragraph *)
Definition titled (text : string) (ts : list tree) : list tree :=
  match ts with Tree ParagraphNode _ _ _ _ :: _ => ts | _ => Tree ParagraphNode text 0 [] [] :: ts end.
(** the place of a paragraph added: its text as it is found first within the place of the item *)
Definition text_place (source : string) (m : list range) (text : string) : list range :=
  match String.index 0 text (text_at source (covered m)), m with
  | Some pos, f :: _ => [R (location f + N.of_nat pos) (slen text)]
  | _, _ => m
  end.
(** a place is that of the last node *)
Definition locate (source : string) (m w : list range) (t : tree) : tree :=
  match t with
  | Tree ty text data m0 cs =>
    Tree ty text data (join m0 w)
      (match ty, cs with
       | ItemNode, Tree ty' text' data' [] cs' :: r => Tree ty' text' data' (text_place source m text') cs' :: r
       | _, _ => cs
       end)
  end.
Definition finish (source : string) (m : list range) (ts : list tree) : list tree :=
  match rev ts, inside (slen source) m with
  | t :: r, Some w => rev r ++ [locate source m w t]
  | _, _ => ts
  end%list.
Fixpoint grow (source : string) (ts : list tree) (b : block) : list tree :=
  match b with
  | Leaf l m => finish source m (ts ++ [leaf_tree l])
  | QuoteBlock inner text m => finish source m (ts ++ [Tree QuoteNode text 0 [] (fold_left (grow source) inner [])])
  | ListBlock items _ => fold_left (grow source) items ts
  | Item _ flags inner text m => finish source m (ts ++ [Tree ItemNode "" flags [] (titled text (fold_left (grow source) inner []))])
  | Gap m => finish source m ts
  end%list.
Definition document (source : string) (bs : list block) : tree := Tree RootNode "" 0 [R 0 (slen source)] (fold_left (grow source) bs []).

(** all places of a document *)
Fixpoint all_places (P : list range -> Prop) (b : block) : Prop :=
  match b with
  | Leaf _ m | Gap m => P m
  | QuoteBlock inner _ m | ListBlock inner m | Item _ _ inner _ m => P m /\ fold_right (fun b r => all_places P b /\ r) True inner
  end.

(** ** Any calls whatsoever: what ends must be what was begun last *)
Inductive closes : list node_type -> list event -> Prop :=
| closes_end st : closes st []
| closes_quote_begin st es : closes (QuoteNode :: st) es -> closes st (EBeginQuote :: es)
| closes_item_begin st f es : closes (ItemNode :: st) es -> closes st (EBeginItem f :: es)
| closes_quote_end st t es : closes st es -> closes (QuoteNode :: st) (EEndQuote t :: es)
| closes_item_end st t f es : closes st es -> closes (ItemNode :: st) (EEndItem t f :: es)
| closes_other st e es :
    match e with EBeginQuote | EBeginItem _ | EEndQuote _ | EEndItem _ _ => False | _ => True end -> closes st es -> closes st (e :: es).
(** every node of a tree *)
Fixpoint every_node (P : tree -> Prop) (t : tree) : Prop :=
  P t /\ match t with Tree _ _ _ _ cs => fold_right (fun c r => every_node P c /\ r) True cs end.
Definition node_kind (t : tree) : node_type := match t with Tree ty _ _ _ _ => ty end.
Definition node_place (t : tree) : list range := match t with Tree _ _ _ m _ => m end.
Definition node_children (t : tree) : list tree := match t with Tree _ _ _ _ cs => cs end.
Definition node_text (t : tree) : string := match t with Tree _ text _ _ _ => text end.
