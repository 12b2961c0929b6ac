(** Model of the abstract syntax tree of an API Blueprint: packages/apib-parser/src/snowcrash/Blueprint.{h,cc}, and of the way drafter
    reads it together with its source maps (packages/drafter/src/NodeInfo.h, BlueprintSourcemap.h).
    The source maps are put beside the nodes they belong to. NodeInfo.h:103-150 pairs a collection with its maps the same way and falls
    back to empty ones if their numbers differ. Fields drafter never reads are left out: Payload.reference, TransactionExample.name,
    Action.headers, Resource.model, Resource.headers. *)
From Verif Require Import Base Element Extend Registry Expand SourceMap TypeTables Mson.

(** a string with its source map *)
Definition text : Type := (string * places)%type.
Definition blank (t : text) : bool := String.eqb (fst t) "".
(** Blueprint.h:54-70 KeyValuePair: metadata and headers *)
Definition pair_text : Type := (string * string * places)%type.
(** Blueprint.h:104-136 ParameterUse, Parameter *)
Inductive parameter_use := UndefinedUse | OptionalUse | RequiredUse.
Record parameter : Type := Param {
  pa_name : text; pa_description : text; pa_type : text; pa_use : parameter_use; pa_default : text; pa_example : text; pa_values : list text }.
(** Blueprint.h:197-224 Payload: requests and responses *)
Record payload : Type := Pay {
  py_name : text; py_description : text; py_parameters : list parameter; py_headers : list pair_text; py_attributes : structure;
  py_body : text; py_schema : text; py_map : places }.
(** Blueprint.h:247-260 TransactionExample *)
Record example : Type := Exa { ex_description : text; ex_requests : list payload; ex_responses : list payload }.
(** Blueprint.h:277-306 Action *)
Record action : Type := Act {
  ac_method : text; ac_name : text; ac_description : text; ac_parameters : list parameter; ac_attributes : structure; ac_uri : text;
  ac_relation : text; ac_examples : list example }.
(** Blueprint.h:314-339 Resource *)
Record resource : Type := Res {
  re_uri : text; re_name : text; re_description : text; re_attributes : structure; re_parameters : list parameter; re_actions : list action }.
(** Blueprint.h:351-437 Element. The pointer to the nested elements is never null (Blueprint.cc:38-60). *)
Inductive element_class := UndefinedElement | CategoryElement | CopyElement | AssetElement | ResourceElement | DataStructureElement.
Inductive category := UndefinedCategory | ResourceGroupCategory | DataStructureGroupCategory.
#[local] Unset Elimination Schemes.
Inductive belement : Type :=
| BElem (class : element_class) (name : text) (copy : text) (res : resource) (ds : structure) (elements : list belement) (cat : category).
#[local] Set Elimination Schemes.
Definition b_class (b : belement) := let 'BElem c _ _ _ _ _ _ := b in c.
Definition b_name (b : belement) := let 'BElem _ n _ _ _ _ _ := b in n.
Definition b_copy (b : belement) := let 'BElem _ _ c _ _ _ _ := b in c.
Definition b_resource (b : belement) := let 'BElem _ _ _ r _ _ _ := b in r.
Definition b_structure (b : belement) := let 'BElem _ _ _ _ d _ _ := b in d.
Definition b_elements (b : belement) := let 'BElem _ _ _ _ _ l _ := b in l.
Definition b_category (b : belement) := let 'BElem _ _ _ _ _ _ c := b in c.
(** Blueprint.h:450-467 Blueprint; its own element class is not read *)
Record blueprint : Type := Blue { bp_metadata : list pair_text; bp_name : text; bp_description : text; bp_elements : list belement }.

Lemma belement_ind' : forall P : belement -> Prop, (forall b, (forall c, In c (b_elements b) -> P c) -> P b) -> forall b, P b.
Proof.
  intros P H. fix IH 1. intros [c n y r d l t]. apply H. cbn [b_elements]. induction l as [|x l IHl]; intros b B; [destruct B|].
  destruct B as [<-|B]; [apply IH|now apply IHl].
Qed.

(** * Results: the calls of context.warn on the way, and how it ended. Simplifications: of a snowcrash::Error thrown by the conversion of
      one MSON tree only the message is kept, and the warnings of that tree are lost with it. *)
Inductive outcome (A : Type) : Type :=
| Done (a : A)
| Refused (e : annotation)     (* a snowcrash::Error *)
| Fails (message : string)     (* a snowcrash::Error thrown by the conversion of MSON *)
| Raises (what : string)       (* a std::exception *)
| Breaks                       (* undefined behaviour, a failed assertion *)
| Runs.                        (* not ended with the steps granted *)
Arguments Done {A} _. Arguments Refused {A} _. Arguments Fails {A} _. Arguments Raises {A} _. Arguments Breaks {A}. Arguments Runs {A}.
Definition X (A : Type) : Type := (list annotation * outcome A)%type.
Definition xret {A} (a : A) : X A := ([], Done a).
Definition xbind {A B} (m : X A) (f : A -> X B) : X B :=
  match snd m with
  | Done a => let (w, o) := f a in ((fst m ++ w)%list, o)
  | Refused e => (fst m, Refused e) | Fails s => (fst m, Fails s) | Raises s => (fst m, Raises s) | Breaks => (fst m, Breaks) | Runs => (fst m, Runs)
  end.
Definition of_mson {A} (m : M A) : X A :=
  match m with
  | None => ([], Runs) | Some (Ok (a, w)) => (w, Done a) | Some (Throws s) => ([], Fails s) | Some Undefined => ([], Breaks)
  end.
Definition of_run {A} (m : run A) : X A :=
  match m with
  | None => ([], Runs) | Some (Ok a) => ([], Done a) | Some (Throws s) => ([], Raises s) | Some Undefined => ([], Breaks)
  end.
Section Lists.
  Context {A B : Type}.
  Fixpoint xfold (f : A -> B -> X A) (a : A) (l : list B) : X A :=
    match l with [] => xret a | x :: r => xbind (f a x) (fun a' => xfold f a' r) end.
  Context (f : A -> X B).
  Fixpoint xmap (l : list A) : X (list B) :=
    match l with [] => xret [] | x :: r => xbind (f x) (fun y => xbind (xmap r) (fun ys => xret (y :: ys))) end.
End Lists.
