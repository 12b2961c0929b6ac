(** Model of what ActionParser.h and ResourceParser.h do with parameters, on the outline of the document (Sections.v): ActionParser.h:110-113, 320-325, ResourceParser.h:79-88, 339-428 and
    ParametersParser.h:173-233 (C81 has the sections themselves and the check). The remarks are kept with the byte ranges of their node, as in MembersTree.v. Of the remarks of resources and
    actions only those about parameters are given here (the others: Transactions.v, Relations.v); source maps are left out. Attributes, too, change the dependencies of types; here only
    parameters do, and the theorems hold for every state before. *)
From Verif Require Import Base ByteBuffer StringSpec Markdown MarkdownSpec TypeTables SourceMap Mson TypeDefs MembersTree Params.
From Verif Require Keywords Sections Payloads Transactions Blueprint.
Import Keywords(section_type, ParametersSection).
Import Sections(part, Head, Listed, Sub, Sec).
Import Transactions(action_signature, resource_header, resource_of).
Import Blueprint(parameter).
Local Open Scope string_scope.

(** what a loop over parts, or resources, does *)
Fixpoint each {A B} (step : B -> A -> st -> outcome (A * st)) (l : list B) (a : A) (s : st) : outcome (A * st) :=
  match l with
  | [] => Val (a, s)
  | x :: r => andthen (step x a s) (fun '(a, s) => each step r a s)
  end.

(** Blueprint.h: Action::parameters; Resource::parameters, actions *)
Record given : Type := Given { g_parameters : list parameter; g_actions : list (list parameter) }.

Section Parser.
Context (source : string) (fuel : nat).
(** ParametersParser.h:40-64, 68-114, 140-151 for an output that has parameters already (ActionParser.h:110-113 gives that of the action). [parse_parameters] is this for none *)
Definition parameters_from (before : list parameter) (item : tree) (s : st) : outcome (list parameter * st) :=
  andthen (Payloads.starting item) (fun l =>
  match l with
  | [] => ByteBuffer.Wild
  | t :: r =>
    let s := if String.eqb (Payloads.remaining t) "" then s
             else note (spot t) [Warns IgnoringCode "ignoring additional content after 'parameters' keyword, expected a nested list of parameters, one parameter per list item"] s in
    andthen (walk (parameters_step source "" fuel) r before s) (fun '(l, s) =>
    Val (l, match l with [] => note (spot item) [Warns FormattingCode "no parameters specified, expected a nested list of parameters, one parameter per list item"] s | _ => s end))
  end).
(** ParametersParser.h:193-233 checkParametersEligibility, at the node [t] *)
Definition look_up (uri name : string) (t : tree) (l : list parameter) (s : st) : outcome (list parameter * st) :=
  match eligibility uri name l with Some rs => Val (l, note (spot t) rs s) | None => Endless end.

(** ActionParser.h:110-113, 320-325. A section begins with its header (C76) *)
Definition action_gets (x : part) (l : list parameter) (s : st) : outcome (list parameter * st) :=
  match x with Listed ParametersSection t => parameters_from l t s | _ => Val (l, s) end.
Definition action_given (ps : list part) (s : st) : outcome (list parameter * st) :=
  match ps with
  | Head h :: r =>
    let '(name, method, uri) := action_signature h in
    andthen (each action_gets r [] s) (fun '(l, s) => if String.eqb uri "" then Val (l, s) else look_up uri name h l s)
  | _ => ByteBuffer.Wild
  end.
(** ResourceParser.h:390-393: parameters of an action without a path are looked up in the path of its resource *)
Definition nested_given (uri name : string) (ps : list part) (s : st) : outcome (list parameter * st) :=
  match ps with
  | Head h :: r =>
    let '(_, _, own) := action_signature h in
    andthen (action_given ps s) (fun '(l, s) => match l with [] => Val (l, s) | _ => if String.eqb own "" then look_up uri name h l s else Val (l, s) end)
  | _ => ByteBuffer.Wild
  end.
(** 84-92, 403-428 *)
Definition resource_gets (uri name : string) (x : part) (g : given) (s : st) : outcome (given * st) :=
  match x with
  | Listed ParametersSection t =>
    andthen (parse_parameters source "" fuel t s) (fun '(l, s) =>
    match l with
    | [] => Val (g, s)
    | _ => andthen (look_up uri name t l s) (fun '(l, s) => Val (Given (g_parameters g ++ l)%list (g_actions g), s))
    end)
  | Sub (Sec _ ps _) => andthen (nested_given uri name ps s) (fun '(l, s) => Val (Given (g_parameters g) (g_actions g ++ [l])%list, s))
  | _ => Val (g, s)
  end.
(** 49-80; an endpoint (331-351) is just one action *)
Definition resource_given (ps : list part) (s : st) : outcome (given * st) :=
  match ps with
  | Head h :: r => let (name, uri) := resource_header h in each (resource_gets uri name) r (Given [] []) s
  | [Sub (Sec _ qs _)] => andthen (action_given qs s) (fun '(l, s) => Val (Given [] [l], s))
  | _ => ByteBuffer.Wild
  end.
Definition read_given (ps : list part) (s : st) : outcome (list given * st) :=
  each (fun qs gs s => andthen (resource_given qs s) (fun '(g, s) => Val ((gs ++ [g])%list, s))) (flat_map resource_of ps) [] s.
End Parser.
