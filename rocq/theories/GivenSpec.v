(** Specification for C86: the parameters of resources and actions. The items are those of C81 (ParamsSpec), what headers say is C78's; of Given only the types of the result are used *)
From Verif Require Import Base StringSpec ByteBuffer ByteSpec Markdown MarkdownSpec TypeTables SourceMap Mson TypeDefsSpec MembersSpec ParamsSpec.
From Verif Require Keywords Sections Transactions SectionsSpec PayloadsSpec Blueprint Given.
Import PayloadsSpec(the_text, place, opens, lines).
Import Keywords(ParametersSection).
Import Sections(part, Head, Listed, Sub, Sec).
Import Transactions(action_signature, resource_header).
Import Blueprint(parameter, pa_name).
Import Given(given, Given, g_parameters, g_actions).
Local Open Scope string_scope.

(** one behind the other *)
Inductive in_steps {A B} (R : B -> A -> A -> located -> Prop) : list B -> A -> A -> located -> Prop :=
| steps_end : forall a, in_steps R [] a a []
| steps_more : forall x r a b c e e', R x a b e -> in_steps R r b c e' -> in_steps R (x :: r) a c (e ++ e').

(** a remark about each parameter that is no variable of the path *)
Definition looked_up (uri name : string) (t : tree) (l : list parameter) (e : located) : Prop := exists w, eligible uri name l w /\ e = on t w.

Section Spec.
Context (known : list (string * base_type)) (source : string).
(** ** actions: the items of an action are one list *)
Inductive more_parameters (before_ : list parameter) (item : tree) : list parameter -> located -> Prop :=
| more_by : forall t r first rest l e, opens item t r -> lines (the_text t) first rest -> nodes_say (parameter_node known source "") r before_ l e ->
    more_parameters before_ item l
      ((if String.eqb rest "" then [] else
          on t [Says 5 "ignoring additional content after 'parameters' keyword, expected a nested list of parameters, one parameter per list item"]) ++ e ++
       (match l with [] => on item [Says 3 "no parameters specified, expected a nested list of parameters, one parameter per list item"] | _ => [] end))%list.
Definition a_list (x : part) : Prop := exists t, x = Listed ParametersSection t.
Inductive action_part (x : part) (l : list parameter) : list parameter -> located -> Prop :=
| action_list : forall t l' e, x = Listed ParametersSection t -> more_parameters l t l' e -> action_part x l l' e
| action_skip : ~ a_list x -> action_part x l l [].
(** those of an action with a path are looked up in it *)
Definition action_parameters (ps : list part) (l : list parameter) (e : located) : Prop :=
  exists h r name method uri e1 e2, ps = Head h :: r /\ action_signature h = (name, method, uri) /\ in_steps action_part r [] l e1 /\
    ((uri = "" /\ e2 = []) \/ (uri <> "" /\ looked_up uri name h l e2)) /\ e = (e1 ++ e2)%list.

(** ** resources: those of an action without a path are looked up in that of the resource; each item of a resource is a list of its own *)
Inductive resource_part (uri name : string) (x : part) (g : given) : given -> located -> Prop :=
| resource_list : forall t l e1 e2, x = Listed ParametersSection t -> parameters_say known source "" t l e1 -> looked_up uri name t l e2 ->
    resource_part uri name x g (Given (g_parameters g ++ l) (g_actions g)) (e1 ++ e2)
| resource_action : forall k h r ex own_name method own l e1 e2, x = Sub (Sec k (Head h :: r) ex) -> action_parameters (Head h :: r) l e1 -> action_signature h = (own_name, method, own) ->
    (own = "" /\ looked_up uri name h l e2) \/ (own <> "" /\ e2 = []) ->
    resource_part uri name x g (Given (g_parameters g) (g_actions g ++ [l])) (e1 ++ e2)
| resource_skip : ~ a_list x -> (forall s, x <> Sub s) -> resource_part uri name x g g [].
Inductive resource_parameters : list part -> given -> located -> Prop :=
| of_resource : forall h r name uri g e, resource_header h = (name, uri) -> in_steps (resource_part uri name) r (Given [] []) g e -> resource_parameters (Head h :: r) g e
| of_endpoint : forall k qs ex l e, action_parameters qs l e -> resource_parameters [Sub (Sec k qs ex)] (Given [] [l]) e.
Inductive all_parameters : list (list part) -> list given -> located -> Prop :=
| all_done : all_parameters [] [] []
| all_next : forall ps l g gs e e', resource_parameters ps g e -> all_parameters l gs e' -> all_parameters (ps :: l) (g :: gs) (e ++ e').
End Spec.
