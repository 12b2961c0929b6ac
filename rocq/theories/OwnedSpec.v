(** Specification for C87: the attributes of resources and actions. The items are those of C80 (MembersSpec), what headers say is C78's; of Owned only the type of the result is used *)
From Verif Require Import Base StringSpec ByteBuffer ByteSpec Markdown MarkdownSpec TypeTables SourceMap Mson TypeDefsSpec MembersSpec GivenSpec.
From Verif Require Keywords Sections Transactions Owned.
Import Keywords(AttributesSection).
Import Sections(part, Head, Listed, Sub, Sec).
Import Transactions(resource_header).
Import Owned(owned, Owned, o_attributes, o_actions).
Local Open Scope string_scope.

(** the items of a section, and its sections *)
Definition items (ps : list part) : list tree := flat_map (fun x => match x with Listed AttributesSection t => [t] | _ => [] end) ps.
(** the type of a resource with a name has that name, and it is found in its header *)
Inductive called (name : string) (h : tree) (x : structure) : structure -> Prop :=
| called_not : name = "" -> called name h x x
| called_so : name <> "" -> called name h x (Str (TN UndefinedTN (Sym name false)) (ds_type x) (ds_sections x) (ds_map x) (lies h) (ds_type_map x)).

Section Spec.
Context (known : list (string * base_type)) (source : string) (taken : tree -> string -> Prop).
(** ** an action has the attributes of its item; its types are not named *)
Inductive action_attributes (r : list part) : option structure -> located -> Prop :=
| action_none : items r = [] -> action_attributes r None []
| action_some : forall t x e, items r = [t] -> attributes_say known source "" t x e -> action_attributes r (Some x) e.

(** ** so has a resource, unless it has the name of a type that exists; that type refers to itself by the name of the resource *)
Inductive own_attributes (name : string) (h t : tree) : option structure -> located -> Prop :=
| own_some : forall x y e, attributes_say known source name t x e -> ~ (name <> "" /\ taken t name) -> called name h x y -> own_attributes name h t (Some y) e
| own_none : forall x e, attributes_say known source name t x e -> name <> "" -> taken t name ->
    own_attributes name h t None (e ++ on t [Says 2 ("named type with name '" +++ name +++ "' already exists")]).
(** read in the order they stand in: [o] is what stands before *)
Inductive resource_part (name : string) (h : tree) (x : part) (o : owned) : owned -> located -> Prop :=
| part_item : forall t a e, x = Listed AttributesSection t -> o_attributes o = None -> own_attributes name h t a e -> resource_part name h x o (Owned a (o_actions o)) e
| part_action : forall k h' q ex a e, x = Sub (Sec k (Head h' :: q) ex) -> action_attributes q a e -> resource_part name h x o (Owned (o_attributes o) (o_actions o ++ [a])) e
| part_skip : (forall t, x <> Listed AttributesSection t) -> (forall s, x <> Sub s) -> resource_part name h x o o [].
Inductive resource_attributes : list part -> owned -> located -> Prop :=
| of_resource : forall h r o e, in_steps (resource_part (fst (resource_header h)) h) r (Owned None []) o e -> resource_attributes (Head h :: r) o e
| of_endpoint : forall k h q ex a e, action_attributes q a e -> resource_attributes [Sub (Sec k (Head h :: q) ex)] (Owned None [a]) e.
Inductive all_attributes : list (list part) -> list owned -> located -> Prop :=
| all_done : all_attributes [] [] []
| all_next : forall ps l o os e e', resource_attributes ps o e -> all_attributes l os e' -> all_attributes (ps :: l) (o :: os) (e ++ e').
End Spec.
