(** Specification for C71: documents whose conversion cannot crash *)
From Verif Require Import Base SoValue JsonIo SourceMap Capi Element ElementSpec Extend Registry Expand JsonValue JsonSchema GenSpec Peg MediaType TypeTables Mson MsonSpec Blueprint Register RegisterSpec ReadySpec Api ApiSpec.

(** the data structures written in a document, wherever they are *)
Inductive action_structure (a : action) : structure -> Prop :=
| as_own : action_structure a (ac_attributes a)
| as_request x y : In x (ac_examples a) -> In y (ex_requests x) -> action_structure a (py_attributes y)
| as_response x y : In x (ac_examples a) -> In y (ex_responses x) -> action_structure a (py_attributes y).
Inductive has_structure (b : blueprint) : structure -> Prop :=
| hs_structure top x : In top (bp_elements b) -> inside top x -> b_class x = DataStructureElement -> has_structure b (b_structure x)
| hs_resource top x : In top (bp_elements b) -> inside top x -> b_class x = ResourceElement -> has_structure b (re_attributes (b_resource x))
| hs_action top x a s : In top (bp_elements b) -> inside top x -> b_class x = ResourceElement -> In a (re_actions (b_resource x)) -> action_structure a s -> has_structure b s.
(** a document consists of categories, copies, resources and data structures *)
Definition classes_known (b : blueprint) : Prop :=
  forall top x, In top (bp_elements b) -> inside top x -> In (b_class x) [CategoryElement; CopyElement; ResourceElement; DataStructureElement].
(** the structure can be converted (C61), whatever the registry of the types [ds] *)
Definition fine_in (ds : list structure) (s : structure) : Prop := forall fuel r, knows fuel ds r -> structure_fine fuel r s.
Definition circular (m : string) : Prop := exists t, m = ("named type '" ++ t ++ "' is circularly referencing itself by mixin")%string.
