(** Model of packages/drafter/src/refract/Registry.{h,cc}: the registry of named types. *)
From Verif Require Import Base Element Extend.

(** Registry.h:22-25 std::map<std::string, std::unique_ptr<IElement>>; the map is never iterated,
    so its order is not observable: an association list looked up by the whole key *)
Definition registry := list (string * element).

(** Registry.cc:20-31 baseTypeMap *)
Definition base_types : registry :=
  map (fun k => (kind_name k, make_empty k)) [KBoolean; KNumber; KString; KArray; KObject; KEnum; KNull].

(** Registry.cc:70-79 *)
Definition rfind (r : registry) (name : string) : option element := ifind r name.

(** Registry.cc:54-68 getElementId. StringElement::get() asserts that there is a value. *)
Definition element_id (e : element) : res string :=
  match ifind (emeta e) "id" with
  | None => Throws "Element has no ID"
  | Some i =>
    match ekind i with
    | KString => match eget i with Some (DString s) => Ok s | _ => Undefined end
    | _ => Throws "Value of element meta 'id' is not StringElement"
    end
  end.

(** Registry.cc:81-104 add; the argument may be the null pointer (assert(element)) *)
Definition radd (r : registry) (e : option element) : res (bool * registry) :=
  match e with
  | None => Undefined
  | Some e =>
    match element_id e with
    | Ok id =>
      if is_reserved id then Throws "You can not register a basic element" else
      match rfind r id with
      | Some _ => Ok (false, r)
      | None => Ok (true, iset r id e)
      end
    | Throws w => Throws w
    | Undefined => Undefined
    end
  end.

(** Registry.cc:106-116 remove: keys are unique, so erase drops the entry of the name *)
Definition rremove (r : registry) (name : string) : bool * registry :=
  match rfind r name with
  | None => (false, r)
  | Some _ => (true, ierase1 r name)
  end.

(** Registry.cc:118-121 *)
Definition rclear (r : registry) : registry := [].

(** Registry.cc:36-51 FindRootAncestor. [next == parent] compares addresses: two lookups yield the
    same address iff they are lookups of the same name, so the name under which [parent] was found
    is carried along. The outer [None]: still running after [fuel] rounds. *)
Fixpoint find_root_from (fuel : nat) (r : registry) (name : string) (parent : element) : option element :=
  match fuel with
  | O => None
  | S f =>
    if is_reserved (ename parent) then Some parent else
    match rfind r (ename parent) with
    | None => Some parent
    | Some next => if String.eqb (ename parent) name then Some parent else find_root_from f r (ename parent) next
    end
  end.
Definition FindRootAncestor (fuel : nat) (r : registry) (name : string) : option (option element) :=
  match rfind r name with
  | None => Some None
  | Some p => option_map Some (find_root_from fuel r name p)
  end.
