(** Specification vocabulary for the registry and the expansion of named types *)
From Verif Require Import Base Element ElementSpec MergeSpec Extend Registry.

(** ** Registry: operation histories over an abstract map *)
Inductive reg_op : Type :=
| RAdd (e : element) | RRemove (name : string) | RClear | RFind (name : string).
(** what the caller sees *)
Inductive reg_out : Type :=
| OBool (b : bool)               (* add, remove *)
| OFound (e : option element)    (* find *)
| ODone                          (* clear *)
| OThrows.                       (* add *)

Definition amap := string -> option element.
Definition astore (m : amap) (k : string) (v : option element) : amap :=
  fun k' => if String.eqb k k' then v else m k'.

(** the seven built-in types *)
Definition builtin : amap := fun k =>
  if String.eqb k "boolean" then Some (make_empty KBoolean) else
  if String.eqb k "number" then Some (make_empty KNumber) else
  if String.eqb k "string" then Some (make_empty KString) else
  if String.eqb k "array" then Some (make_empty KArray) else
  if String.eqb k "object" then Some (make_empty KObject) else
  if String.eqb k "enum" then Some (make_empty KEnum) else
  if String.eqb k "null" then Some (make_empty KNull) else None.

(** the name an element declares: meta "id", a string element that holds a value *)
Definition declared (e : element) : option string :=
  match ifind (emeta e) "id" with
  | Some (Elem _ _ _ true (DString s)) => Some s
  | _ => None
  end.

Definition astep (m : amap) (o : reg_op) : reg_out * amap :=
  match o with
  | RAdd e =>
    match declared e with
    | None => (OThrows, m)
    | Some s =>
      if is_reserved s then (OThrows, m) else
      match m s with
      | Some _ => (OBool false, m)
      | None => (OBool true, astore m s (Some e))
      end
    end
  | RRemove s => match m s with Some _ => (OBool true, astore m s None) | None => (OBool false, m) end
  | RClear => (ODone, fun _ => None)
  | RFind s => (OFound (m s), m)
  end.
Fixpoint aruns (m : amap) (l : list reg_op) : list reg_out * amap :=
  match l with
  | [] => ([], m)
  | o :: r => let '(x, m1) := astep m o in let '(xs, m2) := aruns m1 r in (x :: xs, m2)
  end.

(** elements whose id, if it is a string element, holds a value (reading it is defined) *)
Definition id_readable (e : element) : Prop :=
  match ifind (emeta e) "id" with
  | Some (Elem _ _ _ false (DString _)) => False
  | _ => True
  end.

(** ** Inheritance *)

(** the chain of types from [name] up to the last registered, non-reserved ancestor *)
Inductive ancestry (r : registry) : string -> list (string * element) -> Prop :=
| anc_reserved name : is_reserved name = true -> ancestry r name []
| anc_unknown name : rfind r name = None -> ancestry r name []
| anc_step name e l :
    is_reserved name = false -> rfind r name = Some e -> ancestry r (ename e) l ->
    ancestry r name ((name, e) :: l).

(** a member of the chain as it appears in the tree: content and attributes of the type, under the
    name of its kind, its id replaced by a ref to the type *)
Definition is_link (n : string) (e x : element) : Prop :=
  ename x = kind_name (ekind e) /\ eattrs x = eattrs e /\ ehas x = ehas e /\ edata x = edata e /\
  ifind (emeta x) "id" = None /\ ifind (emeta x) "ref" = Some (make_element (DString n)) /\
  forall k, k <> "id"%string -> k <> "ref"%string -> ifind (emeta x) k = ifind (emeta e) k.

(** the walk to the root ancestor of a name comes to an end: it leaves the registry, meets a
    reserved name, or a type that names itself as its parent *)
Inductive rooted (r : registry) : string -> Prop :=
| rooted_unknown n : rfind r n = None -> rooted r n
| rooted_reserved n e : rfind r n = Some e -> is_reserved (ename e) = true -> rooted r n
| rooted_self n e : rfind r n = Some e -> ename e = n -> rooted r n
| rooted_step n e : rfind r n = Some e -> rooted r (ename e) -> rooted r n.

(** ** What expansion looks at *)

(** the elements an element holds as its value and, for an enum, its enumerations *)
Definition parts (e : element) : list element :=
  (entries e ++
   match edata e with
   | DEnum _ => map snd (filter (fun kv => String.eqb (fst kv) "enumerations") (eattrs e))
   | _ => []
   end)%list.

Inductive within : element -> element -> Prop :=
| within_refl e : within e e
| within_step x c e : In c (parts e) -> within x c -> within x e.

(** every type named in e, by an element or by a mixin, has a root ancestor *)
Definition mentions_rooted (r : registry) (e : element) : Prop :=
  forall x, within x e -> rooted r (ename x) /\ forall s, edata x = DRef s -> rooted r s.
(** every type named inside the definition of a registered type has a root ancestor *)
Definition members_rooted (r : registry) : Prop :=
  forall n p, rfind r n = Some p ->
    (forall c, In c (parts p) -> mentions_rooted r c) /\ (forall s, edata p = DRef s -> rooted r s).

(** shape of data structures built by the parser: members and refs hold a value, so do selects
    unless they have a reserved name, options of a select have a reserved name, an enum with a value has one, enumerations are an array *)
Definition shape_ok (x : element) : Prop :=
  match edata x with
  | DMember _ _ | DRef _ => ehas x = true
  | DSelect l => (ehas x = true \/ is_reserved (ename x) = true) /\ forall o, In o l -> ekind o = KOption /\ is_reserved (ename o) = true
  | DEnum o => (ehas x = true -> o <> None) /\
               (forall y, In ("enumerations"%string, y) (eattrs x) -> ehas y = true /\ ekind y = KArray)
  | _ => True
  end.
Definition well_shaped (e : element) : Prop := forall x, within x e -> shape_ok x.
Definition well_shaped_registry (r : registry) : Prop := forall n p, rfind r n = Some p -> well_shaped p.

(** ** What expansion leaves *)

(** no named type and no mixin anywhere in e *)
Definition plain (e : element) : Prop :=
  forall x, within x e -> is_reserved (ename x) = true /\ ekind x <> KHolder /\ ekind x <> KRef.

(** attribute names are unique, structural elements carry their own names, mixins are of objects and not resolved yet, there are
    no holders, and an enum that derives from a named type lists plain enumerations only *)
Definition regular_head (r : registry) (x : element) : Prop :=
  NoDup (map fst (eattrs x)) /\
  match edata x with
  | DHolder _ => False
  | DNull | DMember _ _ => is_reserved (ename x) = true
  | DRef s => is_reserved (ename x) = true /\ ifind (eattrs x) "resolved" = None /\
              forall p, rfind r s = Some p -> ekind p <> KEnum
  | DEnum _ => is_reserved (ename x) = true \/ forall y, In ("enumerations"%string, y) (eattrs x) -> plain y
  | _ => True
  end.
Definition regular (r : registry) (e : element) : Prop := forall x, within x e -> regular_head r x.
(** registered types: the enumerations of an enum type are not restricted *)
Definition regular_registry (r : registry) : Prop :=
  forall n p, rfind r n = Some p ->
    (forall c, In c (parts p) -> regular r c) /\ NoDup (map fst (eattrs p)) /\ (ekind p <> KEnum -> regular_head r p).

(** the stand-in for a type that is being expanded: a ref and no value *)
Definition stand_in (e : element) : bool :=
  negb (ehas e) && match ifind (emeta e) "ref" with Some _ => true | None => false end.

(** the elements one sees in an expanded element: values, enumerations, resolved mixins *)
Definition visible (e : element) : list element :=
  if stand_in e then [] else
  (parts e ++ match edata e with DRef _ => opt_list (ifind (eattrs e) "resolved") | _ => [] end)%list.

(** no named type is left in e, and every mixin of a registered type is resolved *)
Inductive closed (r : registry) : element -> Prop :=
| closed_intro e :
    is_reserved (ename e) = true ->
    (forall s p, edata e = DRef s -> ehas e = true -> rfind r s = Some p ->
       s <> ""%string -> ifind (eattrs e) "resolved" <> None) ->
    (forall c, In c (visible e) -> closed r c) ->
    closed r e.
