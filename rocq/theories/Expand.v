(** Model of packages/drafter/src/refract/ExpandVisitor.cc and IsExpandableVisitor.cc: the expansion
    of named types. *)
From Verif Require Import Base Element Extend Registry.

(** results that may also be "still running": [None] = the fuel did not suffice *)
Definition run (A : Type) := option (res A).
Definition ret {A} (a : A) : run A := Some (Ok a).
Definition undefined {A} : run A := Some Undefined.
Definition throw {A} (w : string) : run A := Some (Throws w).
Definition bind {A B} (m : run A) (f : A -> run B) : run B :=
  match m with
  | None => None
  | Some (Ok a) => f a
  | Some (Throws w) => Some (Throws w)
  | Some Undefined => Some Undefined
  end.
Fixpoint mapR {A B} (f : A -> run B) (l : list A) : run (list B) :=
  match l with
  | [] => ret []
  | x :: r => bind (f x) (fun y => bind (mapR f r) (fun ys => ret (y :: ys)))
  end.

(** std::any_of over a predicate that may be undefined, with ||: first hit wins *)
Definition oor (a b : option bool) : option bool :=
  match a with Some true => Some true | Some false => b | None => None end.

(** IsExpandableVisitor.cc:14-139. None: the null pointer of an enum is dereferenced (:114) *)
Fixpoint expandable (e : element) : option bool :=
  let 'Elem n m a h d := e in
  let check := negb (is_reserved n) in
  let any := fix any (l : list element) : option bool :=
    match l with [] => Some false | x :: r => oor (expandable x) (any r) end in
  let ptr := fun o : option element => match o with Some x => expandable x | None => Some false end in
  match d with
  | DRef _ => Some true
  | DArray l | DObject l | DExtend l | DOption l | DSelect l => oor (Some check) (if h then any l else Some false)
  | DMember k v => oor (Some check) (if h then oor (ptr k) (ptr v) else Some false)
  | DEnum o =>
    oor (Some check)
        (oor (if h then match o with Some x => expandable x | None => None end else Some false)
             ((fix enums (l : list (string * element)) : option bool :=
                 match l with
                 | [] => Some false
                 | (k, x) :: r => if String.eqb k "enumerations" then expandable x else enums r
                 end) a))
  | _ => Some check
  end.

(** ExpandVisitor.cc:41-47 CopyMetaId *)
Definition copy_meta_id (dst src : element) : element :=
  match ifind (emeta src) "id" with
  | Some i => if ehas i then set_meta dst (iset (emeta dst) "id" (clone cAll i)) else dst
  | None => dst
  end.

(** ExpandVisitor.cc:49-56 MetaIdToRef *)
Definition meta_id_to_ref (e : element) : element :=
  match ifind (emeta e) "id" with
  | Some i => if ehas i then set_meta e (ierase (iset (emeta e) "ref" (clone cAll i)) "id") else e
  | None => e
  end.

(** ExpandVisitor.cc:121-123: clone without the element name and the id, tagged with a ref.
    from_primitive(en): a string element *)
Definition tagged (en : string) (parent : element) : element :=
  let c := clone (Flags true true true false true) parent in
  set_meta c (iset (emeta c) "ref" (make_element (DString en))).

(** ExpandVisitor.cc:99-124: the walk; [seen] is the inheritance vector, last visited first.
    The inner None: a cycle. *)
Fixpoint inheritance (fuel : nat) (r : registry) (en : string) (seen : list (string * element))
  : option (option (list (string * element))) :=
  match fuel with
  | O => None
  | S f =>
    match rfind r en with
    | None => Some (Some seen)
    | Some parent =>
      if is_reserved en then Some (Some seen) else
      if existsb (fun s => String.eqb en (fst s)) seen then Some None else
      inheritance f r (ename parent) ((en, tagged en parent) :: seen)
    end
  end.

(** ExpandVisitor.cc:99-146 GetInheritanceTree: reversed, i.e. last visited first *)
Definition inheritance_tree (fuel : nat) (r : registry) (name : string) : option element :=
  match inheritance fuel r name [] with
  | None => None
  | Some None | Some (Some []) => Some (make_empty KExtend)
  | Some (Some l) => Some (make_element (DExtend (map snd l)))
  end.

(** ExpandVisitor.cc:205-215 the clone that stands for a type being expanded *)
Definition circular (name : string) (root : element) : element :=
  let c := clone (Flags true true false false true) root in
  set_meta c (iset (emeta c) "ref" (make_element (DString name))).

Definition copy_info (l : info) : info := map (fun kv => (fst kv, clone_all (snd kv))) l.

(** extend->get(), after set() if it is empty (ExpandVisitor.cc:226-228) *)
Definition extend_content (e : element) : list element :=
  match edata e with DExtend l => if ehas e then l else [] | _ => [] end.

Section Expansion.
  Context (r : registry) (rec : list string -> element -> run (option element)).

  (** ExpandVisitor.cc:160-174 ExpandOrClone of a non-null pointer *)
  Definition expand_or_clone (members : list string) (e : element) : run element :=
    bind (rec members e) (fun x => ret match x with Some y => y | None => clone cAll e end).
  (** ... of a pointer *)
  Definition expand_or_clone_ptr (members : list string) (o : option element) : run (option element) :=
    match o with
    | None => ret None
    | Some e => bind (expand_or_clone members e) (fun x => ret (Some x))
    end.

  (** ExpandVisitor.cc:58-104, 176-182 ExpandValue. Objects are filled through
      dsd::Object::push_back. Members, selects and holders do not get here. *)
  Definition expand_value (members : list string) (d : dsd element) : run (dsd element) :=
    match d with
    | DArray l => bind (mapR (expand_or_clone members) l) (fun l' => ret (DArray l'))
    | DExtend l => bind (mapR (expand_or_clone members) l) (fun l' => ret (DExtend l'))
    | DOption l => bind (mapR (expand_or_clone members) l) (fun l' => ret (DOption l'))
    | DObject l => bind (mapR (expand_or_clone members) l) (fun l' => ret (DObject (fold_left obj_push_back l' [])))
    | DEnum o => bind (expand_or_clone_ptr members o) (fun o' => ret (DEnum o'))
    | _ => ret d
    end.

  (** ExpandVisitor.cc:184-195 ExpandMembers *)
  Definition expand_members (members : list string) (e : element) : run element :=
    bind (if ehas e then bind (expand_value members (edata e)) (fun d => ret (make_element d))
          else ret (make_empty (ekind e)))
         (fun o => ret (set_meta (set_attrs o (copy_info (eattrs e))) (copy_info (emeta e)))).

  (** ExpandVisitor.cc:197-231 ExpandNamedType; assert(root) at :210 *)
  Definition expand_named (fuel : nat) (members : list string) (e : element) : run element :=
    if existsb (String.eqb (ename e)) members then
      match FindRootAncestor fuel r (ename e) with
      | None => None
      | Some None => undefined
      | Some (Some root) => ret (circular (ename e) root)
      end
    else
      match inheritance_tree fuel r (ename e) with
      | None => None
      | Some tree =>
        bind (expand_members (members ++ [ename e]) tree) (fun ext =>
        let ext := copy_meta_id ext e in
        bind (expand_members members e) (fun origin =>
        let origin := set_meta origin (ierase (emeta origin) "id") in
        ret (eset ext (DExtend (extend_content ext ++ [origin])))))
      end.

  (** ExpandVisitor.cc:233-264 ExpandReference; ref->get() asserts a value *)
  Definition expand_reference (members : list string) (e : element) : run element :=
    let ref := clone cAll e in
    match eget ref with
    | Some (DRef symbol) =>
      if String.eqb symbol "" then ret ref else
      if existsb (String.eqb symbol) members then
        throw ("named type '" ++ symbol ++ "' is circularly referencing itself by mixin") else
      match rfind r symbol with
      | None => ret ref
      | Some referenced =>
        bind (expand_or_clone (members ++ [symbol]) referenced) (fun x =>
        ret (set_attrs ref (iset (eattrs ref) "resolved" (meta_id_to_ref x))))
      end
    | _ => undefined
    end.

  (** ExpandVisitor.cc:286-319 ExpandElement<EnumElement>: the attributes *)
  Fixpoint expand_enum_attrs (members : list string) (l acc : info) : run info :=
    match l with
    | [] => ret acc
    | (k, x) :: rest =>
      if String.eqb k "enumerations" then
        match edata x with
        | DArray enums =>
          if ehas x then
            bind (mapR (expand_or_clone members) enums) (fun l' =>
            expand_enum_attrs members rest (iset acc k (make_element (DArray l'))))
          else undefined
        | _ => undefined
        end
      else expand_enum_attrs members rest (iset acc k (clone cAll x))
    end.
  Definition expand_enum (fuel : nat) (members : list string) (e : element) : run element :=
    if negb (is_reserved (ename e)) then expand_named fuel members e else
    bind (if ehas e then bind (expand_value members (edata e)) (fun d => ret (make_element d))
          else ret (make_empty KEnum)) (fun o =>
    bind (expand_enum_attrs members (eattrs e) []) (fun attrs =>
    ret (set_attrs (set_meta o (copy_info (emeta e))) attrs))).

  (** an option of a select: static_cast<OptionElement*> of the expansion *)
  Definition expand_option (members : list string) (o : element) : run element :=
    bind (expand_or_clone members o) (fun x => match ekind x with KOption => ret x | _ => undefined end).

  (** ExpandVisitor.cc:268-378 ExpandElement, one round. Result None: the null pointer. *)
  Definition expand_round (fuel : nat) (members : list string) (e : element) : run (option element) :=
    let if_expandable (m : run element) : run (option element) :=
      match expandable e with
      | None => undefined
      | Some false => ret None
      | Some true => bind m (fun x => ret (Some x))
      end in
    match edata e with
    | DHolder _ | DNull => ret None
    | DString _ | DNumber _ | DBoolean _ =>
      if negb (is_reserved (ename e)) then bind (expand_named fuel members e) (fun x => ret (Some x)) else ret None
    | DRef _ => bind (expand_reference members e) (fun x => ret (Some x))
    | DEnum _ => bind (expand_enum fuel members e) (fun x => ret (Some x))
    | DSelect opts =>
      if_expandable
        (if ehas e then
           bind (mapR (expand_option members) opts) (fun l =>
           ret (set_meta (make_element (DSelect l)) (copy_info (emeta e))))
         else undefined)
    | DArray _ | DObject _ | DExtend _ | DOption _ =>
      if_expandable
        (if negb (is_reserved (ename e)) then expand_named fuel members e else expand_members members e)
    | DMember k v =>
      if_expandable
        (if ehas e then
           bind (expand_or_clone_ptr members k) (fun k' =>
           bind (expand_or_clone_ptr members v) (fun v' =>
           ret (eset (clone (Flags true true false true false) e) (DMember k' v'))))
         else undefined)
    end.
End Expansion.

(** the visitor applied to an element, while the types [members] are being expanded *)
Fixpoint expand (fuel : nat) (r : registry) (members : list string) (e : element) : run (option element) :=
  match fuel with
  | O => None
  | S f => expand_round r (expand f r) fuel members e
  end.
