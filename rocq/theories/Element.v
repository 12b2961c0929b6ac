(** Model of the API Elements data structure: packages/drafter/src/refract/Element.h,
    Element.cc, ElementIfc.h, InfoElements.{h,cc}, Utils.cc (equality) and dsd/*.{h,cc}.
    std::unique_ptr<IElement> owned by a container is the element itself; a unique_ptr that the
    code allows to be null is an [option]. *)
From Verif Require Import Base.

(** refract/TypeQueryVisitor.h:21-42 the dynamic type of an element (13 instantiations of
    Element<DataType>, refract/Utils.h:22-36) *)
Inductive kind : Type :=
| KNull | KHolder | KString | KNumber | KBoolean | KArray | KMember | KObject | KEnum
| KRef | KExtend | KOption | KSelect.

Scheme Equality for kind.

(** dsd/*.h: the data structure definition held by an element.
    Null.h:21, Holder.h:34 (nullable pointer), String.h:26, Number.h:28 (the literal),
    Bool.h:24, Array.h:32, Member.h:27-28 (nullable key and value), Object.h:33, Enum.h:35
    (nullable), Ref.h:29, Extend.h:30, Option.h:30, Select.h:31.
    Simplification: Select holds unique_ptr<OptionElement>; here any element (see [wf]), and
    never a null pointer (Select.cc:52 is the only place that tolerates one). *)
Inductive dsd (A : Type) : Type :=
| DNull
| DHolder (d : option A)
| DString (s : string)
| DNumber (s : string)
| DBoolean (b : bool)
| DArray (l : list A)
| DMember (k v : option A)
| DObject (l : list A)
| DEnum (d : option A)
| DRef (s : string)
| DExtend (l : list A)
| DOption (l : list A)
| DSelect (l : list A).
Arguments DNull {A}. Arguments DHolder {A} _. Arguments DString {A} _. Arguments DNumber {A} _.
Arguments DBoolean {A} _. Arguments DArray {A} _. Arguments DMember {A} _ _.
Arguments DObject {A} _. Arguments DEnum {A} _. Arguments DRef {A} _. Arguments DExtend {A} _.
Arguments DOption {A} _. Arguments DSelect {A} _.

(** refract/Element.h:35-43: meta_, attributes_, hasValue_, data_, name_ *)
Inductive element : Type :=
| Elem (name : string) (meta attrs : list (string * element)) (hasValue : bool) (data : dsd element).

(** refract/InfoElements.h:22 the container of meta and attributes *)
Definition info := list (string * element).

Definition ename (e : element) : string := let 'Elem n _ _ _ _ := e in n.
Definition emeta (e : element) : info := let 'Elem _ m _ _ _ := e in m.
Definition eattrs (e : element) : info := let 'Elem _ _ a _ _ := e in a.
Definition ehas (e : element) : bool := let 'Elem _ _ _ h _ := e in h.
Definition edata (e : element) : dsd element := let 'Elem _ _ _ _ d := e in d.

(** Element.h:153-156 *)
Definition eempty (e : element) : bool := negb (ehas e).

(** Element.h:73-83 [get()]: [assert(hasValue_)], then data_. None = the assertion fails. *)
Definition eget (e : element) : option (dsd element) := if ehas e then Some (edata e) else None.

Definition dsd_kind {A} (d : dsd A) : kind :=
  match d with
  | DNull => KNull | DHolder _ => KHolder | DString _ => KString | DNumber _ => KNumber
  | DBoolean _ => KBoolean | DArray _ => KArray | DMember _ _ => KMember | DObject _ => KObject
  | DEnum _ => KEnum | DRef _ => KRef | DExtend _ => KExtend | DOption _ => KOption
  | DSelect _ => KSelect
  end.

(** TypeQueryVisitor.cc: the dynamic type; also what dynamic_cast<const ElementT*> tests *)
Definition ekind (e : element) : kind := dsd_kind (edata e).

Definition is_kind (k : kind) (e : element) : bool := kind_beq k (ekind e).

(** default constructed DSD: Null, Holder.cc:34, String.h:26, Number.h:28 ("0"), Bool.h:24,
    Array.cc:34, Member.cc:35, Object.cc:37, Enum.cc:35, Ref.h:35, Extend.cc:326, Option.cc:37,
    Select.cc:38 *)
Definition dsd_default (k : kind) : dsd element :=
  match k with
  | KNull => DNull | KHolder => DHolder None | KString => DString "" | KNumber => DNumber "0"
  | KBoolean => DBoolean false | KArray => DArray [] | KMember => DMember None None
  | KObject => DObject [] | KEnum => DEnum None | KRef => DRef "" | KExtend => DExtend []
  | KOption => DOption [] | KSelect => DSelect []
  end.

(** DataType::name: dsd/*.cc [const char* X::name]; the holder's is "" (Holder.cc:18) *)
Definition kind_name (k : kind) : string :=
  match k with
  | KNull => "null" | KHolder => "" | KString => "string" | KNumber => "number"
  | KBoolean => "boolean" | KArray => "array" | KMember => "member" | KObject => "object"
  | KEnum => "enum" | KRef => "ref" | KExtend => "extend" | KOption => "option"
  | KSelect => "select"
  end.

(** Element.h:163-167 make_empty *)
Definition make_empty (k : kind) : element := Elem (kind_name k) [] [] false (dsd_default k).

(** Element.h:59, 173-178 make_element *)
Definition make_element (d : dsd element) : element := Elem (kind_name (dsd_kind d)) [] [] true d.

(** Element.h:85-89 [set] *)
Definition eset (e : element) (d : dsd element) : element :=
  let 'Elem n m a _ _ := e in Elem n m a true d.
(** Element.h:117-120 *)
Definition set_name (e : element) (n : string) : element :=
  let 'Elem _ m a h d := e in Elem n m a h d.
Definition set_meta (e : element) (m : info) : element :=
  let 'Elem n _ a h d := e in Elem n m a h d.
Definition set_attrs (e : element) (a : info) : element :=
  let 'Elem n m _ h d := e in Elem n m a h d.

(** Element.cc:24-47 isReserved: binary search of a sorted table; membership.
    [w.c_str()] (Element.cc:51) cuts the name at its first NUL byte. *)
Fixpoint c_str (s : string) : string :=
  match s with
  | EmptyString => EmptyString
  | String a r => if (byte a =? 0)%N then EmptyString else String a (c_str r)
  end.

Definition reserved_names : list string :=
  ["array"; "boolean"; "enum"; "extend"; "generic"; "member"; "null"; "number"; "object";
   "option"; "ref"; "select"; "string"]%string.

Definition is_reserved (w : string) : bool := existsb (String.eqb (c_str w)) reserved_names.

(** InfoElements *)
Section Info.
  Context {A : Type}.

  (** InfoElements.cc:134-139 (find): the first entry with the key *)
  Fixpoint ifind (l : list (string * A)) (k : string) : option A :=
    match l with
    | [] => None
    | (k', v) :: r => if String.eqb k' k then Some v else ifind r k
    end.

  (** InfoElements.cc:99-110 (set): assign in place to the first entry with the key or append *)
  Fixpoint iset (l : list (string * A)) (k : string) (v : A) : list (string * A) :=
    match l with
    | [] => [(k, v)]
    | (k', v') :: r => if String.eqb k' k then (k', v) :: r else (k', v') :: iset r k v
    end.

  (** InfoElements.cc:91-97 erase(key): remove_if on the whole container *)
  Definition ierase (l : list (string * A)) (k : string) : list (string * A) :=
    filter (fun kv => negb (String.eqb (fst kv) k)) l.

  (** InfoElements.cc:52-55 erase(iterator to the first entry with the key) *)
  Fixpoint ierase1 (l : list (string * A)) (k : string) : list (string * A) :=
    match l with
    | [] => []
    | (k', v') :: r => if String.eqb k' k then r else (k', v') :: ierase1 r k
    end.

  (** InfoElements.cc:117-132 claim(key): hand out the first entry, erase only it *)
  Definition iclaim (l : list (string * A)) (k : string) : option A * list (string * A) :=
    match ifind l k with
    | Some v => (Some v, ierase1 l k)
    | None => (None, l)
    end.

  (** InfoElements.cc:82-89 clone(other): append copies, without looking at the keys *)
  Definition iclone (l other : list (string * A)) : list (string * A) := (l ++ other)%list.
End Info.

(** dsd mapped over the owned elements *)
Definition dsd_map {A B} (f : A -> B) (d : dsd A) : dsd B :=
  match d with
  | DNull => DNull
  | DHolder o => DHolder (option_map f o)
  | DString s => DString s
  | DNumber s => DNumber s
  | DBoolean b => DBoolean b
  | DArray l => DArray (map f l)
  | DMember k v => DMember (option_map f k) (option_map f v)
  | DObject l => DObject (map f l)
  | DEnum o => DEnum (option_map f o)
  | DRef s => DRef s
  | DExtend l => DExtend (map f l)
  | DOption l => DOption (map f l)
  | DSelect l => DSelect (map f l)
  end.

(** Element.h:132-151 clone with cAll: a new element; attributes and meta are copied with
    InfoElements' copy constructor (InfoElements.cc:72-80), data_ with the DSD's copy
    constructor; all of them clone what they own with cAll. *)
Fixpoint clone_all (e : element) : element :=
  let 'Elem n m a h d := e in
  Elem n (map (fun kv => (fst kv, clone_all (snd kv))) m)
         (map (fun kv => (fst kv, clone_all (snd kv))) a) h (dsd_map clone_all d).

(** ElementIfc.h:29-37 clone flags *)
Record clone_flags : Type := Flags {
  cMeta : bool; cAttributes : bool; cValue : bool; cElement : bool; cNoMetaId : bool }.
Definition cAll : clone_flags := Flags true true true true false.

(** Element.h:132-151 clone(flags) *)
Definition clone (f : clone_flags) (e : element) : element :=
  let k := ekind e in
  let copy l := map (fun kv : string * element => (fst kv, clone_all (snd kv))) l in
  Elem (if cElement f then ename e else kind_name k)
       (if cMeta f then (if cNoMetaId f then ierase (copy (emeta e)) "id" else copy (emeta e)) else [])
       (if cAttributes f then copy (eattrs e) else [])
       (if cValue f then ehas e else false)
       (if cValue f then dsd_map clone_all (edata e) else dsd_default k).

(** Equality. [None]: a null pointer is dereferenced (dsd/Holder.cc:54-57, dsd/Enum.cc:55-58)
    or a unique_ptr in a container is null. [oand]: && with short circuit. *)
Definition oand (a : option bool) (b : option bool) : option bool :=
  match a with
  | Some true => b
  | Some false => Some false
  | None => None
  end.

(** Utils.cc:45-55 / Array.cc:73-85, Object.cc, Extend.cc, Option.cc, Select.cc:
    sizes compared first, then std::equal *)
Section ListEq.
  Context {A : Type} (eqA : A -> A -> option bool).
  Fixpoint all2 (l r : list A) : option bool :=
    match l, r with
    | [], [] => Some true
    | x :: l', y :: r' => oand (eqA x y) (all2 l' r')
    | _, _ => Some false
    end.
  Definition list_eq (l r : list A) : option bool :=
    oand (Some (Nat.eqb (List.length l) (List.length r))) (all2 l r).
  Fixpoint iall2 (l r : list (string * A)) : option bool :=
    match l, r with
    | [], [] => Some true
    | (k, x) :: l', (k', y) :: r' =>
        oand (oand (Some (String.eqb k k')) (eqA x y)) (iall2 l' r')
    | _, _ => Some false
    end.
  Definition info_eq (l r : list (string * A)) : option bool :=
    oand (Some (Nat.eqb (List.length l) (List.length r))) (iall2 l r).
  (** Holder.cc:54-57, Enum.cc:55-58: [*l == *r] *)
  Definition deref_eq (l r : option A) : option bool :=
    match l, r with Some x, Some y => eqA x y | _, _ => None end.
  (** Member.cc:66-68: both null or both non-null and equal (distinct elements never share a
      pointer) *)
  Definition ptr_eq (l r : option A) : option bool :=
    match l, r with
    | None, None => Some true
    | Some x, Some y => eqA x y
    | _, _ => Some false
    end.
  (** the DSDs' operator==: Null.cc:32, Holder.cc:54, String.cc:34, Number.cc:50, Bool.cc:31,
      Array.cc:73, Member.cc:64, Object.cc:114, Enum.cc:55, Ref.cc:34, Extend.cc:376,
      Option.cc:76, Select.cc:80. Only called on DSDs of the same type (Utils.cc:24). *)
  Definition dsd_eq (d d' : dsd A) : option bool :=
    match d, d' with
    | DNull, DNull => Some true
    | DHolder x, DHolder y => deref_eq x y
    | DString s, DString t => Some (String.eqb s t)
    | DNumber s, DNumber t => Some (String.eqb s t)
    | DBoolean s, DBoolean t => Some (Bool.eqb s t)
    | DArray l, DArray r => list_eq l r
    | DMember k v, DMember k' v' => oand (ptr_eq k k') (ptr_eq v v')
    | DObject l, DObject r => list_eq l r
    | DEnum x, DEnum y => deref_eq x y
    | DRef s, DRef t => Some (String.eqb s t)
    | DExtend l, DExtend r => list_eq l r
    | DOption l, DOption r => list_eq l r
    | DSelect l, DSelect r => list_eq l r
    | _, _ => Some false
    end.
End ListEq.

(** Utils.cc:18-39 [visit(lhs, Equal{rhs})]: same dynamic type, same emptiness, attributes,
    meta, then the DSD's ==. The element name is not compared. *)
Fixpoint elem_eq (x y : element) {struct x} : option bool :=
  let 'Elem _ m a h d := x in
  let 'Elem _ m' a' h' d' := y in
  if negb (kind_beq (dsd_kind d) (dsd_kind d')) then Some false else
  oand (oand (oand (Some (Bool.eqb h h')) (info_eq elem_eq a a')) (info_eq elem_eq m m'))
       (if negb h then Some true else dsd_eq elem_eq d d').

(** dsd/Object.cc:95-102: does the entry hold a member with that string key? *)
Definition string_key (e : element) : option string :=
  match ehas e, edata e with
  | true, DMember (Some k) _ =>
      match ehas k, edata k with
      | true, DString s => Some s
      | _, _ => None
      end
  | _, _ => None
  end.

Definition has_key (name : string) (e : element) : bool :=
  match string_key e with Some s => String.eqb s name | None => false end.

(** dsd/Object.cc:93-104 find *)
Definition obj_find (l : list element) (name : string) : option element := find (has_key name) l.

(** erase(find(name)): drops the first matching entry only *)
Fixpoint remove_first (p : element -> bool) (l : list element) : list element :=
  match l with
  | [] => []
  | x :: r => if p x then r else x :: remove_first p r
  end.

(** dsd/Object.cc:62-77 push_back *)
Definition obj_push_back (l : list element) (e : element) : list element :=
  match l, string_key e with
  | _ :: _, Some s => (remove_first (has_key s) l ++ [e])%list
  | _, _ => (l ++ [e])%list
  end.

(** dsd/Object.cc:106-112 addMember (Member.cc:53-56) *)
Definition make_member (name : string) (v : option element) : element :=
  make_element (DMember (Some (make_element (DString name))) v).
Definition obj_add_member (l : list element) (name : string) (v : option element) : list element :=
  (remove_first (has_key name) l ++ [make_member name v])%list.
