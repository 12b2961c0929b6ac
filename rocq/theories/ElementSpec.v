(** Specification vocabulary for API elements, independent of the operations of Element.v *)
From Verif Require Import Base Element.

(** elements owned through the data structure definition *)
Definition opt_list {A} (o : option A) : list A := match o with Some x => [x] | None => [] end.
Definition dsd_children {A} (d : dsd A) : list A :=
  match d with
  | DHolder o | DEnum o => opt_list o
  | DMember k v => (opt_list k ++ opt_list v)%list
  | DArray l | DObject l | DExtend l | DOption l | DSelect l => l
  | _ => []
  end.

(** all elements directly owned by an element *)
Definition children (e : element) : list element :=
  (map snd (emeta e) ++ map snd (eattrs e) ++ dsd_children (edata e))%list.

(** [sub x e]: x is e or owned, directly or not, by e *)
Inductive sub : element -> element -> Prop :=
| sub_refl e : sub e e
| sub_step x c e : In c (children e) -> sub x c -> sub x e.

(** a set element whose mandatory pointers are set *)
Definition head_ok (e : element) : Prop :=
  ehas e = true ->
  match edata e with
  | DHolder None | DEnum None | DMember None _ => False
  | _ => True
  end.

(** no mandatory pointer is null anywhere in the element *)
Definition no_null (e : element) : Prop := forall x, sub x e -> head_ok x.

(** what equality is about: everything but the element names (and the payload of elements that
    hold no value) *)
Fixpoint forget (e : element) : element :=
  let 'Elem _ m a h d := e in
  Elem "" (map (fun kv => (fst kv, forget (snd kv))) m) (map (fun kv => (fst kv, forget (snd kv))) a) h
       (if h then dsd_map forget d else dsd_default (dsd_kind d)).

(** a history of operations on a meta or attributes container *)
Inductive info_op : Type :=
| OSet (k : string) (v : element)
| OErase (k : string)
| OClaim (k : string)
| OClear.

(** Dictionary semantics of a history, most recent operation first: the value a key maps to ... *)
Fixpoint last_value (h : list info_op) (k : string) : option element :=
  match h with
  | [] => None
  | OSet k' v :: r => if String.eqb k' k then Some v else last_value r k
  | OErase k' :: r | OClaim k' :: r => if String.eqb k' k then None else last_value r k
  | OClear :: _ => None
  end.

(** ... and when (number of earlier operations) the present occupancy of the key began. *)
Fixpoint birth (h : list info_op) (k : string) : nat :=
  match h with
  | [] => 0
  | OSet k' _ :: r =>
      if String.eqb k' k then match last_value r k with Some _ => birth r k | None => List.length r end
      else birth r k
  | _ :: r => birth r k
  end.

(** [before l a b]: in the list of keys l, a occurs before b *)
Definition before (l : list string) (a b : string) : Prop :=
  exists p q r, l = (p ++ a :: q ++ b :: r)%list.

(** the keys of members with a string key, in order *)
Definition member_keys (l : list element) : list string :=
  flat_map (fun e => opt_list (string_key e)) l.
