(** Specification vocabulary for merging: overriding keyed lists *)
From Verif Require Import Base Element ElementSpec Extend.

Section Override.
  Context {A K : Type} (key : A -> option K) (eqb : K -> K -> bool).
  (** two entries are about the same thing; entries without a key are about nothing *)
  Definition same (x y : A) : bool :=
    match key x, key y with Some a, Some b => eqb a b | _, _ => false end.
  (** the entries that are the first about their key *)
  Fixpoint once (l : list A) : list A :=
    match l with [] => [] | x :: r => x :: filter (fun y => negb (same x y)) (once r) end.
  (** the last entry of l about the key of x; x if it has no key *)
  Definition latest (l : list A) (x : A) : A := last (filter (same x) l) x.
  (** every key keeps its first position and takes its last entry *)
  Definition override (l : list A) : list A := map (latest l) (once l).
End Override.

(** meta and attributes: keyed by name *)
Definition override_info (l : info) : info := override (fun kv => Some (fst kv)) String.eqb l.

(** object entries: members by their string key, refs by their symbol, others have no key *)
Inductive slot : Type := SMember (k : string) | SRef (s : string).
Definition slot_eqb (a b : slot) : bool :=
  match a, b with SMember x, SMember y | SRef x, SRef y => String.eqb x y | _, _ => false end.
Definition slot_of (e : element) : option slot :=
  match e with
  | Elem _ _ _ true (DMember (Some (Elem _ _ _ true (DString k))) _) => Some (SMember k)
  | Elem _ _ _ true (DRef s) => Some (SRef s)
  | _ => None
  end.
Definition override_entries (l : list element) : list element := override slot_of slot_eqb l.

(** entries the theorem speaks of: members have a string key, refs a symbol, no select *)
Definition plain_entry (e : element) : Prop :=
  match ekind e with KMember | KRef => slot_of e <> None | KSelect => False | _ => True end.

(** what an element holds *)
Definition entries (e : element) : list element := if ehas e then dsd_children (edata e) else [].

(** the meta of a chain e :: r: names other than id, prefix, namespace are inherited *)
Definition inherited (kv : string * element) : bool :=
  negb (existsb (String.eqb (fst kv)) ["id"; "prefix"; "namespace"]%string).
Definition chain_meta (e : element) (r : list element) : info :=
  override_info (emeta e ++ flat_map (fun x => filter inherited (emeta x)) r).
Definition chain_attrs (e : element) (r : list element) : info :=
  override_info (eattrs e ++ flat_map eattrs r).

(** the last element of a chain that holds a value *)
Definition last_valued (e : element) (r : list element) : element :=
  last (filter ehas (e :: r)) e.

(** the enumerations an element lists *)
Definition enumerations (e : element) : list element :=
  match ifind (eattrs e) "enumerations" with Some x => entries x | None => [] end.

(** the entries that no later entry equals, in order *)
Fixpoint lasts (l : list element) : list element :=
  match l with
  | [] => []
  | x :: r => if existsb (fun y => match elem_eq x y with Some b => b | None => false end) r then lasts r else x :: lasts r
  end.
