(** Specification for C38 and C39 *)
From Coq Require Import Permutation.
From Verif Require Import Base TypeTables TypeTablesSpec NamedTypes.

(** a later declaration of a name replaces an earlier one *)
Definition last_named (ds : list named_type) (a : string) (d : named_type) : Prop :=
  exists p q, ds = p ++ d :: q /\ nt_name d = a /\ forall e, In e q -> nt_name e <> a.
(** [a] is said to derive from [b] *)
Definition derives (ds : list named_type) (a b : string) : Prop :=
  exists p d q, ds = p ++ d :: q /\ nt_name d = a /\ spec_name (nt_spec d) = b /\ b <> ""%string /\
    forall e, In e q -> nt_name e = a -> spec_name (nt_spec e) = ""%string.

(** the types a member names: its own, else that of its key, else those it nests, else those of its members. Not those of its
    one-of choices and groups, which the code does not look at. *)
Inductive names : mson_element -> string -> Prop :=
| n_value v k s : spec_name v <> ""%string -> names (Property v k s) (spec_name v)
| n_key v k s : spec_name v = ""%string -> spec_name k <> ""%string -> names (Property v k s) (spec_name k)
| n_nested v k s n : spec_name v = ""%string -> spec_name k = ""%string -> In n (t_nested v) -> names (Property v k s) (s_literal (n_symbol n))
| n_inner v k s l e x : spec_name v = ""%string -> spec_name k = ""%string -> t_nested v = [] -> In l s -> In e l -> names e x ->
    names (Property v k s) x
| n_item v s : spec_name v <> ""%string -> names (ValueMember v s) (spec_name v)
| n_item_inner v s l e x : spec_name v = ""%string -> In l s -> In e l -> names e x -> names (ValueMember v s) x
| n_mixin t : spec_name t <> ""%string -> names (MixinMember t) (spec_name t).
Definition contains (ds : list named_type) (a x : string) : Prop :=
  exists d l e, last_named ds a d /\ In l (nt_sections d) /\ In e l /\ names e x.

(** [a] needs [b]: it is [b], derives from it over some steps, or holds it among its members, their members and so on *)
Definition needs (ds : list named_type) (a b : string) : Prop :=
  a = b \/ reaches (derives ds) a b \/ reaches (contains ds) a b.

(** what the sort compares, given rounds enough *)
Definition compares (ds : list named_type) (a b : named_type) (r : bool) : Prop :=
  exists n, forall m, (n <= m)%nat -> compare_types m ds a b = Some r.
(** an arrangement is sorted if nothing is to come before what it follows *)
Definition arranged (ds l : list named_type) : Prop := ForallOrdPairs (fun x y => compares ds y x false) l.

(** the base type a chain of ancestors arrives at *)
Inductive nearest (ds : list named_type) : string -> base_name -> Prop :=
| nearest_own a d : a <> ""%string -> last_named ds a d -> n_base (t_name (nt_spec d)) <> UndefinedTN -> nearest ds a (n_base (t_name (nt_spec d)))
| nearest_up a d p b : a <> ""%string -> last_named ds a d -> n_base (t_name (nt_spec d)) = UndefinedTN -> derives ds a p -> p <> a ->
    nearest ds p b -> nearest ds a b
| nearest_unnamed : nearest ds "" UndefinedTN
| nearest_unknown a : (forall d, ~ last_named ds a d) -> nearest ds a UndefinedTN
| nearest_top a d : a <> ""%string -> last_named ds a d -> n_base (t_name (nt_spec d)) = UndefinedTN -> (forall p, ~ derives ds a p) -> nearest ds a UndefinedTN
| nearest_self a d : a <> ""%string -> last_named ds a d -> n_base (t_name (nt_spec d)) = UndefinedTN -> derives ds a a -> nearest ds a UndefinedTN.

(** insertion sort, as libstdc++ sorts up to sixteen elements; the last to come before what it follows stays *)
Fixpoint sink (lt : named_type -> named_type -> bool) (x : named_type) (rev_sorted : list named_type) : list named_type :=
  match rev_sorted with [] => [x] | y :: r => if lt x y then y :: sink lt x r else x :: rev_sorted end.
Definition insert (lt : named_type -> named_type -> bool) (x : named_type) (sorted : list named_type) : list named_type :=
  match sorted with
  | [] => [x]
  | first :: _ => if lt x first then x :: sorted else rev (sink lt x (rev sorted))
  end.
Definition insertion_sort (lt : named_type -> named_type -> bool) (l : list named_type) : list named_type :=
  fold_left (fun s x => insert lt x s) l [].
