(** Specification for C50 and C51: what the declarations of a blueprint say about named types *)
From Verif Require Import Base TypeTables.

(** [a] reaches [b] in at least one step *)
Inductive reaches (R : string -> string -> Prop) : string -> string -> Prop :=
| reach_one a b : R a b -> reaches R a b
| reach_more a b c : R a b -> reaches R b c -> reaches R a c.

(** a name that refers to a type: [+ (A)], not [+ (*A*)] *)
Definition refers (n : type_name) (x : string) : Prop :=
  s_literal (n_symbol n) = x /\ x <> ""%string /\ s_variable (n_symbol n) = false.

(** [a] is declared as a sub type of [b] *)
Definition inherits (ds : list declaration) (a b : string) : Prop :=
  exists d, In d ds /\ d_id d = a /\ n_base (t_name (d_spec d)) = UndefinedTN /\ refers (t_name (d_spec d)) b.
(** [a] is declared as an array or an enum of types among which is [b] *)
Definition nests (ds : list declaration) (a b : string) : Prop :=
  exists d n, In d ds /\ d_id d = a /\ (n_base (t_name (d_spec d)) = ArrayTN \/ n_base (t_name (d_spec d)) = EnumTN) /\
    In n (t_nested (d_spec d)) /\ refers n b.
Definition mentions (ds : list declaration) (a b : string) : Prop := inherits ds a b \/ nests ds a b.

(** the kind of type a built-in name stands for *)
Inductive built_in : base_name -> base_type -> Prop :=
| b_bool : built_in BooleanTN PrimitiveBT
| b_string : built_in StringTN PrimitiveBT
| b_number : built_in NumberTN PrimitiveBT
| b_array : built_in ArrayTN ValueBT
| b_enum : built_in EnumTN ValueBT
| b_object : built_in ObjectTN ObjectBT.
(** the kind of a declared type: its own, an object if nothing is said, or that of its super type *)
Inductive kind (ds : list declaration) : string -> base_type -> Prop :=
| kind_own d k : In d ds -> built_in (n_base (t_name (d_spec d))) k -> kind ds (d_id d) k
| kind_implicit d : In d ds -> t_name (d_spec d) = TN UndefinedTN (Sym "" false) -> kind ds (d_id d) ImplicitObjectBT
| kind_inherited a b k : inherits ds a b -> kind ds b k -> kind ds a k.

(** the declarations make sense *)
Definition sensible (ds : list declaration) : Prop :=
  NoDup (map d_id ds) /\
  (forall a b, inherits ds a b -> ~ reaches (mentions ds) a a) /\
  (forall a b, inherits ds a b -> exists k, kind ds b k).

(** [id] is declared, and declared again later *)
Definition twice (ds : list declaration) (id : string) : Prop :=
  exists p d q, ds = p ++ d :: q /\ d_id d = id /\ In id (map d_id p).

(** the dependencies a table states *)
Definition states (d : list (string * list string)) (a b : string) : Prop := In b (entry d a).
Definition known (d : list (string * list string)) (a : string) : Prop := exists s, m_find d a = Some s.

(** calls of addDependency (dependency, dependent, whether cycles are forbidden), and their answers *)
Record call : Type := Call { c_on : string; c_by : string; c_strict : bool }.
Fixpoint calls (d : list (string * list string)) (l : list call) : list (string * list string) * list (option type_error) :=
  match l with
  | [] => (d, [])
  | c :: r => let (d1, e) := add_dependency d (c_on c) (c_by c) (c_strict c) in let (d2, es) := calls d1 r in (d2, e :: es)
  end.
(** the dependencies [l] has added, given the answers *)
Definition added (l : list call) (es : list (option type_error)) (a b : string) : Prop :=
  exists s, In (Call b a s, None) (combine l es).
