(** Specification for C27: the JSON values a type admits, and their number. Nothing here refers to the
    generators. *)
From Verif Require Import Base SoValue Element Extend JsonSpec GenSpec ConformSpec.

(** [P] holds for exactly [k] values *)
Definition counts {A} (P : A -> Prop) (k : enat) : Prop :=
  match k with
  | Fin n => exists l, NoDup l /\ N.of_nat (List.length l) = n /\ forall v, P v <-> In v l
  | Inf => forall l, exists v, P v /\ ~ In v l
  end.

Definition nullable_kind (e : element) : Prop :=
  match edata e with DString _ | DNumber _ | DBoolean _ | DArray _ | DObject _ | DEnum _ => True | _ => False end.
Definition of_kind (d : dsd element) (v : value) : Prop :=
  match d, v with
  | DString _, VString _ => True
  | DNumber _, VNumber s => json_number s = true
  | DBoolean _, (VTrue | VFalse) => True
  | _, _ => False
  end.
(** [fixed inh e]: declared fixed, or part of something fixed *)
Definition fixed (inh : bool) (e : element) : Prop := inh = true \/ declares e "fixed".
Definition defines (e : element) : Prop := ehas e = true \/ exists x, stand_in e x.

(** [admits inh e v]: [v] is a value of the type [e], inside something fixed if [inh] *)
Inductive admits : bool -> element -> value -> Prop :=
| a_null : forall inh e, edata e = DNull -> admits inh e VNull
| a_nullable : forall inh e, nullable_kind e -> declares e "nullable" -> admits inh e VNull
| a_fixed : forall inh e v, primitive e -> fixed inh e -> literal e v -> admits inh e v
| a_open : forall inh e v, primitive e -> ~ declares e "fixed" -> (inh = true -> ~ defines e) -> of_kind (edata e) v -> admits inh e v
| a_object : forall inh e l f ms, edata e = DObject l -> adds e "fixed" inh f -> f = true \/ declares e "fixedType" ->
    (ehas e = false -> ms = []) -> (ehas e = true -> values f l ms) -> admits inh e (VObject ms)
| a_tuple : forall inh e l vs, edata e = DArray l -> fixed inh e ->
    (ehas e = false -> vs = []) -> (ehas e = true -> entries_of l vs) -> admits inh e (VArray vs)
| a_typed : forall inh e l vs, edata e = DArray l -> inh = false -> ~ declares e "fixed" -> declares e "fixedType" ->
    (ehas e = false -> vs = []) -> (ehas e = true -> each l vs) -> admits inh e (VArray vs)
| a_array : forall inh e l vs, edata e = DArray l -> inh = false -> ~ declares e "fixed" -> ~ declares e "fixedType" ->
    admits inh e (VArray vs)
| a_enum : forall inh e v n m a l f y w, edata e = DEnum v -> adds e "fixed" inh f ->
    ifind (eattrs e) "enumerations" = Some (Elem n m a true (DArray l)) -> In y l -> admits f y w -> admits inh e w
| a_holder : forall inh e x v, ehas e = true -> edata e = DHolder (Some x) -> admits inh x v -> admits inh e v
| a_ref : forall inh e t x v, edata e = DRef t -> ifind (eattrs e) "resolved" = Some x -> admits inh x v -> admits inh e v
| a_extend : forall inh e l x v, ehas e = true -> edata e = DExtend l -> merge l = Ok (Some x) -> admits inh x v -> admits inh e v
(** one value for every member, in order *)
with values : bool -> list element -> list (string * value) -> Prop :=
| vs_nil : forall f, values f [] []
| vs_cons : forall f m l k x key v ms, edata m = DMember (Some k) (Some x) -> ehas m = true -> edata k = DString key -> ehas k = true ->
    admits f x v -> values f l ms -> values f (m :: l) ((key, v) :: ms)
(** one value for every entry, in order *)
with entries_of : list element -> list value -> Prop :=
| es_nil : entries_of [] []
| es_cons : forall x l v vs, admits true x v -> entries_of l vs -> entries_of (x :: l) (v :: vs)
(** values of any of the entries *)
with each : list element -> list value -> Prop :=
| ea_nil : forall l, each l []
| ea_cons : forall l x v vs, In x l -> admits false x v -> each l vs -> each l (v :: vs).

Definition prefixes_fit (op : enat -> enat -> enat) (start : enat) (ks : list enat) : Prop :=
  forall n, fits (fold_left op (firstn n ks) start).
Definition product (ks : list enat) : enat := fold_left emul ks (Fin 1).
Definition sum (ks : list enat) : enat := fold_left eadd ks (Fin 0).
(** with a null value besides *)
Definition or_null (e : element) (k k' : enat) : Prop :=
  (~ declares e "nullable" /\ k' = k) \/ (declares e "nullable" /\ k' = eadd k (Fin 1) /\ fits k').

(** [counted inh e k]: the types whose size is claimed to be right. All intermediate sums and products
    fit into a cardinal; objects have plain required members with different names; the entries of
    an enum admit no value in common. *)
Inductive counted : bool -> element -> enat -> Prop :=
| n_null : forall inh e, edata e = DNull -> counted inh e (Fin 1)
| n_fixed : forall inh e k, primitive e -> fixed inh e -> ehas e = true -> or_null e (Fin 1) k -> counted inh e k
| n_open : forall inh e k, primitive e -> ~ declares e "fixed" -> (inh = true -> ~ defines e) ->
    or_null e (match edata e with DBoolean _ => Fin 2 | _ => Inf end) k -> counted inh e k
| n_object : forall inh e l f ks names k, edata e = DObject l -> adds e "fixed" inh f -> f = true \/ declares e "fixedType" ->
    ehas e = true -> members f l names ks -> NoDup names -> prefixes_fit emul (Fin 1) ks -> or_null e (product ks) k -> counted inh e k
| n_tuple : forall inh e l ks k, edata e = DArray l -> fixed inh e -> ehas e = true ->
    all_counted true l ks -> prefixes_fit emul (Fin 1) ks -> or_null e (product ks) k -> counted inh e k
| n_no_members : forall inh e l f k, edata e = DObject l -> adds e "fixed" inh f -> f = true \/ declares e "fixedType" -> ehas e = false -> or_null e (Fin 1) k -> counted inh e k
| n_no_entries : forall inh e l k, edata e = DArray l -> fixed inh e -> ehas e = false -> or_null e (Fin 1) k -> counted inh e k
| n_typed : forall inh e l ks k, edata e = DArray l -> inh = false -> ~ declares e "fixed" -> declares e "fixedType" -> ehas e = true ->
    all_counted false l ks -> (exists k', In k' ks /\ k' <> Fin 0) -> or_null e Inf k -> counted inh e k
| n_array : forall inh e l k, edata e = DArray l -> inh = false -> ~ declares e "fixed" -> ~ declares e "fixedType" ->
    or_null e Inf k -> counted inh e k
| n_enum : forall inh e v n m a l f ks k, edata e = DEnum v -> adds e "fixed" inh f ->
    ifind (eattrs e) "enumerations" = Some (Elem n m a true (DArray l)) -> all_counted f l ks -> prefixes_fit eadd (Fin 0) ks ->
    ForallOrdPairs (fun x y => forall w, admits f x w -> admits f y w -> False) l ->
    (declares e "nullable" -> forall y, In y l -> ~ admits f y VNull) ->
    or_null e (sum ks) k -> counted inh e k
| n_holder : forall inh e x k, ehas e = true -> edata e = DHolder (Some x) -> counted inh x k -> counted inh e k
| n_ref : forall inh e t x k, edata e = DRef t -> ifind (eattrs e) "resolved" = Some x -> counted inh x k -> counted inh e k
| n_extend : forall inh e l x k, ehas e = true -> edata e = DExtend l -> merge l = Ok (Some x) -> counted inh x k -> counted inh e k
with all_counted : bool -> list element -> list enat -> Prop :=
| all_nil : forall f, all_counted f [] []
| all_cons : forall f x l k ks, counted f x k -> all_counted f l ks -> all_counted f (x :: l) (k :: ks)
with members : bool -> list element -> list string -> list enat -> Prop :=
| ms_nil : forall f, members f [] [] []
| ms_cons : forall f m l k x key names kc ks, edata m = DMember (Some k) (Some x) -> ehas m = true -> edata k = DString key -> ehas k = true ->
    ~ variable m -> ~ declares m "nullable" -> ~ declares m "optional" ->
    counted f x kc -> members f l names ks -> members f (m :: l) (key :: names) (kc :: ks).
