(** Specification for C29: the data structures for which the generated body is claimed to satisfy the
    generated schema. Nothing here refers to the generators. *)
From Verif Require Import Base SoValue Element Extend.

(** a type attribute ("fixed", "nullable", ...) is declared *)
Definition declares (e : element) (name : string) : Prop :=
  exists n m a l, ifind (eattrs e) "typeAttributes" = Some (Elem n m a true (DArray l)) /\
  exists n' m' a', In (Elem n' m' a' true (DString name)) l.
(** what holds of [e] when [b] holds in its context *)
Definition adds (e : element) (name : string) (b b' : bool) : Prop := b' = true <-> b = true \/ declares e name.

Definition variable (e : element) : Prop :=
  exists n m a, ifind (eattrs e) "variable" = Some (Elem n m a true (DBoolean true)).
Definition sample_of (e x : element) : Prop :=
  exists n m a r, ifind (eattrs e) "samples" = Some (Elem n m a true (DArray (x :: r))).
Definition default_of (e x : element) : Prop := ifind (eattrs e) "default" = Some x.
(** what stands in for the value of an element that has none *)
Definition stand_in (e x : element) : Prop :=
  sample_of e x \/ (~ (exists y, sample_of e y) /\ default_of e x).

Definition primitive (e : element) : Prop :=
  match edata e with DString _ | DNumber _ | DBoolean _ => True | _ => False end.
(** elements that denote one JSON value *)
Inductive literal : element -> value -> Prop :=
| lit_string : forall e s, ehas e = true -> edata e = DString s -> literal e (VString s)
| lit_number : forall e s, ehas e = true -> edata e = DNumber s -> literal e (VNumber s)
| lit_true : forall e, ehas e = true -> edata e = DBoolean true -> literal e VTrue
| lit_false : forall e, ehas e = true -> edata e = DBoolean false -> literal e VFalse
| lit_enum : forall e x v, ehas e = true -> edata e = DEnum (Some x) -> literal x v -> literal e v.
Definition listed (l : list element) (v : value) : Prop := exists y, In y l /\ primitive y /\ literal y v.

(** The members an entry of an object contributes; [fx]: the object is fixed. Objects among the
    entries are mixins. *)
Inductive flat (fx : bool) : element -> list element -> Prop :=
| flat_member : forall e k v, edata e = DMember k v -> flat fx e [e]
| flat_other : forall e, match edata e with DArray _ | DBoolean _ | DEnum _ | DNull | DNumber _ | DString _ | DOption _ => True | _ => False end -> flat fx e []
| flat_holder : forall e x ms, ehas e = true -> edata e = DHolder (Some x) -> flat fx x ms -> flat fx e ms
| flat_ref : forall e t x ms, edata e = DRef t -> ifind (eattrs e) "resolved" = Some x -> flat fx x ms -> flat fx e ms
| flat_extend : forall e l x ms, edata e = DExtend l -> merge l = Ok (Some x) -> flat fx x ms -> flat fx e ms
| flat_mixin : forall e l mss, edata e = DObject l -> ehas e = true -> fx = false -> ~ declares e "fixed" ->
    Forall2 (flat fx) l mss -> flat fx e (concat mss)
| flat_mixin_empty : forall e l, edata e = DObject l -> ehas e = false -> ~ (exists x, stand_in e x) -> flat fx e [].

(** the name a member puts into a body *)
Inductive named : element -> string -> Prop :=
| named_string : forall m k x s, edata m = DMember (Some k) x -> ehas k = true -> edata k = DString s -> named m s
| named_extend : forall m k x l k' s, edata m = DMember (Some k) x -> variable m -> edata k = DExtend l ->
    merge l = Ok (Some k') -> ehas k' = true -> edata k' = DString s -> named m s.

(** [conform fx ft nl e]: in a context that makes it fixed ([fx]), of fixed type ([ft]), nullable ([nl]) *)
Inductive conform (fx ft nl : bool) : element -> Prop :=
| c_null : forall e, edata e = DNull -> conform fx ft nl e
(** a primitive; samples and defaults are of its type *)
| c_primitive : forall e, primitive e ->
    (ehas e = false -> forall x, stand_in e x -> ehas x = true /\ dsd_kind (edata x) = dsd_kind (edata e)) -> conform fx ft nl e
| c_holder : forall e d, edata e = DHolder d -> (forall x, d = Some x -> conform fx ft nl x) -> conform fx ft nl e
| c_ref : forall e t, edata e = DRef t -> (forall x, ifind (eattrs e) "resolved" = Some x -> conform fx ft nl x) -> conform fx ft nl e
| c_extend : forall e l, edata e = DExtend l -> (forall x, merge l = Ok (Some x) -> conform fx ft nl x) -> conform fx ft nl e
(** an enum: its value, sample or default is one of the listed ones; without, the first entry is a primitive *)
| c_enum : forall e v l n m a fx' nl', edata e = DEnum v -> adds e "fixed" fx fx' -> adds e "nullable" nl nl' ->
    ifind (eattrs e) "enumerations" = Some (Elem n m a true (DArray l)) ->
    (forall y, In y l -> conform fx' false false y) ->
    (ehas e = true -> forall x, v = Some x -> exists w, literal x w /\ listed l w) ->
    (ehas e = false -> forall x, stand_in e x -> exists w, literal x w /\ listed l w) ->
    (ehas e = false -> nl' = false -> ~ (exists x, stand_in e x) -> exists x r, l = x :: r /\ primitive x) ->
    conform fx ft nl e
(** an array: nothing is asked of the entries unless it is fixed or of fixed type *)
| c_array : forall e l fx' ft', edata e = DArray l -> adds e "fixed" fx fx' -> adds e "fixedType" ft ft' ->
    (ehas e = false -> forall x, stand_in e x ->
       fx' = false /\ ft' = false /\ ehas x = true /\ dsd_kind (edata x) = KArray) ->
    (ehas e = true -> fx' = true \/ ft' = true -> forall x, In x l ->
       match edata x with DMember _ _ | DOption _ | DSelect _ | DRef _ => False | _ => True end /\
       (ft' = false -> primitive x -> ehas x = true \/ exists y, stand_in x y) /\
       forall b, (b = true -> fx' = true) -> conform b false false x) ->
    conform fx ft nl e
(** an object: members have different, nonempty names; a variable member comes alone *)
| c_object : forall e l fx' ft', edata e = DObject l -> adds e "fixed" fx fx' -> adds e "fixedType" ft ft' ->
    (ehas e = false -> forall x, stand_in e x ->
       fx' = false /\ ft' = false /\ ehas x = true /\ dsd_kind (edata x) = KObject) ->
    (ehas e = true -> exists mss names, Forall2 (flat fx') l mss /\
       Forall2 named (concat mss) names /\ NoDup names /\
       (forall m, In m (concat mss) -> variable m -> concat mss = [m]) /\
       (forall m, In m (concat mss) -> ~ variable m -> ~ named m "") /\
       forall m k x b fxm ftm nlm, In m (concat mss) -> edata m = DMember k (Some x) -> (b = true -> fx' = true) ->
         adds m "fixed" b fxm -> adds m "fixedType" false ftm -> adds m "nullable" false nlm -> conform fxm ftm nlm x) ->
    conform fx ft nl e.
