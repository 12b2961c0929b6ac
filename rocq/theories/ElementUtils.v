(** Model of packages/drafter/src/refract/ElementUtils.cc (queries), Cardinal.h and ElementSize.cc.
    [run] (Expand.v): None = the fuel did not suffice, Undefined = an assertion fails, a null pointer
    is dereferenced or an exception leaves a noexcept function (std::terminate). *)
From Verif Require Import Base Element Extend Registry Expand.

Definition lift {A} (o : option A) : run A := match o with Some a => ret a | None => undefined end.
Definition of_res {A} (r : res A) : run A := Some r.
(** a noexcept function: what is thrown inside calls std::terminate *)
Definition noexc {A} (m : run A) : run A := match m with Some (Throws _) => undefined | x => x end.
(** a loop that threads an accumulator *)
Fixpoint foldR {A B} (f : A -> B -> run A) (a : A) (l : list B) : run A :=
  match l with [] => ret a | x :: r => bind (f a x) (fun a' => foldR f a' r) end.

(** ElementUtils.cc:94-110 hasTypeAttr; None: get() of an array without a value asserts
    (Element.h:75) *)
Definition type_entry (name : string) (e : element) : bool :=
  match e with Elem _ _ _ true (DString s) => String.eqb s name | _ => false end.
Definition has_type_attr (e : element) (name : string) : option bool :=
  match ifind (eattrs e) "typeAttributes" with
  | Some (Elem _ _ _ h (DArray l)) => if h then Some (existsb (type_entry name) l) else None
  | _ => Some false
  end.

(** ElementUtils.cc:137-156 isVariable *)
Definition is_variable (e : element) : bool :=
  match ifind (eattrs e) "variable" with
  | Some (Elem _ _ _ h (DBoolean b)) => if h then b else false
  | _ => false
  end.

(** ElementUtils.cc:258-267 findFirstSample *)
Definition find_first_sample (e : element) : option element :=
  match ifind (eattrs e) "samples" with
  | Some (Elem _ _ _ true (DArray (x :: _))) => Some x
  | _ => None
  end.
(** ElementUtils.cc:269-275 findDefault *)
Definition find_default (e : element) : option element := ifind (eattrs e) "default".
(** ElementUtils.cc:158-161 hasDefault *)
Definition has_default (e : element) : bool := match find_default e with Some _ => true | None => false end.
(** ElementUtils.cc:277-286 findValue *)
Definition find_value (e : element) : option element :=
  if ehas e then Some e else
  match find_first_sample e with Some x => Some x | None => find_default e end.
(** ElementUtils.cc:288-291 definesValue *)
Definition defines_value (e : element) : bool := match find_value e with Some _ => true | None => false end.

(** ElementUtils.cc:293-303 resolve: asserts that the attribute is there *)
Definition resolve (e : element) : option element := ifind (eattrs e) "resolved".

(** Extend element: e.get().merge(); get() asserts, the merged pointer is dereferenced or asserted
    to be non-null at every call (ElementUtils.cc:87-92, JsonValue.cc:277-282, JsonSchema.cc:601-606) *)
Definition merged (e : element) : run element :=
  if ehas e then
    match edata e with
    | DExtend l => bind (of_res (merge l)) lift
    | _ => undefined
    end
  else undefined.

(** ElementUtils.cc:22-92, ElementUtils.h:56-72 inheritsFixed: every call goes through a visitor whose
    operator() is noexcept (ElementUtils.cc:25) *)
Fixpoint inherits_fixed (n : nat) (e : element) : run bool :=
  match n with
  | O => None
  | S n =>
    match edata e with
    | DArray _ | DString _ | DNumber _ | DBoolean _ => ret (defines_value e)
    | DMember _ v =>
      if is_variable e then ret false else
      if negb (ehas e) then ret (has_default e) else bind (lift v) (inherits_fixed n)
    | DEnum v =>
      if negb (ehas e) then ret (has_default e) else bind (lift v) (inherits_fixed n)
    | DExtend _ => bind (noexc (merged e)) (inherits_fixed n)
    | DObject _ | DNull | DHolder _ | DRef _ | DOption _ | DSelect _ => ret true
    end
  end.

(** ElementUtils.cc:163-191 renderKey *)
Fixpoint render_key (n : nat) (e : element) : run string :=
  match n with
  | O => None
  | S n =>
    match edata e with
    | DString s =>
      if ehas e then ret s else
      match find_first_sample e with
      | Some x => render_key n x
      | None => match find_default e with Some x => render_key n x | None => ret ""%string end
      end
    | DExtend _ => bind (merged e) (render_key n)
    | _ => undefined
    end
  end.

(** Cardinal.h:17-71: value_type = unsigned, 32 bits *)
Definition modulus : N := 4294967296%N.
Definition c_open : N := 4294967295%N.
Definition c_add (a b : N) : N :=
  if ((a =? c_open) || (b =? c_open))%N%bool then c_open else ((a + b) mod modulus)%N.
Definition c_mul (a b : N) : N :=
  if ((a =? 0) || (b =? 0))%N%bool then 0%N else
  if ((a =? c_open) || (b =? c_open))%N%bool then c_open else ((a * b) mod modulus)%N.

(** ElementSize.cc:22-29 enumerations *)
Definition enum_entries (e : element) : option element :=
  match ifind (eattrs e) "enumerations" with
  | Some x => if is_kind KArray x then Some x else None
  | None => None
  end.

(** ElementSize.cc:31-65, 67-194 sizeOf. sizeOfMult and sizeOfSum are noexcept (32, 41). *)
Fixpoint size_of (n : nat) (e : element) (inh : bool) : run N :=
  match n with
  | O => None
  | S n =>
    let mult (l : list element) (f : bool) :=
      noexc (foldR (fun a b => bind (size_of n b f) (fun x => ret (c_mul a x))) 1%N l) in
    let sum (l : list element) (f : bool) :=
      noexc (foldR (fun a b => bind (size_of n b f) (fun x => ret (c_add a x))) 0%N l) in
    let nullable (s : N) := bind (lift (has_type_attr e "nullable")) (fun b => ret (if b then c_add s 1 else s)%N) in
    let primitive (base : N) :=
      bind (if (defines_value e && inh)%bool then ret true else lift (has_type_attr e "fixed"))
           (fun b => nullable (if b then 1%N else base)) in
    match edata e with
    | DObject l =>
      bind (if inh then ret true else lift (has_type_attr e "fixed")) (fun fixed =>
      bind (if fixed then ret true else lift (has_type_attr e "fixedType")) (fun closed =>
      bind (if closed then (if ehas e then mult l fixed else ret 1%N) else ret c_open) nullable))
    | DMember _ v =>
      match ehas e, v with
      | true, Some x => bind (size_of n x inh) (fun s => nullable (c_mul (if is_variable e then c_open else 1) s)%N)
      | _, _ => ret 0%N
      end
    | DArray l =>
      bind (if inh then ret true else lift (has_type_attr e "fixed")) (fun fixed =>
      if fixed then bind (if ehas e then mult l true else ret 1%N) nullable else
      bind (lift (has_type_attr e "fixedType")) (fun ft =>
      if ft then
        if ehas e then bind (sum l false) (fun _ => nullable c_open) else nullable 0%N
      else nullable c_open))
    | DEnum _ =>
      match enum_entries e with
      | Some (Elem _ _ _ true (DArray l)) =>
        bind (if inh then ret true else lift (has_type_attr e "fixed")) (fun fixed =>
        bind (sum l fixed) nullable)
      | _ => ret 0%N
      end
    | DNull => ret 1%N
    | DString _ | DNumber _ => primitive c_open
    | DBoolean _ => primitive 2%N
    | DExtend l =>
      if ehas e then
        bind (of_res (merge l)) (fun m => match m with Some x => size_of n x inh | None => ret 0%N end)
      else ret 0%N
    | DRef _ => bind (lift (resolve e)) (fun x => size_of n x inh)
    | DHolder d => match ehas e, d with true, Some x => size_of n x inh | _, _ => ret 0%N end
    | DSelect l => if ehas e then sum l inh else ret 0%N
    | DOption l => if ehas e then mult l inh else ret 0%N
    end
  end.
