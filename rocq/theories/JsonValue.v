(** Model of packages/drafter/src/refract/JsonValue.cc: a JSON body from a data structure *)
From Verif Require Import Base SoValue Element Extend Registry Expand ElementUtils.

(** JsonValue.cc:28-30 TypeAttributes: FIXED_FLAG, NULLABLE_FLAG *)
Record vopts : Type := VO { o_fixed : bool; o_nullable : bool }.

(** JsonValue.cc:32-41 updateTypeAttributes *)
Definition v_update (e : element) (o : vopts) : run vopts :=
  bind (lift (has_type_attr e "fixed")) (fun f =>
  bind (lift (has_type_attr e "nullable")) (fun nl =>
  ret (VO (o_fixed o || f) (o_nullable o || nl)))).
(** JsonValue.cc:48-52 inheritFlags *)
Definition v_inherit (o : vopts) : vopts := VO (o_fixed o) false.
(** JsonValue.cc:54-62 inheritOrPassFlags *)
Definition v_inherit_or_pass (n : nat) (o : vopts) (e : element) : run vopts :=
  bind (inherits_fixed n e) (fun b => ret (VO (if b then o_fixed o else false) false)).

(** JsonUtils.cc:19-34 instantiate *)
Definition instantiate (d : dsd element) : option value :=
  match d with
  | DString s => Some (VString s)
  | DNumber s => Some (VNumber s)
  | DBoolean b => Some (if b then VTrue else VFalse)
  | _ => None
  end.
(** JsonUtils.cc:36-49 instantiateEmpty; Value.h:99 (Number: "0") *)
Definition instantiate_empty (d : dsd element) : option value :=
  match d with
  | DString _ => Some (VString "")
  | DNumber _ => Some (VNumber "0")
  | DBoolean _ => Some VFalse
  | _ => None
  end.

Fixpoint emplace_all (obj ms : list (string * value)) : list (string * value) :=
  match ms with [] => obj | (k, v) :: r => emplace_all (emplace_unique obj k v) r end.

(** JsonValue.cc:128-141 renderSampleOrDefaultOrNull; None: nothing found *)
Definition sample_default_null (render : element -> vopts -> run value) (e : element) (o : vopts) : run (option value) :=
  match find_first_sample e with
  | Some x => bind (render x o) (fun v => ret (Some v))
  | None =>
    match find_default e with
    | Some x => bind (render x o) (fun v => ret (Some v))
    | None => ret (if o_nullable o then Some VNull else None)
    end
  end.

(** the first option of a select that holds entries (JsonValue.cc:393-411); outer None: an entry of
    the select is no option element *)
Fixpoint first_option (l : list element) : option (list element) :=
  match l with
  | [] => Some []
  | Elem _ _ _ h (DOption es) :: r => if h then match es with [] => first_option r | _ :: _ => Some es end else first_option r
  | _ :: _ => None
  end.

Fixpoint render_value (n : nat) (e : element) (o : vopts) {struct n} : run value :=
  match n with
  | O => None
  | S n =>
    match edata e with
    (* JsonValue.cc:153-183 renderValuePrimitive *)
    | DString _ | DNumber _ | DBoolean _ =>
      bind (v_update e o) (fun o =>
      if ehas e then lift (instantiate (edata e)) else
      bind (sample_default_null (render_value n) e o) (fun alt =>
      match alt with Some v => ret v | None => lift (instantiate_empty (edata e)) end))
    (* JsonValue.cc:184-197 errorByNull *)
    | DMember _ _ | DOption _ | DSelect _ => ret VNull
    (* JsonValue.cc:199-204 *)
    | DHolder d => match ehas e, d with true, Some x => render_value n x o | _, _ => ret VNull end
    (* JsonValue.cc:206-223 *)
    | DObject l =>
      bind (v_update e o) (fun o =>
      if ehas e then
        bind (foldR (fun obj x => bind (v_inherit_or_pass n o x) (fun o' => render_property n obj x o')) [] l)
             (fun obj => ret (VObject obj))
      else
        bind (sample_default_null (render_value n) e o) (fun alt =>
        ret (match alt with Some v => v | None => VObject [] end)))
    (* JsonValue.cc:225-241 *)
    | DArray l =>
      bind (v_update e o) (fun o =>
      if ehas e then
        bind (foldR (fun arr x => bind (v_inherit_or_pass n o x) (fun o' => render_item n arr x o')) [] l)
             (fun arr => ret (VArray arr))
      else
        bind (sample_default_null (render_value n) e o) (fun alt =>
        ret (match alt with Some v => v | None => VArray [] end)))
    (* JsonValue.cc:243-270 *)
    | DEnum v =>
      bind (v_update e o) (fun o =>
      if ehas e then bind (lift v) (fun x => render_value n x (v_inherit o)) else
      bind (sample_default_null (render_value n) e o) (fun alt =>
      match alt with
      | Some v => ret v
      | None =>
        match ifind (eattrs e) "enumerations" with
        | None => ret VNull
        | Some (Elem _ _ _ h (DArray l)) =>
          match h, l with true, x :: _ => render_value n x o | _, _ => ret VNull end
        | Some _ => undefined
        end
      end))
    (* JsonValue.cc:272-275 *)
    | DNull => ret VNull
    (* JsonValue.cc:277-282 *)
    | DExtend _ => bind (merged e) (fun x => render_value n x o)
    (* JsonValue.cc:284-290 *)
    | DRef _ => bind (lift (resolve e)) (fun x => render_value n x o)
    end
  end
with render_property (n : nat) (obj : list (string * value)) (e : element) (o : vopts) {struct n} : run (list (string * value)) :=
  match n with
  | O => None
  | S n =>
    match edata e with
    (* JsonValue.cc:318-351 errorButSkipProperty *)
    | DArray _ | DBoolean _ | DEnum _ | DNull | DNumber _ | DString _ | DOption _ => ret obj
    (* JsonValue.cc:353-359 *)
    | DHolder d => match ehas e, d with true, Some x => render_property n obj x o | _, _ => ret obj end
    (* JsonValue.cc:361-380: get() asserts, the key is asserted, the value dereferenced *)
    | DMember k v =>
      bind (v_update e o) (fun o =>
      if negb (ehas e) then undefined else
      bind (lift k) (fun k =>
      bind (lift (has_type_attr e "optional")) (fun opt =>
      bind (if opt then bind (lift v) (fun x => ret (negb (defines_value x))) else ret false) (fun omit =>
      if omit then ret obj else
      bind (render_key n k) (fun key =>
      match key with
      | EmptyString => ret obj
      | _ => bind (lift v) (fun x => bind (render_value n x o) (fun val => ret (emplace_unique obj key val)))
      end)))))
    (* JsonValue.cc:382-388 *)
    | DRef _ => bind (lift (resolve e)) (fun x => render_property n obj x o)
    (* JsonValue.cc:390-414 *)
    | DSelect l =>
      if ehas e then
        bind (lift (first_option l)) (foldR (fun obj x => render_property n obj x o) obj)
      else undefined
    (* JsonValue.cc:416-423 *)
    | DObject _ =>
      bind (render_value n e o) (fun v => match v with VObject ms => ret (emplace_all obj ms) | _ => ret obj end)
    (* JsonValue.cc:425-433 *)
    | DExtend _ => bind (merged e) (fun x => render_property n obj x o)
    end
  end
with render_item (n : nat) (arr : list value) (e : element) (o : vopts) {struct n} : run (list value) :=
  match n with
  | O => None
  | S n =>
    match edata e with
    (* JsonValue.cc:462-471, 531-544 renderItemPrimitive *)
    | DString _ | DNumber _ | DBoolean _ =>
      bind (v_update e o) (fun o =>
      if (o_fixed o || defines_value e)%bool then
        bind (v_inherit_or_pass n o e) (fun o' => bind (render_value n e o') (fun v => ret (arr ++ [v])%list))
      else ret arr)
    (* JsonValue.cc:473-501 *)
    | DArray _ | DEnum _ | DExtend _ | DNull | DObject _ | DHolder _ =>
      bind (v_inherit_or_pass n o e) (fun o' => bind (render_value n e o') (fun v => ret (arr ++ [v])%list))
    (* JsonValue.cc:503-516 *)
    | DMember _ _ | DOption _ | DSelect _ => ret arr
    (* JsonValue.cc:518-529 *)
    | DRef _ =>
      bind (lift (resolve e)) (fun x =>
      if is_kind KArray x then
        bind (render_value n x o) (fun v => match v with VArray vs => ret (arr ++ vs)%list | _ => ret arr end)
      else ret arr)
    end
  end.

(** JsonValue.cc:564-567 generateJsonValue *)
Definition generate_value (n : nat) (e : element) : run value := render_value n e (VO false false).
