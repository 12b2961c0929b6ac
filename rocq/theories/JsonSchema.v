(** Model of packages/drafter/src/refract/JsonSchema.cc: a JSON Schema from a data structure.
    renderSchema(schema, e, options) only ever appends members to the object [schema] refers to; the
    model returns the appended members (the result is schema.data ++ members). *)
From Coq Require Import DecimalString DecimalNat DecimalN.
From Verif Require Import Base SoValue Element Extend Registry Expand ElementUtils JsonValue.

(** JsonSchema.cc:30-34 TypeAttributes *)
Record sopts : Type := SO { s_fixed : bool; s_ftype : bool; s_nullable : bool; s_required : bool }.

(** JsonSchema.cc:36-51 updateTypeAttributes *)
Definition s_update (e : element) (o : sopts) : run sopts :=
  bind (lift (has_type_attr e "fixed")) (fun f =>
  bind (lift (has_type_attr e "fixedType")) (fun ft =>
  bind (lift (has_type_attr e "nullable")) (fun nl =>
  bind (lift (has_type_attr e "required")) (fun rq =>
  ret (SO (s_fixed o || f) (s_ftype o || ft) (s_nullable o || nl) (s_required o || rq)))))).
(** JsonSchema.cc:58-64 inheritFlags *)
Definition s_inherit (o : sopts) : sopts := SO (s_fixed o) false false false.
(** JsonSchema.cc:66-75 inheritOrPassFlags *)
Definition s_inherit_or_pass (n : nat) (o : sopts) (e : element) : run sopts :=
  bind (inherits_fixed n e) (fun b => ret (SO (if b then s_fixed o else false) false false false)).
Definition s_require (o : sopts) : sopts := SO (s_fixed o) (s_ftype o) (s_nullable o) true.

Definition field := (string * value)%type.

(** std::to_string *)
Definition to_string (n : N) : string := NilZero.string_of_uint (N.to_uint n).

(** JsonSchema.cc:98-201: the members the add* functions append *)
Definition f_schema_version : field := ("$schema", VString "http://json-schema.org/draft-07/schema#")%string.
Definition f_type (t : string) : field := ("type"%string, VString t).
Definition f_number (k : string) (n : N) : field := (k, VNumber (to_string n)).
(** JsonSchema.cc:146-154 addEnum: a single value becomes "const" *)
Definition f_enum (vs : list value) : field :=
  match vs with [v] => ("const"%string, v) | _ => ("enum"%string, VArray vs) end.
Definition null_schema : value := VObject [f_type "null"].
(** JsonSchema.cc:203-210 wrapNullable: what follows goes into the second alternative *)
Definition wrap_nullable (o : sopts) (fs : list field) : list field :=
  if s_nullable o then [("anyOf"%string, VArray [null_schema; VObject fs])] else fs.

(** JsonSchema.cc:219-289 renderPattern *)
Definition metachar (c : ascii) : bool :=
  existsb (Ascii.eqb c)
    ["^"; "$"; "*"; "+"; "?"; "."; "("; ")"; "|"; "{"; "}"; "["; "]"; "\"]%char.
Fixpoint escape_pattern (s : string) : string :=
  match s with
  | EmptyString => EmptyString
  | String c r => if metachar c then String "\" (String c (escape_pattern r)) else String c (escape_pattern r)
  end.
Definition render_pattern (e : element) (o : sopts) : run string :=
  bind (if s_fixed o then ret true else lift (has_type_attr e "fixed")) (fun fixed =>
  if fixed then
    if ehas e then match edata e with DString s => ret (escape_pattern s) | _ => undefined end
    else ret "^(?![\s\S])"%string
  else ret "(?:)"%string).

(** JsonSchema.cc:291-296 ObjectSchema *)
Record oschema : Type := OS { os_props : list field; os_patterns : list field; os_required : list string; os_allOf : list value }.
Definition os_empty : oschema := OS [] [] [] [].
(** JsonSchema.cc:298-320 materialize *)
Definition materialize (s : oschema) : list field :=
  (match os_props s with [] => [] | l => [("properties"%string, VObject l)] end ++
   match os_patterns s with [] => [] | l => [("patternProperties"%string, VObject l)] end ++
   match os_allOf s with [] => [] | l => [("allOf"%string, VArray l)] end ++
   match os_required s with [] => [] | l => [("required"%string, VArray (map VString l))] end)%list.

(** JsonSchema.cc:80-93 key *)
Definition member_key (k : element) : option string :=
  match edata k with DString s => Some (if ehas k then s else ""%string) | _ => None end.

Definition emplace_arr_all (vs ws : list value) : list value := fold_left emplace_unique_arr ws vs.

(** JsonSchema.cc:501-519: an enumeration that may type several values *)
Definition add_enum_schema (acc : list value * list value) (s : list field) : option (list value * list value) :=
  let '(enm, anyOf) := acc in
  match s with
  | [(k, v)] =>
    if String.eqb k "enum" then match v with VArray vs => Some (emplace_arr_all enm vs, anyOf) | _ => None end
    else if String.eqb k "anyOf" then match v with VArray vs => Some (enm, emplace_arr_all anyOf vs) | _ => None end
    else Some (enm, emplace_unique_arr anyOf (VObject s))
  | _ => Some (enm, emplace_unique_arr anyOf (VObject s))
  end.

(** JsonSchema.cc:547-562 type_name *)
Definition type_name (d : dsd element) : string :=
  match d with DString _ => "string" | DNumber _ => "number" | _ => "boolean" end%string.

Fixpoint render_schema (n : nat) (e : element) (o : sopts) {struct n} : run (list field) :=
  match n with
  | O => None
  | S n =>
    match edata e with
    (* JsonSchema.cc:383-388 *)
    | DHolder d => match ehas e, d with true, Some x => render_schema n x o | _, _ => ret [] end
    (* JsonSchema.cc:390-396 *)
    | DRef _ => bind (lift (resolve e)) (fun x => render_schema n x o)
    (* JsonSchema.cc:398-427 *)
    | DObject l =>
      bind (s_update e o) (fun o =>
      let fixed := (s_ftype o || s_fixed o)%bool in
      bind (if ehas e then
              foldR (fun s x => bind (s_inherit_or_pass n o x)
                                     (fun o' => render_sproperty n s x (if fixed then s_require o' else o'))) os_empty l
            else ret os_empty)
           (fun s => ret (wrap_nullable o ([f_type "object"] ++ materialize s ++
                            (if fixed then [("additionalProperties"%string, VFalse)] else [])))))
    (* JsonSchema.cc:429-477 *)
    | DArray l =>
      bind (s_update e o) (fun o =>
      let make x := bind (s_inherit_or_pass n o x) (render_schema n x) in
      if s_ftype o then
        bind (if negb (ehas e) then ret [f_number "maxItems" 0] else
              match l with
              | [x] => bind (make x) (fun fs => ret [("items"%string, VObject fs)])
              | _ => bind (foldR (fun acc x => bind (make x) (fun fs => ret (emplace_unique_arr acc (VObject fs)))) [] l)
                          (fun items => ret [("items"%string, VObject [("anyOf"%string, VArray items)])])
              end)
             (fun fs => ret (wrap_nullable o (f_type "array" :: fs)))
      else if s_fixed o then
        bind (if ehas e then mapR (fun x => bind (make x) (fun fs => ret (VObject fs))) l else ret [])
             (fun items => ret (wrap_nullable o
                [f_type "array"; f_number "minItems" (N.of_nat (List.length items) mod modulus);
                 ("items"%string, VArray items); ("additionalItems"%string, VFalse)]))
      else ret (wrap_nullable o [f_type "array"]))
    (* JsonSchema.cc:479-538 *)
    | DEnum _ =>
      bind (s_update e o) (fun o =>
      let start := (if s_nullable o then [VNull] else [], []) in
      bind (match ifind (eattrs e) "enumerations" with
            | None => ret start
            | Some (Elem _ _ _ h (DArray l)) =>
              if h then
                foldR (fun acc x =>
                  bind (size_of n x false) (fun c =>
                  if (c =? 1)%N then
                    bind (generate_value n x) (fun v => ret (emplace_unique_arr (fst acc) v, snd acc))
                  else
                    bind (render_schema n x (s_inherit o)) (fun fs => lift (add_enum_schema acc fs)))) start l
              else ret start
            | Some _ => undefined
            end)
           (fun acc =>
            let '(enm, anyOf) := acc in
            match anyOf with
            | [] => ret [f_enum enm]
            | _ => ret [("anyOf"%string,
                         VArray (match enm with [] => anyOf | _ => emplace_unique_arr anyOf (VObject [f_enum enm]) end))]
            end))
    (* JsonSchema.cc:540-544 *)
    | DNull => ret [f_type "null"]
    (* JsonSchema.cc:564-587, 604-617 renderSchemaPrimitive *)
    | DString _ | DNumber _ | DBoolean _ =>
      bind (s_update e o) (fun o =>
      if (s_fixed o && ehas e)%bool then
        bind (lift (instantiate (edata e))) (fun v => ret [f_enum (if s_nullable o then [VNull; v] else [v])])
      else if s_nullable o then ret [("anyOf"%string, VArray [null_schema; VObject [f_type (type_name (edata e))]])]
      else ret [f_type (type_name (edata e))])
    (* JsonSchema.cc:374-381, 589-602 errorByImpossibleSchema *)
    | DMember _ _ | DOption _ | DSelect _ => ret [("oneOf"%string, VArray [VObject []; VObject []])]
    (* JsonSchema.cc:619-624 *)
    | DExtend _ => bind (merged e) (fun x => render_schema n x o)
    end
  end
with render_sproperty (n : nat) (s : oschema) (e : element) (o : sopts) {struct n} : run oschema :=
  match n with
  | O => None
  | S n =>
    match edata e with
    (* JsonSchema.cc:654-687 errorButSkipProperty *)
    | DArray _ | DBoolean _ | DEnum _ | DNull | DNumber _ | DString _ | DOption _ => ret s
    (* JsonSchema.cc:689-742 *)
    | DMember k v =>
      bind (lift (has_type_attr e "fixed")) (fun f =>
      bind (lift (has_type_attr e "fixedType")) (fun ft =>
      bind (lift (has_type_attr e "nullable")) (fun nl =>
      bind (lift (has_type_attr e "required")) (fun rq =>
      bind (lift (has_type_attr e "optional")) (fun opt =>
      let o := SO (s_fixed o || f) ft nl ((s_required o || rq) && negb opt) in
      if negb (ehas e) then undefined else
      bind (lift k) (fun k =>
      if is_variable e then
        bind (match edata k with
              | DExtend _ => bind (merged k) (fun m => if is_kind KString m then ret m else undefined)
              | DString _ => ret k
              | _ => undefined
              end) (fun k' =>
        bind (render_pattern k' o) (fun p =>
        bind (lift v) (fun x => bind (render_schema n x o) (fun fs =>
        ret (OS (os_props s) (emplace_unique (os_patterns s) p (VObject fs)) (os_required s) (os_allOf s))))))
      else
        bind (lift (member_key k)) (fun key =>
        bind (lift v) (fun x => bind (render_schema n x o) (fun fs =>
        ret (OS (os_props s ++ [(key, VObject fs)]) (os_patterns s)
                (if s_required o then os_required s ++ [key] else os_required s) (os_allOf s)))))))))))
    (* JsonSchema.cc:744-748 *)
    | DHolder d => match ehas e, d with true, Some x => render_sproperty n s x o | _, _ => ret s end
    (* JsonSchema.cc:750-755 *)
    | DRef _ => bind (lift (resolve e)) (fun x => render_sproperty n s x o)
    (* JsonSchema.cc:757-783 *)
    | DSelect l =>
      if ehas e then
        bind (foldR (fun acc opt =>
                match edata opt with
                | DOption es =>
                  if negb (ehas opt) then ret acc else
                  match es with
                  | [] => ret acc
                  | _ => bind (foldR (fun s x => render_sproperty n s x o) os_empty es)
                              (fun s' => ret (acc ++ [VObject (materialize s')])%list)
                  end
                | _ => undefined
                end) [] l)
             (fun oneOfs => ret (OS (os_props s) (os_patterns s) (os_required s)
                                    (os_allOf s ++ [VObject [("oneOf"%string, VArray oneOfs)]])))
      else undefined
    (* JsonSchema.cc:785-797 *)
    | DObject l =>
      bind (lift (has_type_attr e "fixed")) (fun f =>
      if ehas e then foldR (fun s x => render_sproperty n s x (SO (s_fixed o || f) false false false)) s l else ret s)
    (* JsonSchema.cc:799-806 *)
    | DExtend _ => bind (merged e) (fun x => render_sproperty n s x o)
    end
  end.

(** JsonSchema.cc:829-834 findAnyOf, 838-861 flattenAnyOfsSpecific(so::Object&). The visitor passes a
    const reference (870-876), which selects the template (863-868) that does nothing: the entries of
    a top level anyOf are copied as they are, and nothing below the top level is touched. The copy is
    assigned to the last member of the schema (854), whatever its name. None: [data.back()] of an empty
    object. *)
Fixpoint set_last (l : list field) (v : value) : option (list field) :=
  match l with
  | [] => None
  | [(k, _)] => Some [(k, v)]
  | x :: r => option_map (cons x) (set_last r v)
  end.
Definition reduce (s : list field) : option (list field) :=
  match vfind s "anyOf" with
  | Some (VArray l) => set_last s (VArray l)
  | _ => Some s
  end.

(** JsonSchema.cc:889-899 generateJsonSchema *)
Definition generate_schema (n : nat) (e : element) : run (list field) :=
  bind (render_schema n e (SO false false false false)) (fun fs => lift (reduce (f_schema_version :: fs))).
