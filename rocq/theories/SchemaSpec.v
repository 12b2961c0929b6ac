(** Specification: validation against JSON Schema draft-07 (draft-handrews-json-schema-validation-01),
    for the keywords below; other keywords are annotations. If a name occurs twice in an object of a
    schema, both entries apply (RFC 8259 leaves the meaning of such texts open). *)
From Coq Require Import DecimalString DecimalN.
From Verif Require Import Base SoValue SoValueSpec PatternSpec.

Definition allP {A} (f : A -> Prop) : list A -> Prop :=
  fix go (l : list A) : Prop := match l with [] => True | x :: r => f x /\ go r end.
Definition anyP {A} (f : A -> Prop) : list A -> Prop :=
  fix go (l : list A) : Prop := match l with [] => False | x :: r => f x \/ go r end.
Definition noneP {A} (f : A -> Prop) : list A -> Prop :=
  fix go (l : list A) : Prop := match l with [] => True | x :: r => ~ f x /\ go r end.
Definition oneP {A} (f : A -> Prop) : list A -> Prop :=
  fix go (l : list A) : Prop := match l with [] => False | x :: r => (f x /\ noneP f r) \/ (~ f x /\ go r) end.
Definition zipP {A B} (f : A -> B -> Prop) : list A -> list B -> Prop :=
  fix go (l : list A) (m : list B) : Prop :=
    match l, m with x :: r, y :: s => f x y /\ go r s | _, _ => True end.

(** 6.1.1 type *)
Definition of_type (t : string) (v : value) : Prop :=
  match v with
  | VNull => t = "null"
  | VTrue | VFalse => t = "boolean"
  | VString _ => t = "string"
  | VNumber _ => t = "number"
  | VObject _ => t = "object"
  | VArray _ => t = "array"
  end%string.

Definition reads (s : string) (n : N) : Prop :=
  match NilZero.uint_of_string s with Some d => N.of_uint d = n | None => False end.

(** members of a schema object *)
Definition has (kws : list (string * value)) (k : string) (x : value) : Prop := In (k, x) kws.
(** 6.5.6: the names additionalProperties applies to *)
Definition additional (kws : list (string * value)) (name : string) : Prop :=
  (forall ps, has kws "properties" (VObject ps) -> ~ In name (map fst ps)) /\
  (forall ps p, has kws "patternProperties" (VObject ps) -> In p (map fst ps) -> ~ found p name).

Fixpoint valid (s v : value) {struct s} : Prop :=
  match s with
  | VTrue => True
  | VObject kws =>
    allP (fun kx : string * value =>
      let '(k, x) := kx in
      if String.eqb k "type" then match x with VString t => of_type t v | _ => False end
      else if String.eqb k "const" then same v x
      else if String.eqb k "enum" then match x with VArray xs => exists y, In y xs /\ same v y | _ => False end
      else if String.eqb k "minItems" then
        match v, x with VArray vs, VNumber s => exists n, reads s n /\ (n <= N.of_nat (List.length vs))%N | VArray _, _ => False | _, _ => True end
      else if String.eqb k "maxItems" then
        match v, x with VArray vs, VNumber s => exists n, reads s n /\ (N.of_nat (List.length vs) <= n)%N | VArray _, _ => False | _, _ => True end
      else if String.eqb k "items" then
        match v with
        | VArray vs => match x with VArray ss => zipP valid ss vs | _ => allP (valid x) vs end
        | _ => True
        end
      else if String.eqb k "additionalItems" then
        match v with
        | VArray vs => forall ss, has kws "items" (VArray ss) -> allP (valid x) (skipn (List.length ss) vs)
        | _ => True
        end
      else if String.eqb k "properties" then
        match v, x with
        | VObject ms, VObject ps => allP (fun p => allP (fun m => fst m = fst p -> valid (snd p) (snd m)) ms) ps
        | VObject _, _ => False
        | _, _ => True
        end
      else if String.eqb k "patternProperties" then
        match v, x with
        | VObject ms, VObject ps => allP (fun p => allP (fun m => found (fst p) (fst m) -> valid (snd p) (snd m)) ms) ps
        | VObject _, _ => False
        | _, _ => True
        end
      else if String.eqb k "additionalProperties" then
        match v with
        | VObject ms => allP (fun m => additional kws (fst m) -> valid x (snd m)) ms
        | _ => True
        end
      else if String.eqb k "required" then
        match v, x with
        | VObject ms, VArray ns => forall n, In n ns -> exists s, n = VString s /\ In s (map fst ms)
        | VObject _, _ => False
        | _, _ => True
        end
      else if String.eqb k "allOf" then match x with VArray ss => allP (fun s => valid s v) ss | _ => False end
      else if String.eqb k "anyOf" then match x with VArray ss => anyP (fun s => valid s v) ss | _ => False end
      else if String.eqb k "oneOf" then match x with VArray ss => oneP (fun s => valid s v) ss | _ => False end
      else True) kws
  | _ => False
  end.
