(** Model of packages/drafter/src/utils/so/Value.h and Value.cc *)
From Verif Require Import Base.

(** Value.h:31 [using Value = variant<Null, True, False, String, Number, Object, Array>],
    Value.h:36-117. Containers are [boost::container::vector], i.e. lists. *)
Inductive value : Type :=
| VNull
| VTrue
| VFalse
| VString (s : string)
| VNumber (s : string)
| VObject (ms : list (string * value))
| VArray (vs : list value).

(** Value.cc:60-77 [mpark::visit(same_equal)], Value.cc:12-58 the per-alternative [==].
    Object: equal sizes and every member of the left side is found (std::find_if with pair
    equality) on the right (Value.cc:34-53). Array: std::equal (Value.cc:55-58). *)
Fixpoint veq (a b : value) {struct a} : bool :=
  match a, b with
  | VNull, VNull => true
  | VTrue, VTrue => true
  | VFalse, VFalse => true
  | VString s, VString t => String.eqb s t
  | VNumber s, VNumber t => String.eqb s t
  | VObject xs, VObject ys =>
      Nat.eqb (List.length xs) (List.length ys) &&
      (fix all (xs : list (string * value)) : bool :=
         match xs with
         | [] => true
         | (k, x) :: r =>
             existsb (fun kv : string * value => String.eqb k (fst kv) && veq x (snd kv)) ys && all r
         end) xs
  | VArray xs, VArray ys =>
      (fix all2 (xs ys : list value) {struct xs} : bool :=
         match xs, ys with
         | [], [] => true
         | x :: xr, y :: yr => veq x y && all2 xr yr
         | _, _ => false
         end) xs ys
  | _, _ => false
  end.

(** Value.cc:79-89 so::find: first entry with the key *)
Fixpoint vfind (ms : list (string * value)) (k : string) : option value :=
  match ms with
  | [] => None
  | (k', v) :: r => if String.eqb k' k then Some v else vfind r k
  end.

(** Value.h:128-142 / Value.cc:101-111 emplace_unique(Object&, key, value): assign in place to
    the first entry with the key, else append. *)
Fixpoint emplace_unique (ms : list (string * value)) (k : string) (v : value) : list (string * value) :=
  match ms with
  | [] => [(k, v)]
  | (k', v') :: r => if String.eqb k' k then (k', v) :: r else (k', v') :: emplace_unique r k v
  end.

(** Value.cc:91-99 emplace_unique(Array&, value): append unless an equal entry exists
    ([entry == value]). *)
Definition emplace_unique_arr (vs : list value) (v : value) : list value :=
  if existsb (fun e => veq e v) vs then vs else vs ++ [v].
