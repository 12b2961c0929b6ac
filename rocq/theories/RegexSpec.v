(** The texts a regular expression describes *)
From Verif Require Import Base StringSpec Regex.
Local Open Scope string_scope.

Inductive lang : re -> string -> Prop :=
| lang_eps : lang Eps ""
| lang_set : forall n l c, (Exists (fun r => (fst r <= byte c <= snd r)%N) l <-> n = false) -> lang (Set_ n l) (String c "")
| lang_cat : forall a b s t, lang a s -> lang b t -> lang (Cat a b) (s +++ t)
| lang_left : forall a b s, lang a s -> lang (Alt a b) s
| lang_right : forall a b s, lang b s -> lang (Alt a b) s
| lang_none : forall a, lang (Star a) ""
| lang_more : forall a s t, lang a s -> lang (Star a) t -> lang (Star a) (s +++ t)
| lang_grp : forall n a s, lang a s -> lang (Grp n a) s.

(** a pattern matches somewhere within a text *)
Definition found (b : bool) (r : re) (e : bool) (s : string) : Prop :=
  exists x m y, s = x +++ m +++ y /\ lang r m /\ (b = true -> x = "") /\ (e = true -> y = "").
