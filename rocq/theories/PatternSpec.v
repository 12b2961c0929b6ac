(** Specification for C31: a fragment of ECMA-262 regular expressions, read from their text and given
    a meaning by search in a property name (draft-07, section 6.5.5: patterns are not anchored). *)
From Verif Require Import Base.

Inductive term : Type :=
| TChar (c : ascii)          (* this character *)
| TAny                       (* [\s\S]: any character *)
| TStart                     (* ^ *)
| TNot (t : term)            (* (?!t): t does not match here *)
| TEmpty.                    (* (?:) *)

(** ECMA-262 21.2.1 SyntaxCharacter *)
Definition syntax_character (c : ascii) : bool :=
  match c with
  | "^" | "$" | "\" | "." | "*" | "+" | "?" | "(" | ")" | "[" | "]" | "{" | "}" | "|" => true
  | _ => false
  end%char.

(** the reader; None: outside the fragment. A syntax character stands for itself only after a \ *)
Definition cons_term (t : term) (o : option (list term)) : option (list term) := option_map (cons t) o.
Fixpoint read_terms (s : string) : option (list term) :=
  match s with
  | EmptyString => Some []
  | String "^" r => cons_term TStart (read_terms r)
  | String "(" (String "?" (String ":" (String ")" r))) => cons_term TEmpty (read_terms r)
  | String "(" (String "?" (String "!" (String "[" (String "\" (String "s" (String "\" (String "S" (String "]" (String ")" r)))))))))
      => cons_term (TNot TAny) (read_terms r)
  | String "\" (String c r) => if syntax_character c then cons_term (TChar c) (read_terms r) else None
  | String c r => if syntax_character c then None else cons_term (TChar c) (read_terms r)
  end.

(** [at_ t before rest rest']: after [before], the term matches the part of [rest] that [rest'] lacks *)
Fixpoint at_ (t : term) (before rest rest' : string) : Prop :=
  match t with
  | TChar c => rest = String c rest'
  | TAny => exists c, rest = String c rest'
  | TStart => before = ""%string /\ rest' = rest
  | TNot t => rest' = rest /\ forall r, ~ at_ t before rest r
  | TEmpty => rest' = rest
  end.
Inductive seq : list term -> string -> string -> Prop :=
| seq_nil : forall b r, seq [] b r
| seq_cons : forall t ts b x r r', r = (x ++ r')%string -> at_ t b r r' -> seq ts (b ++ x) r' -> seq (t :: ts) b r.
(** a pattern is found in a name *)
Definition found (p name : string) : Prop :=
  exists ts before rest, read_terms p = Some ts /\ name = (before ++ rest)%string /\ seq ts before rest.
Definition contains (name key : string) : Prop := exists a b, name = (a ++ key ++ b)%string.
