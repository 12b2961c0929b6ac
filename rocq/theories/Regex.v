(** Model of packages/apib-parser/src/snowcrash/posix/RegexMatch.cc on top of POSIX extended regular expressions (regcomp, regexec of the
    C library, in the "C" locale). The syntax is read from the pattern as it is written in the sources; only what these patterns
    use is supported: anchors at the ends, sets, groups, alternatives and the postfix operators. Compilation of any other pattern
    fails in the model. *)
From Verif Require Import Base StringUtility.
Local Open Scope string_scope.

(** a set of bytes: ranges, possibly negated *)
Inductive re : Type :=
| Nul
| Eps
| Set_ (negated : bool) (ranges : list (N * N))
| Cat (a b : re)
| Alt (a b : re)
| Star (a : re)
| Grp (n : nat) (a : re).
Definition member (ranges : list (N * N)) (c : ascii) : bool := existsb (fun r => (fst r <=? byte c)%N && (byte c <=? snd r)%N) ranges.
Definition in_set (negated : bool) (ranges : list (N * N)) (c : ascii) : bool := xorb negated (member ranges c).
Definition lit (c : ascii) : re := Set_ false [(byte c, byte c)].

(** a match of a whole text: by derivatives *)
Fixpoint nullable (r : re) : bool :=
  match r with
  | Nul | Set_ _ _ => false
  | Eps | Star _ => true
  | Cat a b => nullable a && nullable b
  | Alt a b => nullable a || nullable b
  | Grp _ a => nullable a
  end.
Fixpoint deriv (c : ascii) (r : re) : re :=
  match r with
  | Nul | Eps => Nul
  | Set_ n l => if in_set n l c then Eps else Nul
  | Cat a b => if nullable a then Alt (Cat (deriv c a) b) (deriv c b) else Cat (deriv c a) b
  | Alt a b => Alt (deriv c a) (deriv c b)
  | Star a => Cat (deriv c a) (Star a)
  | Grp _ a => deriv c a
  end.
Fixpoint matchb (r : re) (s : string) : bool :=
  match s with EmptyString => nullable r | String c s => matchb (deriv c r) s end.

(** ** compilation (regcomp with REG_EXTENDED) *)
(** the classes of characters in brackets *)
Definition class (s : string) : option (list (N * N) * string) :=
  if prefix "[:blank:]" s then Some ([(32, 32); (9, 9)]%N, from s 9)
  else if prefix "[:digit:]" s then Some ([(48, 57)]%N, from s 9)
  else if prefix "[:alnum:]" s then Some ([(48, 57); (65, 90); (97, 122)]%N, from s 9)
  else None.
(** the rest of a bracket expression; a bracket that closes it may come first, and a backslash is just a char *)
Fixpoint bracket (fuel : nat) (first : bool) (s : string) : option (list (N * N) * string) :=
  match fuel with
  | O => None
  | S fuel =>
    match s with
    | EmptyString => None
    | String c s' =>
      let more (l : list (N * N)) (s : string) := option_map (fun r => ((l ++ fst r)%list, snd r)) (bracket fuel false s) in
      if (Ascii.eqb c "]" && negb first)%bool then Some ([], s')
      else match (if Ascii.eqb c "[" then class s else None) with
           | Some (l, s) => more l s
           | None =>
             match s' with
             | String "-" (String d s2) => if Ascii.eqb d "]" then more [(byte c, byte c)] s' else more [(byte c, byte d)] s2
             | _ => more [(byte c, byte c)] s'
             end
           end
    end
  end.
(** an expression, behind which stand a closing bracket, the anchor at the end of the pattern, or nothing. [g]: the number of the next group *)
Fixpoint alternatives (fuel : nat) (g : nat) (s : string) : option (re * nat * string) :=
  match fuel with
  | O => None
  | S fuel =>
    match sequence fuel g s with
    | Some (a, g, String "|" s) =>
      match alternatives fuel g s with Some (b, g, s) => Some (Alt a b, g, s) | None => None end
    | r => r
    end
  end
with sequence (fuel : nat) (g : nat) (s : string) : option (re * nat * string) :=
  match fuel with
  | O => None
  | S fuel =>
    match s with
    | EmptyString => Some (Eps, g, s)
    | String c s' =>
      if (Ascii.eqb c "|" || Ascii.eqb c ")" || (Ascii.eqb c "$" && String.eqb s' ""))%bool then Some (Eps, g, s)
      else
        match (if Ascii.eqb c "(" then
                 match alternatives fuel (S g) s' with Some (a, g', String ")" s) => Some (Grp g a, g', s) | _ => None end
               else if Ascii.eqb c "[" then
                 match s' with
                 | String "^" s => option_map (fun r => (Set_ true (fst r), g, snd r)) (bracket fuel true s)
                 | _ => option_map (fun r => (Set_ false (fst r), g, snd r)) (bracket fuel true s')
                 end
               else if Ascii.eqb c "." then Some (Set_ true [], g, s')
               else if Ascii.eqb c "\" then match s' with String d s => Some (lit d, g, s) | EmptyString => None end
               else if (Ascii.eqb c "^" || Ascii.eqb c "$" || Ascii.eqb c "*" || Ascii.eqb c "+" || Ascii.eqb c "?" || Ascii.eqb c "{")%bool then None
               else Some (lit c, g, s')) with
        | None => None
        | Some (a, g, s) =>
          let '(a, s) := match s with
                         | String "*" s => (Star a, s)
                         | String "+" s => (Cat a (Star a), s)
                         | String "?" s => (Alt a Eps, s)
                         | String "{" (String "2" (String "}" s)) => (Cat a a, s)
                         | _ => (a, s)
                         end in
          match sequence fuel g s with Some (b, g, s) => Some (Cat a b, g, s) | None => None end
        end
    end
  end.
(** a pattern: anchored at the start, the expression, anchored at the end *)
Definition compile (pattern : string) : option (bool * re * bool) :=
  let '(b, s) := match pattern with String "^" s => (true, s) | _ => (false, pattern) end in
  match alternatives (2 * String.length pattern + 2) 1 s with
  | Some (r, _, EmptyString) => Some (b, r, false)
  | Some (r, _, String "$" EmptyString) => Some (b, r, true)
  | _ => None
  end.

(** the text as a C string: up to its first NUL *)
Fixpoint c_text (s : string) : string :=
  match s with
  | EmptyString => ""
  | String c s => if Ascii.eqb c NUL then "" else String c (c_text s)
  end.
Definition anything : re := Star (Set_ true []).
(** posix/RegexMatch.cc:15-43 RegexMatch *)
Definition regex_match (target pattern : string) : bool :=
  if (String.eqb target "" || String.eqb pattern "")%bool then false else
  match compile pattern with
  | None => false
  | Some (b, r, e) =>
    let r := if b then r else Cat anything r in
    let r := if e then r else Cat r anything in
    matchb r (c_text target)
  end.

(** ** captures: POSIX prefers the leftmost match, among these the longest, and then within it longer submatches of expressions
    further to the left. No pattern whose groups are read repeats a group. *)
(** the longest of the first [k] prefixes for which both match *)
Fixpoint longest (k : nat) (p q : re) (s : string) : option nat :=
  if (matchb p (substring 0 k s) && matchb q (from s k))%bool then Some k
  else match k with O => None | S k => longest k p q s end.
(** the groups of a match of a whole text *)
Fixpoint captures (r : re) (s : string) : list (nat * string) :=
  match r with
  | Nul | Eps | Set_ _ _ | Star _ => []
  | Cat a b =>
    match longest (String.length s) a b s with
    | Some k => (captures a (substring 0 k s) ++ captures b (from s k))%list
    | None => []
    end
  | Alt a b => if matchb a s then captures a s else captures b s
  | Grp n a => (n, s) :: captures a s
  end.
Fixpoint group (n : nat) (l : list (nat * string)) : string :=
  match l with [] => "" | (k, s) :: l => if Nat.eqb k n then s else group n l end.
(** posix/RegexMatch.cc:54-92 RegexCapture: none, or the groups 0 .. n-1. Groups without a match are empty. The anchor at the start is required:
    for the patterns without it see [regex_find] *)
Definition regex_capture (target pattern : string) (n : nat) : option (list string) :=
  if (String.eqb target "" || String.eqb pattern "")%bool then None else
  match compile pattern with
  | Some (true, r, e) =>
    let s := c_text target in
    let k := if e then (if matchb r s then Some (String.length s) else None) else longest (String.length s) r anything s in
    match k with
    | None => None
    | Some k => let s := substring 0 k s in let l := captures r s in Some (map (fun i => match i with O => s | _ => group i l end) (seq 0 n))
    end
  | _ => None
  end.
(** the same for patterns without anchors: the leftmost match, and of these the longest *)
Fixpoint leftmost_match (r : re) (s : string) : option string :=
  match longest (String.length s) r anything s with
  | Some k => Some (substring 0 k s)
  | None => match s with String _ s => leftmost_match r s | EmptyString => None end
  end.
Definition regex_find (target pattern : string) (n : nat) : option (list string) :=
  if (String.eqb target "" || String.eqb pattern "")%bool then None else
  match compile pattern with
  | Some (false, r, false) =>
    match leftmost_match r (c_text target) with
    | Some s => let l := captures r s in Some (map (fun i => match i with O => s | _ => group i l end) (seq 0 n))
    | None => None
    end
  | _ => None
  end.
