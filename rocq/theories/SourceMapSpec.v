(** Specification vocabulary for positions: the text is a list of code points, positions count
    from 0, lines and columns from 1; a line ends with a newline (10). *)
From Verif Require Import Base.
Local Open Scope N_scope.

Definition newlines (text : list N) : N := N.of_nat (List.length (filter (N.eqb 10) text)).

(** the text since the last newline *)
Fixpoint last_line (text : list N) : list N :=
  match text with
  | [] => []
  | c :: r => if existsb (N.eqb 10) r then last_line r else if c =? 10 then r else c :: r
  end.

(** the text before position [p] *)
Definition upto (p : N) (text : list N) : list N := firstn (N.to_nat p) text.
(** the text from position [p] on *)
Definition from (p : N) (text : list N) : list N := skipn (N.to_nat p) text.

Definition line_of (text : list N) (p : N) : N := 1 + newlines (upto p text).
Definition column_of (text : list N) (p : N) : N := 1 + N.of_nat (List.length (last_line (upto p text))).
