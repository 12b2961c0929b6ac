(** Model of packages/apib-parser/src/snowcrash/StringUtility.h. Positions and lengths are natural numbers: a string
    in memory is shorter than 2^63, so only [length() - 1] of a short string can wrap, and such an index is [Wild]. *)
From Verif Require Import Base ByteBuffer.
Local Open Scope string_scope.
Local Open Scope nat_scope.
Definition NUL : ascii := "000"%char.
Definition LF : ascii := "010"%char.

(** s[i]: the terminating NUL may be read, nothing behind it *)
Definition at_ (s : string) (i : nat) : outcome ascii :=
  match String.get i s with
  | Some a => Val a
  | None => if i =? String.length s then Val NUL else Wild
  end.
(** s.substr(i) for i <= length *)
Definition from (s : string) (i : nat) : string := substring i (String.length s - i) s.

(** StringUtility.h:28-33 *)
Definition is_space (a : ascii) : bool :=
  (Ascii.eqb a " " || Ascii.eqb a "009" || Ascii.eqb a "010" || Ascii.eqb a "011" || Ascii.eqb a "012" || Ascii.eqb a "013")%bool.

(** std::find_if(begin, end, not1(isSpace)), as the number of steps made *)
Fixpoint spaces (s : string) : nat :=
  match s with
  | EmptyString => 0
  | String a r => if is_space a then S (spaces r) else 0
  end.
(** the same from behind, as the distance of the iterator's base from the beginning: one behind the last char that is
    no space, 0 if there is none *)
Fixpoint last_base (s : string) : nat :=
  match s with
  | EmptyString => 0
  | String a r =>
    let n := last_base r in
    if n =? 0 then (if is_space a then 0 else 1) else S n
  end.

(** StringUtility.h:36-40 TrimStringStart *)
Definition trim_start (s : string) : string := from s (spaces s).
(** StringUtility.h:43-47 TrimStringEnd *)
Definition trim_end (s : string) : string := substring 0 (last_base s) s.
(** StringUtility.h:50-53 TrimString *)
Definition trim (s : string) : string := trim_start (trim_end s).

(** StringUtility.h:61-71 GetTrimInfo, for the chars between the two iterators: differences are signed *)
Definition trim_info (s : string) : Z * Z :=
  (Z.of_nat (spaces s), (Z.of_nat (last_base s) - Z.of_nat (spaces s))%Z).

(** StringUtility.h:74-91 Split. std::getline extracts up to the delimiter or the end; it fails at the end when it has
    extracted nothing. [item]: what the current getline has extracted, [None] for nothing at all. *)
Fixpoint getlines (s : string) (delim : ascii) (item : option string) : list string :=
  match s with
  | EmptyString => match item with Some p => [p] | None => [] end
  | String a r =>
    let p := match item with Some p => p | None => "" end in
    if Ascii.eqb a delim then p :: getlines r delim None
    else getlines r delim (Some (p +++ String a ""))
  end.
Definition split (s : string) (delim : ascii) : list string := getlines s delim None.

(** StringUtility.h:94-107 SplitOnFirst *)
Definition split_on_first (s : string) (delim : ascii) : list string :=
  match String.index 0 (String delim "") s with
  | None => [s]
  | Some pos => [substring 0 pos s; from s (pos + 1)]
  end.

(** StringUtility.h:110-122 TwoNewLines *)
Definition two_new_lines (s : string) : outcome string :=
  let last_but (k : nat) (s : string) := if String.length s <? k then Wild else at_ s (String.length s - k) in
  andthen (last_but 1 s) (fun a =>
  let s := if Ascii.eqb a LF then s else s +++ String LF "" in
  andthen (last_but 2 s) (fun b =>
  Val (if Ascii.eqb b LF then s else s +++ String LF ""))).

(** StringUtility.h:131-141 ReplaceString: std::string::find is [String.index] *)
Fixpoint replace_loop (fuel : nat) (target find replace : string) (pos : nat) : outcome string :=
  match fuel with
  | O => Endless
  | S fuel =>
    match String.index pos find target with
    | None => Val target
    | Some pos =>
      replace_loop fuel (substring 0 pos target +++ replace +++ from target (pos + String.length find)) find replace
        (pos + String.length replace)
    end
  end.
Definition replace_string (fuel : nat) (s find replace : string) : outcome string := replace_loop fuel s find replace 0.

(** StringUtility.h:150-158 GetFirstLine: the line, and the new value of [r] *)
Definition first_line (s r : string) : string * string :=
  match split_on_first s LF with
  | [] => ("", r)
  | a :: rest => (a, match rest with [] => r | _ => List.last rest a end)
  end.

(** std::tolower in the "C" locale *)
Definition lower (a : ascii) : ascii := if in_range 65 90 (byte a) then chr (byte a + 32) else a.
(** StringUtility.h:204-211, 221-227 MatchContainers with IsIEqual: IEqual *)
Fixpoint iequal (a b : string) : bool :=
  match a, b with
  | EmptyString, EmptyString => true
  | String x a, String y b => (Ascii.eqb (lower x) (lower y) && iequal a b)%bool
  | _, _ => false
  end.

(** StringUtility.h:243-247: the level of the escape characters *)
Fixpoint levels_loop (fuel : nat) (s : string) (begin : nat) (c : ascii) (levels : nat) : outcome nat :=
  match fuel with
  | O => Endless
  | S fuel =>
    andthen (at_ s (levels + begin)) (fun a =>
    if Ascii.eqb a c then levels_loop fuel s begin c (S levels) else Val levels)
  end.
(** StringUtility.h:236-268 RetrieveEscaped: the escaped string and the new subject *)
Definition retrieve_escaped (subject : string) (begin : nat) (strip : bool) : outcome (string * string) :=
  andthen (at_ subject begin) (fun c =>
  andthen (levels_loop (S (S (String.length subject))) subject begin c 0) (fun levels =>
  let border := substring begin levels subject in
  match String.index 0 border (from subject (levels + begin)) with
  | None => Val ("", subject)
  | Some e =>
    let begin' := if strip then begin + levels else begin in
    let e := if strip then e + begin' else e + 2 * levels + begin in
    Val (substring begin' (e - begin') subject, from subject e)
  end)).

(** StringUtility.h:279-297 StripBackticks: the result and the new subject *)
Definition strip_backticks (subject : string) : outcome (string * string) :=
  andthen (at_ subject 0) (fun a =>
  if negb (Ascii.eqb a "`") then Val (subject, subject) else
  andthen (if String.length subject =? 0 then Wild else at_ subject (String.length subject - 1)) (fun z =>
  if negb (Ascii.eqb z "`") then Val (subject, subject) else
  andthen (retrieve_escaped subject 0 true) (fun r =>
  if String.eqb (fst r) "" then Val (snd r, snd r) else Val (trim (fst r), snd r)))).
