(** Model of packages/apib-parser/src/snowcrash/SignatureSectionProcessor.h and Signature.h: the signatures of sections.
    The source maps of the warnings are left out. *)
From Verif Require Import Base ByteBuffer StringUtility.
Local Open Scope string_scope.
Local Open Scope nat_scope.

(** Signature.h:67-83 Delimiters, 90-122 SignatureTraits *)
Record traits : Type := Traits { has_identifier : bool; has_values : bool; has_attributes : bool; has_content : bool; values_delimiter : ascii; content_delimiter : string }.
(** Signature.h:51-62 Signature *)
Record signature : Type := Sig { identifier : string; value : string; values : list string; attributes : list string; content : string; remaining : string }.
Definition EscapeCharacter : ascii := "`"%char.

(** subject.substr(i, length of the content delimiter) == the content delimiter *)
Definition at_content (tr : traits) (s : string) (i : nat) : bool :=
  String.eqb (substring i (String.length (content_delimiter tr)) s) (content_delimiter tr).

(** SignatureSectionProcessor.h:177-214 parseSignatureIdentifier: the loop. Result: identifier, subject, i *)
Fixpoint identifier_loop (fuel : nat) (tr : traits) (subject : string) (i : nat) (id : string) : outcome (string * string * nat) :=
  match fuel with
  | O => Endless
  | S fuel =>
    if String.length subject <=? i then Val (id, subject, i) else
    andthen (at_ subject i) (fun c =>
    if (Ascii.eqb c "*" || Ascii.eqb c "_" || Ascii.eqb c "`")%bool then
      andthen (retrieve_escaped subject i false) (fun r =>
      if String.eqb (fst r) "" then
        andthen (at_ (snd r) i) (fun c => identifier_loop fuel tr (snd r) (S i) (id +++ String c ""))
      else identifier_loop fuel tr (snd r) 0 (id +++ fst r))
    else if (has_values tr && Ascii.eqb c (values_delimiter tr) || has_attributes tr && Ascii.eqb c "(" || has_content tr && at_content tr subject i)%bool
    then Val (id, from subject i, 0)
    else identifier_loop fuel tr subject (S i) (id +++ String c ""))
  end.
(** SignatureSectionProcessor.h:172-232 parseSignatureIdentifier: the identifier and the new subject *)
Definition parse_identifier (fuel : nat) (tr : traits) (subject : string) : outcome (string * string) :=
  andthen (identifier_loop fuel tr (trim subject) 0 "") (fun r =>
  let '(id, subject, i) := r in
  let subject := if i =? String.length subject then "" else subject in
  Val (trim id, trim subject)).

(** SignatureSectionProcessor.h:244-296 parseSignatureValues: the loop. Result: values, last value, subject, i *)
Fixpoint values_loop (fuel : nat) (tr : traits) (subject : string) (i : nat) (v : string) (vs : list string) : outcome (list string * string * string * nat) :=
  match fuel with
  | O => Endless
  | S fuel =>
    if String.length subject <=? i then Val (vs, v, subject, i) else
    andthen (at_ subject i) (fun c =>
    if Ascii.eqb c EscapeCharacter then
      andthen (retrieve_escaped subject i false) (fun r =>
      if String.eqb (fst r) "" then
        andthen (at_ (snd r) i) (fun c => values_loop fuel tr (snd r) (S i) (v +++ String c "") vs)
      else values_loop fuel tr (snd r) 0 (v +++ fst r) vs)
    else if Ascii.eqb c "," then
      andthen (strip_backticks (trim v)) (fun r => values_loop fuel tr (trim (from subject (S i))) 0 "" (vs ++ [fst r])%list)
    else if (has_attributes tr && Ascii.eqb c "(" || has_content tr && at_content tr subject i)%bool
    then Val (vs, v, from subject i, 0)
    else values_loop fuel tr subject (S i) (v +++ String c "") vs)
  end.
(** SignatureSectionProcessor.h:244-318 parseSignatureValues: value, values, the new subject. The length subtracted may not be greater *)
Definition parse_values (fuel : nat) (tr : traits) (subject : string) : outcome (string * list string * string) :=
  let subject := trim (from subject 1) in
  let whole := subject in
  andthen (values_loop fuel tr subject 0 "" []) (fun r =>
  let '(vs, v, subject, i) := r in
  let v := trim v in
  let vs := if String.eqb v "" then vs else (vs ++ [v])%list in
  let subject := trim (if i =? String.length subject then "" else subject) in
  let n := if String.length whole <? String.length subject then String.length whole else String.length whole - String.length subject in
  andthen (strip_backticks (trim (substring 0 n whole))) (fun r => Val (fst r, vs, subject))).

(** SignatureSectionProcessor.h:380-440 matchBrackets: the text, and the new subject *)
Fixpoint match_loop (fuel : nat) (subject : string) (i : nat) (ret : string) (close : ascii) (split clear : bool) : outcome (string * string) :=
  match fuel with
  | O => Endless
  | S fuel =>
    if String.length subject <=? i then Val (ret, if ((i =? String.length subject) && clear)%bool then "" else subject) else
    andthen (at_ subject i) (fun c =>
    let nested (b : ascii) :=
      andthen (match_loop fuel subject (S i) (String c "") b false true) (fun r => match_loop fuel (snd r) 0 (ret +++ fst r) close split clear) in
    if Ascii.eqb c EscapeCharacter then
      andthen (retrieve_escaped subject i false) (fun r =>
      if String.eqb (fst r) "" then
        andthen (at_ (snd r) i) (fun c => match_loop fuel (snd r) (S i) (ret +++ String c "") close split clear)
      else match_loop fuel (snd r) 0 (ret +++ fst r) close split clear)
    else if Ascii.eqb c "[" then nested "]"%char
    else if Ascii.eqb c "(" then nested ")"%char
    else if Ascii.eqb c close then Val (if split then ret else ret +++ String c "", from subject (S i))
    else if (split && Ascii.eqb c ",")%bool then Val (ret +++ String c "", from subject (S i))
    else match_loop fuel subject (S i) (ret +++ String c "") close split clear)
  end.
Definition match_brackets (fuel : nat) (subject : string) (begin : nat) (close : ascii) (split clear : bool) : outcome (string * string) :=
  andthen (if split then Val "" else andthen (at_ subject begin) (fun c => Val (String c ""))) (fun ret =>
  match_loop fuel subject (S begin) ret close split clear).

(** SignatureSectionProcessor.h:333-360 parseSignatureAttributes: the loop *)
Fixpoint attributes_loop (n fuel : nat) (subject : string) (l : list string) : outcome (list string * string) :=
  match n with
  | O => Endless
  | S n =>
    andthen (match_brackets fuel subject 0 ")" true false) (fun r =>
    let '(a, subject) := r in
    andthen (if String.length a =? 0 then Wild else at_ a (String.length a - 1)) (fun z =>
    let add (a : string) := let a := trim a in if String.eqb a "" then l else (l ++ [a])%list in
    if negb (Ascii.eqb z ",") then Val (add a, subject)
    else attributes_loop n fuel (String "(" subject) (add (substring 0 (String.length a - 1) a))))
  end.
(** SignatureSectionProcessor.h:326-363 parseSignatureAttributes: the attributes and the new subject *)
Definition parse_attributes (fuel : nat) (subject : string) : outcome (list string * string) :=
  andthen (at_ subject 0) (fun c =>
  if negb (Ascii.eqb c "(") then Val ([], subject) else
  andthen (attributes_loop fuel fuel subject []) (fun r => Val (fst r, trim (snd r)))).

(** SignatureSectionProcessor.h:74-145 parseSignature. [text]: of the node, [orig]: subjectOrig. The messages of the warnings. *)
Definition parse_signature (fuel : nat) (tr : traits) (text orig : string) : outcome (signature * list string) :=
  let '(subject, rest) := match orig with EmptyString => let l := first_line text "" in (trim (fst l), snd l) | _ => (orig, "") end in
  andthen (if (has_identifier tr && negb (String.eqb subject ""))%bool
           then andthen (parse_identifier fuel tr subject) (fun r => Val (fst r, snd r, if String.eqb (fst r) "" then ["no identifier specified"] else []))
           else Val ("", subject, [])) (fun a =>
  let '(id, subject, w1) := a in
  andthen (match subject with
           | EmptyString => Val ("", [], subject, [])
           | String c _ =>
             if (has_values tr && negb (Ascii.eqb c "("))%bool then
               let subject := if has_identifier tr then subject else String (values_delimiter tr) subject in
               andthen (at_ subject 0) (fun c =>
               if Ascii.eqb c (values_delimiter tr) then
                 andthen (parse_values fuel tr subject) (fun r =>
                 let '(v, vs, subject) := r in Val (v, vs, subject, match vs with [] => ["no value(s) specified"] | _ => [] end))
               else Val ("", [], subject, []))
             else Val ("", [], subject, [])
           end) (fun b =>
  let '(v, vs, subject, w2) := b in
  andthen (if (has_attributes tr && negb (String.eqb subject "") && negb (at_content tr subject 0))%bool
           then parse_attributes fuel subject else Val ([], subject)) (fun d =>
  let '(attrs, subject) := d in
  let c := if (has_content tr && negb (String.eqb subject "") && at_content tr subject 0)%bool
           then trim (from subject (String.length (content_delimiter tr))) else "" in
  Val (Sig id v vs attrs c rest, (w1 ++ w2)%list)))).
