(** Model of packages/apib-parser/src/snowcrash/snowcrash.cc *)
From Verif Require Import Base ByteBuffer.
Local Open Scope string_scope.

(** SourceAnnotation.h:26-89: location, code, message *)
Record annotation : Type := An { a_location : list range; a_code : N; a_message : string }.
(** SourceAnnotation.h:99-106 ErrorCode *)
Definition NoError : N := 0%N.
Definition ApplicationError : N := 1%N.
Definition BusinessError : N := 2%N.

Definition tab_message := "the use of tab(s) '\t' in source data isn't currently supported, please contact makers".
Definition cr_message := "the use of carriage return(s) '\r' in source data isn't currently supported, please contact makers".

(** snowcrash.cc:20-49 CheckSource: [None] when the check is passed, else the error set in the report *)
Definition check_source (source : string) : outcome (option annotation) :=
  match index 0 (String "009"%char "") source with
  | Some pos =>
    andthen (set_to_characters [R (N.of_nat pos) 1] source) (fun l => Val (Some (An l BusinessError tab_message)))
  | None =>
    match index 0 (String "013"%char "") source with
    | Some pos =>
      andthen (set_to_characters [R (N.of_nat pos) 1] source) (fun l => Val (Some (An l BusinessError cr_message)))
    | None => Val None
    end
  end.

(** what the parsing proper (snowcrash.cc:64-74: Markdown, the character index, the blueprint) ends with; it may have
    written to the result before it throws *)
Inductive ended : Type := Finished | Threw_error (e : annotation) | Threw_std (what : string) | Threw_other.
(** ParseResultRef<Blueprint>: node with source map, and report *)
Record parsed (node : Type) : Type := Pd { node_of : node; error_of : annotation; warnings_of : list annotation }.
Arguments Pd {node} _ _ _.
Arguments node_of {node} _.
Arguments error_of {node} _.
Arguments warnings_of {node} _.
Definition with_error {node} (out : parsed node) (e : annotation) : parsed node := Pd (node_of out) e (warnings_of out).

(** snowcrash.cc:51-92 parse: the new result and the code returned. The parsing proper is a parameter. *)
Definition parse {node} (proper : string -> parsed node -> outcome (parsed node * ended)) (source : string) (out : parsed node)
  : outcome (parsed node * N) :=
  let return_ (out : parsed node) := Val (out, a_code (error_of out)) in
  andthen (check_source source) (fun r =>
  match r with
  | Some e => return_ (with_error out e)
  | None =>
    if String.eqb source "" then return_ out else
    andthen (proper source out) (fun p =>
    let (out, e) := p in
    match e with
    | Finished => return_ out
    | Threw_error e => return_ (with_error out e)
    | Threw_std what => return_ (with_error out (An [] ApplicationError ("parser exception: '" +++ what +++ "'")))
    | Threw_other => return_ (with_error out (An [] ApplicationError "parser exception has occurred"))
    end)
  end).
