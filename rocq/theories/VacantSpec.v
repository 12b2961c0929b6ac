(** Specification for C88: a request without body, attributes and parameters. Items are those of C80 and C81, payloads those of C77 *)
From Verif Require Import Base StringSpec ByteBuffer ByteSpec Markdown MarkdownSpec TypeTables SourceMap Mson TypeDefsSpec MembersSpec ParamsSpec GivenSpec.
From Verif Require Headers Payloads PayloadsSpec Blueprint.
Import Payloads(payload, q_body, q_headers, q_attributes, q_parameters, q_reference, r_state, Pending).
Import PayloadsSpec(complaint, About, place, last_value).
Local Open Scope string_scope.

Section Spec.
Context (known : list (string * base_type)) (source : string).
(** attributes without type, members and description *)
Definition says_nothing (t : tree) : Prop :=
  exists x e, attributes_say known source "" t x e /\ td_attrs (ds_type x) = 0%N /\ td_spec (ds_type x) = TS (TN UndefinedTN (Sym "" false)) [] /\ ds_sections x = [].
(** the items together define no parameter *)
Definition define_nothing (l : list tree) : Prop := exists e, in_steps (fun t before_ => more_parameters known source before_ t) l [] [] e.
(** neither a body, nor a reference to a model that is not there yet, nor attributes; and, unless a length or an encoding is promised, neither headers nor parameters *)
Definition lacks (p : payload) (len enc : string) : Prop :=
  q_body p = "" /\ Forall says_nothing (q_attributes p) /\ r_state (q_reference p) <> Pending /\ (len <> "" \/ enc <> "" \/ (q_headers p = [] /\ define_nothing (q_parameters p))).
Definition promised (len enc : string) : string :=
  if negb (String.eqb len "") then ", expected message-body for '" +++ len +++ "' Content-Length"
  else if negb (String.eqb enc "") then ", expected message-body for '" +++ enc +++ "' Transfer-Encoding" else "".
(** the complaints at the end of a request *)
Inductive request_ends (item : tree) (p : payload) : list complaint -> Prop :=
| ends_lacking : forall len enc, last_value "Content-Length" (q_headers p) len -> last_value "Transfer-Encoding" (q_headers p) enc -> lacks p len enc ->
    request_ends item p [About 6 ("empty request message-body" +++ promised len enc) (place item)]
| ends_quiet : forall len enc, last_value "Content-Length" (q_headers p) len -> last_value "Transfer-Encoding" (q_headers p) enc -> ~ lacks p len enc -> request_ends item p [].
End Spec.
