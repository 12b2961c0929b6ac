(** Property C27: the size computed for a type is the number of JSON values it admits *)
From Verif Require Import Base SoValue Element Extend Registry Expand JsonSpec GenSpec ElementUtils JsonValue JsonSchema ConformSpec SchemaProofs ElementSpec MergeSpec ConformProofs ConformUnique CountSpec CountProofs SizeProofs Prop_Gen Prop_Schema.

Definition size (e : element) (c : N) : Prop := computes (fun n => size_of n e false) (Ok c).

Theorem C27_size_is_count : forall e k c, counted false e k -> size e c ->
  counts (admits false e) (reading c) /\ reading c = k.
Proof.
  intros e k c C [f S]. destruct (counted_sized f false e k C c (S f (le_n f))) as [_ E]. rewrite E. split; [|reflexivity].
  now apply (proj1 counted_counts).
Qed.
Print Assumptions C27_size_is_count.

(** consequently a type of that kind whose size is 1 admits one value *)
Theorem C27_constants : forall e k, counted false e k -> size e 1%N -> exists v, forall w, admits false e w <-> w = v.
Proof.
  intros e k C S. destruct (C27_size_is_count e k 1 C S) as [(l & N & L & H) _]. destruct l as [|v [|w l]]; cbn in L; try lia.
  exists v. intros w. rewrite H. cbn. intuition congruence.
Qed.
Print Assumptions C27_constants.

(** ** a type of that kind: fixed { "a": true or false or null, "b": "x" or 7, "c": [1, true] } *)
Definition flag : element := typed "nullable" (Elem "boolean" [] [] false (DBoolean false)).
Definition either : element := set_attrs (Elem "enum" [] [] false (DEnum None)) [("enumerations"%string, lit (DArray [str "x"; num "7"]))].
Definition sized_type : element := typed "fixed" (lit (DObject
  [member "a" flag; member "b" either; member "c" (lit (DArray [num "1"; lit (DBoolean true)]))])).
Ltac undeclared := no_attr.
Lemma not_null : forall e k, ~ declares e "nullable" -> or_null e k k.
Proof. intros e k N. left. auto. Qed.
Ltac unfit := intros n; do 4 (destruct n as [|n]; [cbn; lia || exact I|]); cbn; lia || exact I.
Example C27_nonvacuous : counted false sized_type (Fin 6) /\ size sized_type 6 /\
  admits false sized_type (VObject [("a", VNull); ("b", VNumber "7"); ("c", VArray [VNumber "1"; VTrue])])%string.
Proof.
  assert (F1 : counted true (num "1") (Fin 1)) by (apply n_fixed; [exact I|now left|reflexivity|apply not_null; undeclared]).
  split; [|split].
  - eapply (n_object false sized_type _ true [Fin 3; Fin 2; Fin 1] ["a"; "b"; "c"]%string); [reflexivity| |now left|reflexivity| | | |].
    + apply adds_yes. declared.
    + eapply ms_cons; try reflexivity; try undeclared; [intros (? & ? & ? & H); discriminate H| |eapply ms_cons; try reflexivity; try undeclared; [intros (? & ? & ? & H); discriminate H| |eapply ms_cons; try reflexivity; try undeclared; [intros (? & ? & ? & H); discriminate H| |apply ms_nil]]].
      * apply n_open; [exact I|undeclared| |].
        -- intros _ [H|(x & [H|[_ H]])]; [discriminate H| |discriminate H]. destruct H as (? & ? & ? & ? & H). discriminate H.
        -- right. split; [declared|]. split; [reflexivity|]. cbn. lia.
      * eapply (n_enum true either _ _ _ _ _ true [Fin 1; Fin 1]); [reflexivity|split; auto|reflexivity| | | | |apply not_null; undeclared].
        -- constructor; [|constructor; [|constructor]]; (apply n_fixed; [exact I|now left|reflexivity|apply not_null; undeclared]).
        -- unfit.
        -- constructor; [|constructor; [constructor|constructor]]. constructor; [|constructor]. intros w A B.
           inversion A as [? ? D|? ? ? D|? ? ? P F L|? ? ? P F N K| | | | | | | | ]; subst; try discriminate; try (revert D; undeclared).
           ++ inversion L; subst; try discriminate. inversion B as [? ? D|? ? ? D|? ? ? P' F' L'|? ? ? P' F' N' K| | | | | | | | ]; subst; try discriminate.
              ** inversion L'; discriminate.
              ** destruct K.
           ++ exfalso. apply (N eq_refl). now left.
        -- undeclared.
      * eapply (n_tuple true _ _ [Fin 1; Fin 1]); [reflexivity|now left|reflexivity| | |apply not_null; undeclared].
        -- constructor; [exact F1|constructor; [|constructor]]. apply n_fixed; [exact I|now left|reflexivity|apply not_null; undeclared].
        -- unfit.
    + apply nodupb_ok. reflexivity.
    + unfit.
    + apply not_null. undeclared.
  - evaluates.
  - eapply (a_object false sized_type _ true); [reflexivity|apply adds_yes; declared|now left|discriminate|]. intros _.
    eapply vs_cons; try reflexivity; [apply a_nullable; [exact I|declared]|].
    eapply vs_cons; try reflexivity; [eapply (a_enum true either _ _ _ _ _ true (num "7")); [reflexivity|split; auto|reflexivity|cbn; auto|apply a_fixed; [exact I|now left|now apply lit_number]]|].
    eapply vs_cons; try reflexivity; [|apply vs_nil].
    eapply a_tuple; [reflexivity|now left|discriminate|]. intros _. constructor; [|constructor; [|constructor]].
    + apply a_fixed; [exact I|now left|now apply lit_number].
    + apply a_fixed; [exact I|now left|now apply lit_true].
Qed.

(** ** where the size is not the number of admitted values *)
(** a fixed string without a value counts as one value; the schema admits every string *)
Definition valueless : element := typed "fixed" (Elem "string" [] [] false (DString "")).
Theorem C27_valueless_refuted : size valueless 1 /\ schema valueless [f_schema_version; f_type "string"].
Proof. split; evaluates. Qed.
Print Assumptions C27_valueless_refuted.

(** an array of fixed type without entries: size 0, although [] is admitted; one whose entries admit
    nothing: infinite, although only [] is admitted *)
Definition no_entries : element := typed "fixedType" (Elem "array" [] [] false (DArray [])).
Definition impossible_entries : element := typed "fixedType" (lit (DArray [Elem "enum" [] [("enumerations"%string, lit (DArray []))] false (DEnum None)])).
Theorem C27_empty_arrays_refuted : size no_entries 0 /\ admits false no_entries (VArray []) /\
  size impossible_entries c_open /\ forall v, admits false impossible_entries v -> v = VArray [].
Proof.
  split; [evaluates|]. split; [eapply a_typed; [reflexivity|reflexivity|undeclared|declared|reflexivity|discriminate]|]. split; [evaluates|].
  intros v A. inversion A as [? ? D|? ? ? D|? ? ? P F L|? ? ? P F N K|? ? ? ? ? D|? ? l vs D [F|F] E1 E2|? ? l vs D I F Ft E1 E2|? ? l vs D I F Ft| | | | ]; subst; try discriminate.
  - revert D. undeclared.
  - destruct P.
  - destruct P.
  - revert F. undeclared.
  - injection D as <-. specialize (E2 eq_refl). inversion E2 as [|? x w ws Hx Ax]; [reflexivity|]. subst. destruct Hx as [<-|[]].
    inversion Ax as [? ? D'|? ? ? D'|? ? ? P' F' L'|? ? ? P' F' N' K| | | | |? ? v' n' m' a' l' f' y ? D' Af' En' Hy Ay| | | ]; subst; try discriminate.
    + revert D'. undeclared.
    + destruct P'.
    + destruct P'.
    + injection En' as <- <- <- <-. destruct Hy.
  - exfalso. apply Ft. declared.
Qed.
Print Assumptions C27_empty_arrays_refuted.

(** the optional member of a fixed object may be absent, but is not counted as such *)
Definition optional_member : element := typed "fixed" (lit (DObject [typed "optional" (member "a" (str "x"))])).
Theorem C27_optional_refuted : size optional_member 1 /\ exists fs, schema optional_member fs /\
  SchemaSpec.valid (VObject fs) (VObject []) /\ SchemaSpec.valid (VObject fs) (VObject [("a", VString "x")])%string.
Proof.
  split; [evaluates|]. eexists. split; [evaluates|]. split; cbn; [repeat split|].
  repeat match goal with |- _ /\ _ => split end; try exact I; try reflexivity.
  - intros _. split; [constructor|exact I].
  - intros [A _]. exact (A _ (or_intror (or_intror (or_introl eq_refl))) (or_introl eq_refl)).
Qed.
Print Assumptions C27_optional_refuted.

(** Overflow: a fixed object of sixteen enums (13 to 39 entries each) counts as one value, because the
    product of the sizes is 1 modulo 2^32; an enum that lists this type becomes a constant in the schema. *)
Definition name_of (n : nat) : string := to_string (N.of_nat n).
Definition any_of (n : nat) : element :=
  set_attrs (Elem "enum" [] [] false (DEnum None)) [("enumerations"%string, lit (DArray (map (fun i => str (name_of i)) (seq 0 n))))].
Definition keyed (ns : list nat) (k : nat) : list element := map (fun p => member (name_of (fst p)) (any_of (snd p))) (combine (seq k (List.length ns)) ns).
Definition big : element := typed "fixed" (lit (DObject (keyed [13; 13; 13; 15; 19; 19; 23; 25; 27; 27; 27; 29; 33; 33; 37; 39] 0))).
Definition pick (j : nat) : value := VObject (map (fun i => (name_of i, VString (name_of j))) (seq 0 16)).
Lemma pick_admitted : forall j ns k, Forall (fun n => j < n) ns ->
  values true (keyed ns k) (map (fun i => (name_of i, VString (name_of j))) (seq k (List.length ns))).
Proof.
  intros j ns. induction ns as [|n ns IH]; intros k F; [constructor|]. inversion F as [|? ? Hn F']; subst.
  apply (vs_cons true _ _ (str (name_of k)) (any_of n)); try reflexivity; [|exact (IH (S k) F')].
  eapply (a_enum true (any_of n) _ _ _ _ _ true (str (name_of j))); [reflexivity|split; auto|reflexivity|apply in_map_iff; exists j; split; [reflexivity|apply in_seq; lia]|].
  apply a_fixed; [exact I|now left|now apply lit_string].
Qed.
Theorem C27_overflow_refuted : size big 1 /\ admits false big (pick 0) /\ admits false big (pick 1) /\
  schema (set_attrs (Elem "enum" [] [] false (DEnum None)) [("enumerations"%string, lit (DArray [big]))]) [f_schema_version; ("const"%string, pick 0)].
Proof.
  assert (A : forall j, j < 13 -> admits false big (pick j)).
  { intros j Hj. eapply (a_object false big _ true); [reflexivity|apply adds_yes; declared|now left|discriminate|]. intros _. refine (pick_admitted j [13; 13; 13; 15; 19; 19; 23; 25; 27; 27; 27; 29; 33; 33; 37; 39] 0 _).
    repeat (constructor; [lia|]). constructor. }
  split; [evaluates|]. split; [apply A; lia|]. split; [apply A; lia|]. evaluates.
Qed.
Print Assumptions C27_overflow_refuted.

(** a value listed twice counts twice *)
Definition repeated : element := set_attrs (Elem "enum" [] [] false (DEnum None)) [("enumerations"%string, lit (DArray [typed "fixed" (str "x"); typed "fixed" (str "x")]))].
Theorem C27_repeated_refuted : size repeated 2 /\ forall v, admits false repeated v -> v = VString "x".
Proof.
  split; [evaluates|]. intros v A.
  inversion A as [? ? D'|? ? ? D'|? ? ? P' F' L'|? ? ? P' F' N' K| | | | |? ? v' n' m' a' l' f' y ? D' Af' En' Hy Ay| | | ]; subst; try discriminate.
  - revert D'. undeclared.
  - destruct P'.
  - destruct P'.
  - injection En' as <- <- <- <-. assert (y = typed "fixed" (str "x")) as -> by (destruct Hy as [<-|[<-|[]]]; reflexivity).
    inversion Ay as [? ? D|? ? ? D|? ? ? P F L|? ? ? P F N K| | | | | | | | ]; subst; try discriminate.
    + revert D. undeclared.
    + inversion L as [? s H D|? s H D|? H D|? H D|? x ? H D]; subst; cbn in D; try discriminate D. now injection D as <-.
    + exfalso. apply F. declared.
Qed.
Print Assumptions C27_repeated_refuted.
