(** Specification for C81: which list items are parameters of a URI, what they say, and what is said about them. Texts are read as in C74, keywords are those of C75,
    the sections of the new form those of C80; of Blueprint only the types of the result are used. *)
From Verif Require Import Base StringSpec ByteBuffer ByteSpec Markdown MarkdownSpec KeywordsSpec SignatureSpec TypeTables SourceMap Mson TypeDefsSpec MembersSpec.
From Verif Require SectionsSpec PayloadsSpec Blueprint UriTemplate UriSpec.
Import SectionsSpec(a_header, an_item).
Import PayloadsSpec(the_text, place, opens, row, lines).
Import Blueprint(text, parameter_use, UndefinedUse, OptionalUse, RequiredUse, parameter, Param, pa_name, pa_description, pa_type, pa_use, pa_default, pa_example, pa_values).
Local Open Scope string_scope.

(** ** which items are parameters: in the form of API Blueprint before MSON, or as MSON *)
Inductive form : Type := OldForm | NewForm.
(** names: letters, digits, "_", ".", "-" and percent encoded bytes; perhaps a backtick in front and behind *)
Definition between (a b c : ascii) : Prop := (byte a <= byte c <= byte b)%N.
Definition name_char (c : ascii) : Prop := between "0" "9" c \/ between "A" "Z" c \/ between "a" "z" c \/ In c ["_"; "."; "-"]%char.
Definition hex_digit (c : ascii) : Prop := between "0" "9" c \/ between "A" "F" c \/ between "a" "f" c.
Inductive name_text : string -> Prop :=
| name_end : name_text ""
| name_more : forall c s, name_char c -> name_text s -> name_text (String c s)
| name_percent : forall a b s, hex_digit a -> hex_digit b -> name_text s -> name_text (String "%" (String a (String b s))).
Definition tick_or_none (s : string) : Prop := s = "" \/ s = "`".
Definition head (h : string) : Prop := exists a n b g, h = a +++ n +++ b +++ g /\ tick_or_none a /\ name_text n /\ tick_or_none b /\ blanks g.
(** the longest such text in front *)
Definition headed (s h r : string) : Prop := s = h +++ r /\ head h /\ forall h' r', s = h' +++ r' -> head h' -> String.length h' <= String.length h.

(** the text [p] up to the parenthesis that closes it and with it, or all of it. [r] is the rest; if the parenthesis is never closed it is the text [held]: what was
    read since the last literal or bracket *)
Inductive grouped : string -> string -> string -> string -> Prop :=
| grouped_end : forall held, grouped held "" "" held
| grouped_close : forall held r, grouped held (String ")" r) ")" r
| grouped_char : forall held c s r p r', ~ In c ["["; "("; ")"]%char -> piece [backtick] (String c s) (String c "") r ->
    grouped (held +++ String c "") r p r' -> grouped held (String c s) (String c p) r'
| grouped_literal : forall held s q r p r', piece [backtick] s q r -> 1 < String.length q -> grouped "" r p r' -> grouped held s (q +++ p) r'
| grouped_nested : forall held a b s q r p r', brackets a b -> enclosed b s q r -> grouped "" r p r' -> grouped held (String a s) (String a q +++ p) r'.

(** "enum[...]" somewhere; a backtick somewhere *)
Definition names_enum (p : string) : Prop := exists v a x b, before "000" p v /\ v = a +++ "enum[" +++ x +++ "]" +++ b /\ x <> "" /\ ~ has "[" x /\ ~ has "]" x.
Definition ticked (p : string) : Prop := exists v, before "000" p v /\ has "`" v.
(** what stands behind the name or behind the attributes *)
Inductive ended : string -> form -> Prop :=
| ended_dash : forall s, ended (String "-" s) NewForm
| ended_dots : forall s, ended ("..." +++ s) OldForm.
Inductive marked : string -> form -> Prop :=
| marked_nothing : marked "" NewForm
| marked_example : forall v, ~ all white v -> marked (String ":" v) NewForm
| marked_default : forall v, ~ all white v -> marked (String "=" v) OldForm
| marked_text : forall s f, ended s f -> marked s f
| marked_enum : forall s p r, grouped "(" s p r -> 1 < String.length p -> String "(" p <> r -> names_enum p -> marked (String "(" s) NewForm
| marked_ticks : forall s p r, grouped "(" s p r -> 1 < String.length p -> String "(" p <> r -> ~ names_enum p -> ticked p -> marked (String "(" s) OldForm
| marked_plain : forall s p r r' f, grouped "(" s p r -> 1 < String.length p -> String "(" p <> r -> ~ names_enum p -> ~ ticked p -> trims r r' ->
    (r' = "" /\ f = NewForm) \/ ended r' f -> marked (String "(" s) f.
Inductive line_says (line : string) : form -> Prop :=
| line_by : forall s h r r' f, trims line s -> headed s h r -> h <> "" -> trims r r' -> marked r' f -> line_says line f.

(** a nested item may tell the form, whatever the line says *)
Definition tells_new (t : tree) : Prop := item_says reads_default t \/ item_says reads_sample t \/ item_says reads_members t.
Definition tells_old (t : tree) : Prop := item_says reads_values t /\ ~ tells_new t.
Inductive formed (item : tree) : form -> Prop :=
| formed_new : forall x z m a t b, item = Tree ItemNode x z m (a ++ t :: b) -> Forall (fun t => ~ tells_new t /\ ~ tells_old t) a -> tells_new t -> formed item NewForm
| formed_old : forall x z m a t b, item = Tree ItemNode x z m (a ++ t :: b) -> Forall (fun t => ~ tells_new t /\ ~ tells_old t) a -> tells_old t -> formed item OldForm
| formed_by_line : forall x z m t r l f, item = Tree ItemNode x z m (t :: r) -> Forall (fun t => ~ tells_new t /\ ~ tells_old t) (t :: r) -> before "010" (the_text t) l ->
    line_says l f -> formed item f.

(** ** attributes *)
Definition use_word (a : string) (u : parameter_use) : Prop :=
  exists v, before "000" a v /\ ((u = RequiredUse /\ word_then ["Required"; "required"] blanks v) \/ (u = OptionalUse /\ word_then ["Optional"; "optional"] blanks v)).
(** the text between the first two backticks *)
Definition quotes (x g : string) : Prop := exists v a b, before "000" x v /\ v = a +++ "`" +++ g +++ "`" +++ b /\ ~ has "`" a /\ ~ has "`" g.
(** the first word of use counts; the others are left *)
Inductive use_of : list string -> parameter_use -> list string -> Prop :=
| use_first : forall a w b u, Forall (fun x => forall u, ~ use_word x u) a -> use_word w u -> use_of (a ++ w :: b) u (a ++ b)%list
| use_none : forall l, Forall (fun x => forall u, ~ use_word x u) l -> use_of l UndefinedUse l.
(** those with a text in backticks are examples, in the old form; the others are types *)
Inductive sorts (f : form) : list string -> list string -> list string -> Prop :=
| sorts_end : sorts f [] [] []
| sorts_example : forall x g l ts es, f = OldForm -> quotes x g -> sorts f l ts es -> sorts f (x :: l) ts (g :: es)
| sorts_type : forall x l ts es, f = NewForm \/ (forall g, ~ quotes x g) -> sorts f l ts es -> sorts f (x :: l) (x :: ts) es.
(** "enum[...]" means its type, as MSON *)
Inductive type_of (f : form) (x : string) : string -> Prop :=
| type_enum : forall g t, f = NewForm -> before "000" x ("enum[" +++ g +++ "]") -> ~ has "[" g -> ~ has "]" g -> trims g t -> t <> "" -> type_of f x t
| type_plain : f = OldForm \/ (forall g t, before "000" x ("enum[" +++ g +++ "]") -> ~ has "[" g -> ~ has "]" g -> trims g t -> t = "") -> type_of f x x.
Definition at_most (f : form) : nat := match f with OldForm => 3 | NewForm => 2 end.
Definition too_many_traits (f : form) : string :=
  match f with
  | OldForm => "unable to parse additional parameter traits, expected '([required | optional], [<type>], [`<example value>`])', e.g. '(optional, string, `Hello World`)'"
  | NewForm => "unable to parse additional parameter traits, expected '([required | optional], [<type> | enum[<type>])', e.g. '(optional, string)'"
  end.
(** the use, the type, the example ([given]: the one in front of the attributes), what is said *)
Inductive traits_say (f : form) (given : string) (l : list string) : parameter_use -> string -> string -> list effect -> Prop :=
| traits_fine : forall u rest ts es ty, List.length l <= at_most f -> use_of l u rest -> sorts f rest ts es ->
    (ts = [] /\ ty = "") \/ (exists x, ts = [x] /\ type_of f x ty) -> traits_say f given l u ty (List.last es given) []
| traits_unclear : forall u rest ts es, use_of l u rest -> sorts f rest ts es -> at_most f < List.length l \/ 1 < List.length ts ->
    traits_say f given l UndefinedUse "" (match f with OldForm => "" | NewForm => given end) [Says 3 (too_many_traits f)].

(** ** checks of a whole parameter *)
Definition given (x : text) : Prop := fst x <> "".
Inductive clash_says (p : parameter) : list effect -> Prop :=
| clash : pa_use p <> OptionalUse -> given (pa_default p) ->
    clash_says p [Says 8 ("specifying parameter '" +++ fst (pa_name p) +++ "' as required supersedes its default value, declare the parameter as 'optional' to specify its default value")]
| no_clash : pa_use p = OptionalUse \/ ~ given (pa_default p) -> clash_says p [].
Inductive missing (what : string) (v : text) (p : parameter) : string -> Prop :=
| missing_is : given v -> ~ In (fst v) (map fst (pa_values p)) ->
    missing what v p ("the " +++ what +++ " value '" +++ fst v +++ "' of parameter '" +++ fst (pa_name p) +++ "' is not in its list of expected values")
| missing_not : ~ given v \/ In (fst v) (map fst (pa_values p)) -> missing what v p "".
Inductive choice_says (p : parameter) : list effect -> Prop :=
| choice_free : pa_values p = [] -> choice_says p []
| choice_among : forall a b, pa_values p <> [] -> missing "example" (pa_example p) p a -> missing "default" (pa_default p) p b ->
    choice_says p (if String.eqb (a +++ b) "" then [] else [Says 8 (a +++ b)]).
Inductive checked (item : tree) (p : parameter) : located -> Prop :=
| checked_by : forall e e', clash_says p e -> choice_says p e' -> checked item p (on item (e ++ e')).

(** a text of a node *)
Definition of_node (t : tree) (x : string) : text := (x, lies_unless (String.eqb x "") t).
(** a line, and those below it *)
Definition lines_below (x rest end_ : string) : string := if String.eqb rest "" then x else x +++ String "010" (rest +++ end_).

Section Spec.
Context (known : list (string * base_type)) (source context : string).

(** texts below, each behind a blank line *)
Inductive described_by : list tree -> text -> text -> Prop :=
| described_end : forall d, described_by [] d d
| described_more : forall t r d m d1 c o, spaced d d1 -> trims (source_of source t) c ->
    described_by r (d1 +++ c, if String.eqb (source_of source t) "" then m else append_places m (lies t)) o -> described_by (t :: r) (d, m) o.

(** ** the possible values: items of just one text, in backticks *)
Definition quotes_some (x g : string) : Prop :=
  exists v a b, before "000" x v /\ v = a +++ "`" +++ g +++ "`" +++ b /\ g <> "" /\ ~ has "`" g /\
    forall a' g' b', v = a' +++ "`" +++ g' +++ "`" +++ b' -> g' <> "" -> ~ has "`" g' -> String.length a <= String.length a'.
Definition holds_only (t : tree) (x : string) : Prop := exists y z m c, t = Tree ItemNode y z m [c] /\ the_text c = x /\ ~ all white x.
Inductive value_node (t : tree) (l : list text) : list text -> located -> bool -> Prop :=
| value_quoted : forall x g, holds_only t x -> quotes_some x g -> value_node t l (l ++ [(g, lies t)])%list [] true
| value_unquoted : forall x y, holds_only t x -> (forall g, ~ quotes_some x g) -> trims x y ->
    value_node t l l (on t [Says 5 ("ignoring the '" +++ y +++ "' element, expected '`" +++ y +++ "`'")]) true
| value_other : (forall x, ~ holds_only t x) -> value_node t l l (unexpected_node t) true.
Inductive values_say (item : tree) : list text -> located -> Prop :=
| values_by : forall t r l e, opens item t r -> nodes_say value_node r [] l e -> values_say item l e.

(** ** the old form *)
Definition values_item (t : tree) : Prop := item_says_whole reads_values t.
Inductive old_node (name : string) (t : tree) (l : list text) : list text -> located -> bool -> Prop :=
| old_values : forall l' e, values_item t -> values_say t l' e ->
    old_node name t l l'
      ((match l with [] => [] | _ => on t [Says 4 ("overshadowing previous 'values' definition for parameter '" +++ name +++ "'")] end) ++ e ++
       (match l' with [] => on t [Says 6 ("no possible values specified for parameter '" +++ name +++ "'")] | _ => [] end))%list true
| old_other : ~ values_item t -> old_node name t l l (unexpected_node t) true.
Definition old_shape : shape := Shape true true true true "=" "...".
Inductive old_says (item : tree) : parameter -> located -> Prop :=
| old_by : forall t r p m d0 use ty ex e1 texts others d vs e2 e3, opens item t r -> signed old_shape (the_text t) "" (Some (p, m)) ->
    trims (lines_below (p_content p) (p_rest p) "") d0 -> traits_say OldForm "" (p_attributes p) use ty ex e1 ->
    row (fun t => ~ values_item t) r texts others -> described_by texts (of_node t d0) d -> nodes_say (old_node (p_id p)) others [] vs e2 ->
    let q := Param (of_node t (p_id p)) d (of_node t ty) use (of_node t (p_value p)) (of_node t ex) vs in
    checked item q e3 -> old_says item q (on t (map (Says 6) m ++ e1) ++ e2 ++ e3)%list.

(** ** the new form *)
(** the values of a section of items: those that are just one value *)
Fixpoint single_values (l : list melement) : list text :=
  match l with
  | MValue (Mem _ (VD [v] _) _ _ _ m) :: r => (v_literal v, m) :: single_values r
  | _ :: r => single_values r
  | [] => []
  end.
Inductive new_node (t : tree) : text * text * list text -> text * text * list text -> located -> bool -> Prop :=
| new_default : forall x e d v l, kind_says t ValuesKind -> section_says known source context ValuesKind ImplicitPrimitiveBT t x e -> sc_class x = DefaultClass -> sc_value x <> "" ->
    new_node t (d, v, l) ((sc_value x, sc_value_map x), v, l) e true
| new_example : forall x e d v l, kind_says t ValuesKind -> section_says known source context ValuesKind ImplicitPrimitiveBT t x e -> sc_class x = SampleClass -> sc_value x <> "" ->
    new_node t (d, v, l) (d, (sc_value x, sc_value_map x), l) e true
| new_nothing : forall x e a, kind_says t ValuesKind -> section_says known source context ValuesKind ImplicitPrimitiveBT t x e ->
    (sc_class x <> DefaultClass /\ sc_class x <> SampleClass) \/ sc_value x = "" -> new_node t a a e true
| new_values : forall x e d v l, kind_says t ItemsKind -> section_says known source context ItemsKind ImplicitValueBT t x e ->
    new_node t (d, v, l) (d, v, single_values (sc_elements x)) e true
| new_end : forall a, kind_says t PropertiesKind -> new_node t a a [] false
| new_other : forall a, ~ section_node t -> new_node t a a (unexpected_node t) true.
Definition new_shape : shape := Shape true true true true ":" "-".
Inductive new_says (item : tree) : parameter -> located -> Prop :=
| new_by : forall t r p m name use ty ex e1 texts others d default example vs e2 e3, opens item t r -> signed new_shape (the_text t) "" (Some (p, m)) ->
    bare (p_id p) name -> traits_say NewForm (p_value p) (p_attributes p) use ty ex e1 ->
    row (fun t => ~ section_node t) r texts others -> described_by texts (of_node t (lines_below (p_content p) (p_rest p) (String "010" ""))) d ->
    nodes_say new_node others (("", []), of_node t ex, []) (default, example, vs) e2 ->
    let q := Param (of_node t name) d (of_node t ty) use default example vs in
    checked item q e3 -> new_says item q (on t (map (Says 6) m ++ e1) ++ e2 ++ e3)%list.

(** ** all the parameters: one of a name, the one defined last *)
Inductive adds (t : tree) (p : parameter) : list parameter -> list parameter -> located -> Prop :=
| adds_new : forall l, ~ In (fst (pa_name p)) (map (fun q => fst (pa_name q)) l) -> adds t p l (l ++ [p])%list []
| adds_again : forall a q b, ~ In (fst (pa_name p)) (map (fun q => fst (pa_name q)) a) -> fst (pa_name q) = fst (pa_name p) ->
    adds t p (a ++ q :: b) (a ++ b ++ [p])%list (on t [Says 4 ("overshadowing previous parameter '" +++ fst (pa_name p) +++ "' definition")]).
Inductive parameter_node (t : tree) (l : list parameter) : list parameter -> located -> bool -> Prop :=
| parameter_old : forall p e l' e', formed t OldForm -> old_says t p e -> adds t p l l' e' -> parameter_node t l l' (e ++ e')%list true
| parameter_new : forall p e l' e', formed t NewForm -> new_says t p e -> adds t p l l' e' -> parameter_node t l l' (e ++ e')%list true
| parameter_other : (forall f, ~ formed t f) -> parameter_node t l l (unexpected_node t) true.
Inductive parameters_say (item : tree) : list parameter -> located -> Prop :=
| parameters_by : forall t r first rest l e, opens item t r -> lines (the_text t) first rest -> nodes_say parameter_node r [] l e ->
    parameters_say item l
      ((if String.eqb rest "" then [] else
          on t [Says 5 "ignoring additional content after 'parameters' keyword, expected a nested list of parameters, one parameter per list item"]) ++ e ++
       (match l with [] => on item [Says 3 "no parameters specified, expected a nested list of parameters, one parameter per list item"] | _ => [] end))%list.
End Spec.

(** of parameters with one name the one defined last *)
Fixpoint lasting (l : list parameter) : list parameter :=
  match l with
  | [] => []
  | p :: r => if in_dec string_dec (fst (pa_name p)) (map (fun q => fst (pa_name q)) r) then lasting r else p :: lasting r
  end.

(** the parameters the nodes define, in the order of the document: one for each item that has the form of a parameter, and no other *)
Inductive defined (known : list (string * base_type)) (source context : string) : list tree -> list parameter -> Prop :=
| defined_end : defined known source context [] []
| defined_old : forall t r p e l, formed t OldForm -> old_says source t p e -> defined known source context r l -> defined known source context (t :: r) (p :: l)
| defined_new : forall t r p e l, formed t NewForm -> new_says known source context t p e -> defined known source context r l -> defined known source context (t :: r) (p :: l)
| defined_none : forall t r l, (forall f, ~ formed t f) -> defined known source context r l -> defined known source context (t :: r) l.

(** ** parameters and URI templates: the variables are those of C72 *)
Definition variable_of (uri x : string) : Prop :=
  exists segs parts o items unclosed v, UriSpec.cuts uri segs /\ Forall2 UriSpec.part_of segs parts /\ In (UriTemplate.Expression (UriTemplate.Expr o items unclosed)) parts /\
    In (UriTemplate.GoodItem v) items /\ UriTemplate.v_name v = x.
Inductive eligible (uri name : string) : list parameter -> list effect -> Prop :=
| eligible_end : eligible uri name [] []
| eligible_found : forall p l e, variable_of uri (fst (pa_name p)) -> eligible uri name l e -> eligible uri name (p :: l) e
| eligible_missing : forall p l e, ~ variable_of uri (fst (pa_name p)) -> eligible uri name l e ->
    eligible uri name (p :: l) (Says 8 ("parameter '" +++ fst (pa_name p) +++ "' is not found within the URI template '" +++ uri +++ "'" +++
      (if String.eqb name "" then "" else " for '" +++ name +++ "' ")) :: e).
