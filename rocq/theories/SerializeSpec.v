(** Specification vocabulary for the API Elements serialization *)
From Verif Require Import Base SoValue Element ElementSpec.

(** the element without its source maps: every meta and attribute entry called sourceMap is
    dropped, everywhere, except inside the attributes of annotation elements *)
Definition drop_maps (l : info) : info := filter (fun kv => negb (String.eqb (fst kv) "sourceMap")) l.

Fixpoint strip (e : element) : element :=
  let 'Elem n m a h d := e in
  Elem n (drop_maps (map (fun kv => (fst kv, strip (snd kv))) m))
         (if String.eqb n "annotation" then a
          else drop_maps (map (fun kv => (fst kv, strip (snd kv))) a))
         h (dsd_map strip d).

(** the member layout of a serialized element (API Elements): name, then meta, attributes and
    content when present; meta and attributes map names to serialized elements. *)
Inductive layout : value -> Prop :=
| lay n m a c :
    meta_ok "meta" m -> meta_ok "attributes" a -> content_ok c ->
    layout (VObject ((("element"%string, VString n) :: m) ++ a ++ c))
with meta_ok : string -> list (string * value) -> Prop :=
| mo_none k : meta_ok k []
| mo_some k l : l <> [] -> (forall n v, In (n, v) l -> layout v) -> meta_ok k [(k, VObject l)]
with content_ok : list (string * value) -> Prop :=
| co_none : content_ok []
| co_prim v : (v = VNull \/ v = VTrue \/ v = VFalse \/ (exists s, v = VString s) \/ (exists s, v = VNumber s)) ->
    content_ok [("content"%string, v)]
| co_elem v : layout v -> content_ok [("content"%string, v)]
| co_list l : (forall v, In v l -> layout v) -> content_ok [("content"%string, VArray l)]
| co_key k : layout k -> content_ok [("content"%string, VObject [("key"%string, k)])]
| co_pair k v : layout k -> layout v ->
    content_ok [("content"%string, VObject [("key"%string, k); ("value"%string, v)])].

(** names of the members of an object value *)
Definition member_names (v : value) : list string :=
  match v with VObject ms => map fst ms | _ => [] end.

(** the keys, strings and number literals of an element itself *)
Definition own_keys (e : element) : list string := (map fst (emeta e) ++ map fst (eattrs e))%list.
Definition own_strings (e : element) : list string :=
  ename e :: (if ehas e then match edata e with DString s | DRef s => [s] | _ => [] end else []).
Definition own_numbers (e : element) : list string :=
  if ehas e then match edata e with DNumber s => [s] | _ => [] end else [].

(** meta and attribute names are unique within each container of the element *)
Definition keys_unique (e : element) : Prop :=
  forall x, sub x e -> NoDup (map fst (emeta x)) /\ NoDup (map fst (eattrs x)).

(** what an element means as an API Elements document, relation by relation; [sm]: with source
    maps *)
Definition kept_entries (sm : bool) (l : info) : info :=
  if sm then l else filter (fun kv => negb (String.eqb (fst kv) "sourceMap")) l.
Definition optional_member (name : string) (l : list (string * value)) : list (string * value) :=
  if (List.length l =? 0)%nat then [] else [(name, VObject l)].

Inductive denotes : bool -> element -> value -> Prop :=
| den sm n m a h d vm va vc :
    Forall2 (fun x y => fst x = fst y /\ denotes sm (snd x) (snd y)) (kept_entries sm m) vm ->
    Forall2 (fun x y => fst x = fst y /\ denotes (sm || String.eqb n "annotation") (snd x) (snd y))
            (kept_entries (sm || String.eqb n "annotation") a) va ->
    (h = false -> vc = []) ->
    (h = true -> exists v, vc = [("content"%string, v)] /\ denotes_content sm d v) ->
    denotes sm (Elem n m a h d)
      (VObject ([("element"%string, VString n)] ++ optional_member "meta" vm ++ optional_member "attributes" va ++ vc))
with denotes_content : bool -> dsd element -> value -> Prop :=
| dc_null sm : denotes_content sm DNull VNull
| dc_string sm s : denotes_content sm (DString s) (VString s)
| dc_number sm s : denotes_content sm (DNumber s) (VNumber s)
| dc_true sm : denotes_content sm (DBoolean true) VTrue
| dc_false sm : denotes_content sm (DBoolean false) VFalse
| dc_ref sm s : denotes_content sm (DRef s) (VString s)
| dc_holder sm e v : denotes sm e v -> denotes_content sm (DHolder (Some e)) v
| dc_enum sm e v : denotes sm e v -> denotes_content sm (DEnum (Some e)) v
| dc_array sm l vs : Forall2 (denotes sm) l vs -> denotes_content sm (DArray l) (VArray vs)
| dc_object sm l vs : Forall2 (denotes sm) l vs -> denotes_content sm (DObject l) (VArray vs)
| dc_extend sm l vs : Forall2 (denotes sm) l vs -> denotes_content sm (DExtend l) (VArray vs)
| dc_option sm l vs : Forall2 (denotes sm) l vs -> denotes_content sm (DOption l) (VArray vs)
| dc_select sm l vs : Forall2 (denotes sm) l vs -> denotes_content sm (DSelect l) (VArray vs)
| dc_member_key sm k vk : denotes sm k vk -> denotes_content sm (DMember (Some k) None) (VObject [("key"%string, vk)])
| dc_member sm k e vk ve : denotes sm k vk -> denotes sm e ve ->
    denotes_content sm (DMember (Some k) (Some e)) (VObject [("key"%string, vk); ("value"%string, ve)]).
