(** Model of packages/drafter/src/refract/SerializeSo.cc (API elements to simple values).
    Logging is dropped. [None]: an assertion on a null pointer fails and the pointer is then
    dereferenced (SerializeSo.cc:125, 176, 185). *)
From Verif Require Import Base SoValue Element.

Section Mapping.
  Context {A B : Type} (f : A -> option B).
  (** a loop that emplaces f(entry) for every entry, failing when one fails *)
  Fixpoint mapM (l : list A) : option (list B) :=
    match l with
    | [] => Some []
    | x :: r =>
        match f x with
        | None => None
        | Some y => match mapM r with None => None | Some ys => Some (y :: ys) end
        end
    end.
  (** the same on keyed entries, skipping those whose key does not pass [keep] *)
  Fixpoint imapM (keep : string -> bool) (l : list (string * A)) : option (list (string * B)) :=
    match l with
    | [] => Some []
    | (k, x) :: r =>
        if keep k then
          match f x with
          | None => None
          | Some y => match imapM keep r with None => None | Some ys => Some ((k, y) :: ys) end
          end
        else imapM keep r
    end.
End Mapping.

Definition obind {A B} (o : option A) (f : A -> option B) : option B :=
  match o with Some x => f x | None => None end.

(** SerializeSo.cc:87: an info entry is rendered iff source maps are or it is not one *)
Definition keep_info (sourceMaps : bool) (k : string) : bool :=
  sourceMaps || negb (String.eqb k "sourceMap").

(** SerializeSo.cc:57-58, 66-67: the member is present iff the rendered info is not empty *)
Definition info_member (key : string) (l : list (string * value)) : list (string * value) :=
  match l with [] => [] | _ => [(key, VObject l)] end.

(** SerializeSo.cc:110-197 serializeContent, by DSD *)
Definition ser_content {A} (rec : A -> option value) (d : dsd A) : option value :=
  match d with
  | DNull => Some VNull
  | DHolder o => obind o rec
  | DString s => Some (VString s)
  | DNumber s => Some (VNumber s)
  | DBoolean b => Some (if b then VTrue else VFalse)
  | DArray l => option_map VArray (mapM rec l)
  | DMember k v =>
      match k with
      | None => None
      | Some k =>
          obind (rec k) (fun sk =>
            match v with
            | None => Some (VObject [("key"%string, sk)])
            | Some v => obind (rec v) (fun sv => Some (VObject [("key"%string, sk); ("value"%string, sv)]))
            end)
      end
  | DObject l => option_map VArray (mapM rec l)
  | DEnum o => obind o rec
  | DRef s => Some (VString s)
  | DExtend l => option_map VArray (mapM rec l)
  | DOption l => option_map VArray (mapM rec l)
  | DSelect l => option_map VArray (mapM rec l)
  end.

(** SerializeSo.cc:47-77 serializeAny, SerializeSo.cc:82-91 serialize(InfoElements) *)
Fixpoint serialize_any (sm : bool) (e : element) {struct e} : option value :=
  let 'Elem n m a h d := e in
  obind (imapM (serialize_any sm) (keep_info sm) m) (fun sm_ =>
  let sma := sm || String.eqb n "annotation" in
  obind (imapM (serialize_any sma) (keep_info sma) a) (fun sa =>
  obind (if h then option_map (fun c => [("content"%string, c)]) (ser_content (serialize_any sm) d)
         else Some []) (fun sc =>
  Some (VObject ((("element"%string, VString n) :: info_member "meta" sm_)
                 ++ info_member "attributes" sa ++ sc))))).

(** SerializeSo.cc:201-205 *)
Definition render_so (e : element) (sourceMaps : bool) : option value := serialize_any sourceMaps e.
