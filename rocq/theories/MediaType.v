(** Model of packages/apib/include/apib/syntax/MediaType.h, packages/apib/src/MediaType.cc, packages/apib-parser/src/grammar/Mediatype.h,
    packages/apib-parser/src/MediaTypeParser.cc and packages/drafter/src/backend/MediaTypeS11n.cc *)
From Verif Require Import Base Peg.

(** MediaType.h:20-27 media_type *)
Record media : Type := MT { m_type : string; m_subtype : string; m_suffix : string; m_params : list (string * string) }.
Definition m_empty : media := MT "" "" "" [].

(** ** MediaType.cc *)
(** std::tolower in the C locale *)
Definition lower (a : ascii) : ascii := if c_range 65 90 a then chr (byte a + 32) else a.
(** MediaType.cc:17-27 iequal *)
Fixpoint iequal (a b : string) : bool :=
  match a, b with
  | EmptyString, EmptyString => true
  | String x a, String y b => Ascii.eqb (lower x) (lower y) && iequal a b
  | _, _ => false
  end.
(** MediaType.cc:29-34 syntaxType *)
Definition syntax_type (t : media) : string := match m_suffix t with EmptyString => m_subtype t | s => s end.
(** MediaType.cc:47-51 isJSON *)
Definition is_json (t : media) : bool := iequal (m_type t) "application" && iequal (syntax_type t) "json".
(** MediaType.cc:53-58 isJSONSchema *)
Definition is_json_schema (t : media) : bool :=
  iequal (m_type t) "application" && iequal (m_subtype t) "schema" && iequal (m_suffix t) "json".

(** ** Mediatype.h: the grammar *)
Section Grammar.
  Context {S : Type}.
  (** Mediatype.h:38 *)
  Definition restricted (a : ascii) : bool := c_in "!#$&^_-." a.
  (** Mediatype.h:40-43 *)
  Definition g_ows : rule S := p_star (p_one c_wsp).
  Definition g_rws : rule S := p_plus (p_one c_wsp).
  (** Mediatype.h:45 obs_text: char is signed, so everything outside 0..127 is a byte with the high bit *)
  Definition obs_text (a : ascii) : bool := (128 <=? byte a)%N.
  (** Mediatype.h:47-54 quoted_pair *)
  Definition g_quoted_pair : rule S :=
    p_if_must (p_one (Ascii.eqb "\")) (p_sor (p_one c_vchar) (p_sor (p_one obs_text) (p_one c_wsp))).
  (** Mediatype.h:57-61 quoted *)
  Definition quote : ascii := """"%char.
  Definition g_quoted : rule S :=
    p_seq (p_one (Ascii.eqb quote)) (p_seq (p_star (p_sor g_quoted_pair (p_one (fun a => negb (Ascii.eqb quote a))))) (p_one (Ascii.eqb quote))).
  (** Mediatype.h:63-66 name *)
  Definition name_char (a : ascii) : bool := c_alnum a || restricted a.
  Definition g_name : rule S := p_seq (p_one c_alnum) (p_rep_max 126 (p_one name_char)).
End Grammar.

(** Mediatype.h:116-131 param_state; 178-203 the actions *)
Definition pstate : Type := (string * string)%type.
Definition unquote (s : string) : string := String.substring 1 (String.length s - 2) s.
Definition g_attribute : rule pstate := p_act (fun t s => (t, snd s)) g_name.
Definition g_value : rule pstate :=
  p_sor (p_act (fun t s => (fst s, unquote t)) g_quoted) (p_act (fun t s => (fst s, t)) g_name).
Definition g_parameter : rule media :=
  p_change (""%string, ""%string) (fun p m => MT (m_type m) (m_subtype m) (m_suffix m) (m_params m ++ [p])%list)
    (p_seq g_attribute (p_seq (p_one (Ascii.eqb "=")) g_value)).
(** Mediatype.h:76 parameters *)
Definition g_parameters : rule media := p_list g_parameter g_rws.
(** Mediatype.h:79-90 type, subtype; 138-172 the actions *)
Definition set_type (t : string) (m : media) : media := MT t (m_subtype m) (m_suffix m) (m_params m).
Definition set_subtype (t : string) (m : media) : media := MT (m_type m) t (m_suffix m) (m_params m).
Definition set_suffix (t : string) (m : media) : media := MT (m_type m) (m_subtype m) t (m_params m).
Definition chop (s : string) : string := String.substring 0 (String.length s - 1) s.
Definition g_type : rule media := p_act set_type g_name.
Definition g_prefix : rule media := p_act (fun t => set_subtype (chop t)) (p_plus (p_seq g_name (p_one (Ascii.eqb "+")))).
Definition g_suffix : rule media := p_act set_suffix g_name.
Definition g_subtype : rule media := p_sor (p_seq g_prefix g_suffix) (p_act set_subtype g_name).
(** Mediatype.h:96-112 grammar, match_grammar. ascii::eolf: the end, "\n" or "\r\n" *)
Definition g_eolf : rule media := fun i m =>
  match i with
  | EmptyString => Matched i m
  | String a r =>
    if Ascii.eqb a (chr 10) then Matched r m else
    match r with
    | String b r' => if (Ascii.eqb a (chr 13) && Ascii.eqb b (chr 10))%bool then Matched r' m else Failed m
    | EmptyString => Failed m
    end
  end.
Definition g_media : rule media :=
  p_seq (p_seq (p_must g_type) (p_seq (p_must (p_one (Ascii.eqb "/"))) (p_must g_subtype)))
        (p_opt (p_seq g_ows (p_seq (p_one (Ascii.eqb ";")) (p_seq g_ows g_parameters)))).
Definition g_match : rule media := p_seq g_ows (p_seq g_media (p_seq g_ows g_eolf)).
(** MediaTypeParser.cc:17-23 parseMediaType: what parse returns is not looked at *)
Definition parse_media (s : string) : option media := p_state (p_try_catch g_match s m_empty).

(** ** MediaTypeS11n.cc *)
(** MediaTypeS11n.cc:19-30 s8_qtext *)
Fixpoint s8_qtext (v : string) : string :=
  match v with
  | EmptyString => ""
  | String c r =>
    (if Ascii.eqb c "\" || Ascii.eqb c quote then String "\" (String c "")
     else if Ascii.eqb c (chr 13) then "\r" else String c "") +++ s8_qtext r
  end.
(** MediaTypeS11n.cc:32-35 *)
Definition s8_quoted (v : string) : string := String quote (s8_qtext v +++ String quote "").
(** MediaTypeS11n.cc:37-44 is_tspecial *)
Definition tspecial (a : ascii) : bool := c_in "()<>@,;:\""/[]?=" a.
(** isspace, iscntrl in the C locale. Simplified: a negative char handed to them is looked up as "no". *)
Definition is_space (a : ascii) : bool := c_range 9 13 a || (byte a =? 32)%N.
Definition is_cntrl (a : ascii) : bool := (byte a <? 32)%N || (byte a =? 127)%N.
(** MediaTypeS11n.cc:46-57 s8_value *)
Definition needs_quotes (a : ascii) : bool := tspecial a || is_space a || is_cntrl a.
Definition s8_value (v : string) : string :=
  if existsb needs_quotes (list_ascii_of_string v) then s8_quoted v else v.
(** MediaTypeS11n.cc:59-82 operator<< *)
Definition print_param (p : string * string) : string :=
  match fst p with EmptyString => "" | k => "; " +++ k +++ "=" +++ s8_value (snd p) end.
Definition print_media (m : media) : string :=
  match m_type m, m_subtype m with
  | EmptyString, _ | _, EmptyString => ""
  | t, u => t +++ "/" +++ u +++ (match m_suffix m with EmptyString => "" | x => "+" +++ x end) +++ sconcat (map print_param (m_params m))
  end.
