(** Model of MIME types: crates/sip-core/src/mime.rs.  Errors are [None]: which of
    them is reported is not modelled. *)
From Coq Require Import NArith Bool String List.
Import ListNotations.
From Verif Require Import Base Text.
Open Scope N_scope.
Open Scope list_scope.

(** mime.rs:8-12 *)
Definition MAX_TYPE : N := 64.
Definition MAX_SUBTYPE : N := 64.
Definition MAX_NAME : N := 64.
Definition MAX_VALUE : N := 256.
Definition MAX_COUNT : N := 20.
(** 90-95 [MimeType]; params is a BTreeMap *)
Record mime := mkMime { m_type : str; m_sub : str; m_params : list (str * str) }.

(** 336-343, 370-377, 404-411, 423-428: the characters of a token *)
Definition token_c (c : N) : bool := is_alnum c || mem c (lit "-.!%*_+`'~").
(** 318-350 [validate_type], 352-384 [validate_subtype], 386-418 [validate_param_name] *)
Definition word_ok (mx : N) (s : str) : bool :=
  negb (str_eqb s []) && (blen s <=? mx) && negb (existsb is_ascii_control s) && forallb token_c s.
(** 420-429 [is_token] *)
Definition is_token (s : str) : bool := negb (str_eqb s []) && forallb token_c s.
(** 449-476: the text between the quotes *)
Fixpoint unquote (s : str) : option str :=
  match s with
  | [] => Some []
  | c :: r =>
      if c =? 92 then
        match r with
        | [] => None
        | e :: r' => if is_ascii_control e then None else match unquote r' with Some w => Some (e :: w) | None => None end
        end
      else if c =? 34 then None
      else match unquote r with Some w => Some (c :: w) | None => None end
  end.
(** 431-484 [normalize_param_value] *)
Definition normalize (v : str) : option str :=
  if negb (str_eqb v []) && (blen v <=? MAX_VALUE) && negb (existsb is_ascii_control v) then
    if starts_with [34] v && ends_with [34] v && (2 <=? blen v) then unquote (removelast (tl v))
    else if is_token v then Some v
    else None
  else None.

(** 121-136 [MimeType::new] *)
Definition mime_new (t s : str) : option mime :=
  if word_ok MAX_TYPE t && word_ok MAX_SUBTYPE s then Some (mkMime (lower t) (lower s) []) else None.
(** 163-188 [add_param] (and 146-153 [with_param]) *)
Definition add_param (m : mime) (n v : str) : option mime :=
  if word_ok MAX_NAME n && (llen (m_params m) <? MAX_COUNT) && is_none (bget (lower n) (m_params m)) then
    match normalize v with
    | Some w => Some (mkMime (m_type m) (m_sub m) (bput (lower n) w (m_params m)))
    | None => None
    end
  else None.
(** 265-269 [param] *)
Definition param (m : mime) (n : str) : option str := bget (lower n) (m_params m).

(** 235-245: a value as written *)
Definition quote_c (c : N) : str := if (c =? 92) || (c =? 34) then [92; c] else [c].
Definition show_value (v : str) : str := if is_token v then v else 34 :: flat_map quote_c v ++ [34].
(** 227-249 [to_string_with_params] (and 287-291 [Display]) *)
Definition show (m : mime) : str :=
  m_type m ++ 47 :: m_sub m ++ flat_map (fun p => 59 :: fst p ++ 61 :: show_value (snd p)) (m_params m).

(** 508-523: the parameters *)
Fixpoint read_params (m : mime) (ps : list str) : option mime :=
  match ps with
  | [] => Some m
  | p :: r =>
      let p := trim p in
      if str_eqb p [] then read_params m r
      else match split_once 61 p with
           | None => None
           | Some (n, v) => match add_param m (trim n) (trim v) with Some m' => read_params m' r | None => None end
           end
  end.
(** 489-526 [parse_mime_type] (and 293-316 [from_str]); [split] never returns an empty list *)
Definition parse (s : str) : option mime :=
  match split_on 59 s with
  | [] => None
  | h :: ps =>
      match split_on 47 (trim h) with
      | [t; u] => match mime_new (trim t) (trim u) with Some m => read_params m ps | None => None end
      | _ => None
      end
  end.

Example ex_show : exists m, parse (lit "Text / Plain ; Charset=utf-8;; x = ""a \""b\\"" ") = Some m /\ show m = lit "text/plain;charset=utf-8;x=""a \""b\\""".
Proof. eexists. split; vm_compute; reflexivity. Qed.
