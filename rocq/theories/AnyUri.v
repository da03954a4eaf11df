(** Model of tel URIs (crates/sip-core/src/tel_uri.rs), of the URI type that
    covers all schemes (crates/sip-core/src/uri.rs) and of name-addr header
    values (crates/sip-core/src/name_addr.rs,
    crates/sip-parse/src/header_values.rs). *)
From Coq Require Import NArith Bool String List.
Import ListNotations.
From Verif Require Import Base Headers Text Uri.
Open Scope N_scope.
Open Scope list_scope.

(** ** Tel URIs.  [TelUriError] is modelled by [None]. *)
(** tel_uri.rs:24-28 *)
Definition MAX_TELEPHONE_NUMBER_LENGTH : N := 64.
Definition MAX_PHONE_CONTEXT_LENGTH : N := 256.
Definition MAX_TEL_PARAM_NAME : N := 32.
Definition MAX_TEL_PARAM_VALUE : N := 128.
Definition MAX_TEL_PARAMETERS : N := 20.

(** the visual separators '-' '.' ' ' '(' ')' *)
Definition visual_sep (c : N) : bool := existsb (N.eqb c) (lit "-. ()").
(** tel_uri.rs:118-122: the characters of a local number *)
Definition local_char (c : N) : bool :=
  is_digit c || visual_sep c || existsb (N.eqb c) (lit "*#ABCDabcd").
(** tel_uri.rs:69-137 [validate_telephone_number] *)
Definition validate_number (s : str) : bool :=
  match s with
  | [] => false
  | c :: r =>
      if MAX_TELEPHONE_NUMBER_LENGTH <? blen s then false
      else if existsb is_control s then false
      else if c =? 43
      then forallb (fun c => is_digit c || visual_sep c) r && existsb is_digit r
      else forallb local_char s && existsb is_digit s
  end.

(** tel_uri.rs:170-196: the '+' form *)
Definition context_char (c : N) : bool :=
  is_digit c || existsb (N.eqb c) (lit "-.()ABCD*#").
(** tel_uri.rs:199-224: one label of the domain form (already lower case) *)
Definition context_label (l : str) : bool :=
  match l with
  | [] => false
  | _ => (blen l <=? 63) && negb (starts_with (lit "-") l) && negb (ends_with (lit "-") l)
         && forallb (fun c => is_alnum c || (c =? 45)) l
  end.
(** tel_uri.rs:149-227 [validate_phone_context]; the tests for a leading, a
    trailing and a double dot are subsumed by the test for empty labels *)
Definition validate_context (s : str) : bool :=
  match s with
  | [] => false
  | c :: r =>
      if MAX_PHONE_CONTEXT_LENGTH <? blen s then false
      else if existsb is_control s then false
      else if c =? 43 then forallb context_char r && existsb is_digit r
      else forallb context_label (split_on 46 (lower s))
  end.

(** tel_uri.rs:230-256 [validate_parameter_name] *)
Definition tel_param_name (n : str) : bool :=
  match n with
  | [] => false
  | _ => (blen n <=? MAX_TEL_PARAM_NAME)
         && negb (existsb (fun c => is_control c || is_ws c || (c =? 59) || (c =? 61)) n)
  end.
(** tel_uri.rs:259-275 [validate_parameter_value] *)
Definition tel_param_value (v : str) : bool :=
  (blen v <=? MAX_TEL_PARAM_VALUE) && negb (existsb (fun c => is_control c || is_ws c) v).

(** tel_uri.rs:282-294 [TelUri] *)
Record tel_uri := mkTel {
  t_raw : str; t_number : str; t_global : bool; t_context : option str;
  t_params : list (str * option str) }.

(** tel_uri.rs:541-547 [normalize_global_number]; the same function as
    sip-registrar lib.rs:455-461 [normalize_tel_number] *)
Definition strip_seps (s : str) : str := filter (fun c => negb (visual_sep c)) s.

Definition starts_plus (s : str) : bool := match s with c :: _ => c =? 43 | [] => false end.
Definition is_context_key (k : str) : bool := eq_ic k (lit "phone-context").

(** tel_uri.rs:302-329 [TelUri::new] *)
Definition tel_new (number : str) (global : bool) : option tel_uri :=
  if negb (validate_number number) then None
  else if negb (Bool.eqb global (starts_plus number)) then None
  else Some (mkTel (lit "tel:" ++ number) number global None []).

(** tel_uri.rs:384-417: one step of the parameter loop *)
Definition tel_add (st : list (str * option str) * option str) (p : str)
  : option (list (str * option str) * option str) :=
  let '(m, ctx) := st in
  if MAX_TEL_PARAMETERS <=? llen m then None
  else match p with
  | [] => Some (m, ctx)
  | _ =>
      if existsb is_ws p then None
      else match split_once 61 p with
      | Some (k, v) =>
          if tel_param_name k && tel_param_value v then
            if is_context_key k then
              if validate_context v then Some (bput k (Some v) m, Some v) else None
            else Some (bput k (Some v) m, ctx)
          else None
      | None => if tel_param_name p then Some (bput p None m, ctx) else None
      end
  end.
(** tel_uri.rs:347-443 [TelUri::parse] *)
Definition tel_parse (input : str) : option tel_uri :=
  match strip_prefix (lit "tel:") input with
  | None => None
  | Some rest =>
      let num := trim (hd [] (split_on 59 rest)) in
      if negb (validate_number num) then None
      else
      let global := starts_plus num in
      match fold_opt tel_add (tl (split_on 59 rest)) ([], None) with
      | None => None
      | Some (params, ctx) =>
          if negb global && is_none ctx then None
          else if global && is_some ctx then None
          else Some (mkTel input (if global then strip_seps num else num) global ctx params)
      end
  end.

(** tel_uri.rs:549-560 [build_raw_uri] *)
Definition tel_raw (number : str) (params : list (str * option str)) : str :=
  lit "tel:" ++ number ++ flat_map print_param params.

(** tel_uri.rs:471-513 [with_parameter]; 516-533 [with_phone_context] *)
Inductive tel_op := TWithParameter (k : str) (v : option str) | TWithContext (c : str).
Definition tel_step (t : tel_uri) (o : tel_op) : option tel_uri :=
  match o with
  | TWithParameter k v =>
      if negb (is_some (bget k (t_params t))) && (MAX_TEL_PARAMETERS <=? llen (t_params t)) then None
      else if negb (tel_param_name k) then None
      else if match v with Some v => negb (tel_param_value v) | None => false end then None
      else if is_context_key k then
        match v with
        | None => None
        | Some c =>
            if t_global t then None
            else if negb (validate_context c) then None
            else let ps := bput k v (t_params t) in
                 Some (mkTel (tel_raw (t_number t) ps) (t_number t) (t_global t) (Some c) ps)
        end
      else let ps := bput k v (t_params t) in
           Some (mkTel (tel_raw (t_number t) ps) (t_number t) (t_global t) (t_context t) ps)
  | TWithContext c =>
      if t_global t then None
      else if negb (validate_context c) then None
      else let ps := bput (lit "phone-context") (Some c) (t_params t) in
           Some (mkTel (tel_raw (t_number t) ps) (t_number t) (t_global t) (Some c) ps)
  end.

(** ** Any URI *)
(** uri.rs:561-568 [Uri] *)
Inductive any_uri := ASip (u : sip_uri) | ATel (t : tel_uri) | AAbs (text : str).
Definition MAX_ABSOLUTE_URI_LENGTH : N := 2048.
(** uri.rs:700-703: characters of a scheme after the first *)
Definition scheme_char (c : N) : bool := is_alnum c || existsb (N.eqb c) (lit "+-.").
(** uri.rs:679-735 [parse_absolute_uri] *)
Definition parse_absolute (input : str) : option str :=
  if MAX_ABSOLUTE_URI_LENGTH <? blen input then None
  else let t := trim input in
  match t with
  | [] => None
  | c :: r =>
      if negb (is_alpha c) then None
      else match split_once 58 r with
           | None => None
           | Some (sch, rest) =>
               if negb (forallb scheme_char sch) then None
               else match rest with
                    | [] => None
                    | _ => if existsb is_control rest then None else Some t
                    end
           end
  end.
(** uri.rs:583-601 [Uri::parse] *)
Definition parse_any (input : str) : option any_uri :=
  if existsb is_control input then None
  else if starts_with (lit "tel:") input
  then match tel_parse input with Some t => Some (ATel t) | None => None end
  else if starts_with (lit "sip:") input || starts_with (lit "sips:") input
  then match parse_uri input with Some u => Some (ASip u) | None => None end
  else match parse_absolute input with Some t => Some (AAbs t) | None => None end.
(** uri.rs:604-610 [Uri::as_str] *)
Definition any_text (u : any_uri) : str :=
  match u with ASip u => u_raw u | ATel t => t_raw t | AAbs t => t end.
(** uri.rs:640-645 [without_uri_headers] *)
Definition any_without_headers (u : any_uri) : any_uri :=
  match u with
  | ASip s => match uri_step s UWithoutHeaders with Some s' => ASip s' | None => ASip s end
  | _ => u
  end.

(** ** name-addr values *)
(** header_values.rs:478-526 [find_unquoted_angle_brackets], one of its two
    loops: the text before the first unquoted [stop] and the text after it *)
Fixpoint scan_to (stop : N) (inq esc : bool) (s : str) : option (str * str) :=
  match s with
  | [] => None
  | c :: r =>
      let go inq esc := match scan_to stop inq esc r with
                        | Some (a, b) => Some (c :: a, b) | None => None end in
      if esc then go inq false
      else if inq && (c =? 92) then go inq true
      else if c =? 34 then go (negb inq) false
      else if inq then go inq false
      else if c =? stop then Some ([], r)
      else go inq false
  end.
(** [str::trim_matches] of the double quote *)
Definition trim_dquotes (s : str) : str := trim_by (N.eqb 34) s.
(** header_values.rs:446 *)
Definition MAX_NA_PARAMS : N := 64.
(** header_values.rs:453-471: one step of [parse_params] *)
Definition na_add (m : list (str * option str)) (raw : str) : option (list (str * option str)) :=
  match trim raw with
  | [] => Some m
  | r => if MAX_NA_PARAMS <=? llen m then None
         else match split_once 61 r with
              | Some (n, v) => Some (bput (lower (trim n)) (Some (trim_dquotes (trim v))) m)
              | None => Some (bput (lower r) None m)
              end
  end.
Definition na_params (s : str) : option (list (str * option str)) := fold_opt na_add (split_on 59 s) [].

(** name_addr.rs:11-16 [NameAddr] *)
Record name_addr := mkNa { na_display : option str; na_uri : any_uri; na_ps : list (str * option str) }.
(** name_addr.rs:155-167 [validate_text] *)
Definition na_text (mx : N) (s : str) : bool := (blen s <=? mx) && negb (existsb is_ascii_control s).
(** name_addr.rs:169-189 [validate_param_name] *)
Definition na_name (n : str) : bool :=
  match n with [] => false | _ => (blen n <=? 64) && forallb uri_token_char n end.
(** name_addr.rs:24-61 [NameAddr::new]; the names given by the parser are in
    lower case and distinct already *)
Definition na_new (d : option str) (u : any_uri) (ps : list (str * option str)) : option name_addr :=
  if match d with Some t => na_text 256 t | None => true end
     && (llen ps <=? 64)
     && forallb (fun kv => na_name (fst kv) && match snd kv with Some v => na_text 256 v | None => true end) ps
  then Some (mkNa d u ps) else None.
(** header_values.rs:408-442 [parse_name_addr] *)
Definition parse_name_addr (value : str) : option name_addr :=
  match trim value with
  | [] => None
  | input =>
      match scan_to 60 false false input with
      | Some (before, after) =>
          match scan_to 62 false false after with
          | None => None
          | Some (inside, rest) =>
              match na_params (trim rest), parse_any (trim inside) with
              | Some ps, Some u =>
                  na_new (match trim before with [] => None | d => Some (trim_dquotes d) end)
                         (any_without_headers u) ps
              | _, _ => None
              end
          end
      | None =>
          let '(u, p) := match split_once 59 input with Some x => x | None => (input, []) end in
          match parse_any (trim u), na_params p with
          | Some u, Some ps => na_new None (any_without_headers u) ps
          | _, _ => None
          end
      end
  end.
