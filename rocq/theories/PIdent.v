(** Model of the identities of RFC 3325, P-Asserted-Identity and P-Preferred-Identity
    (crates/sip-core/src/p_headers.rs; line numbers below are of that file), and of the
    access network and visited network headers with their readers in
    crates/sip-parse/src/header_values.rs.  Errors are [None]: which of them is reported is
    not modelled.  A header that occurs several times is the list of its values. *)
From Coq Require Import NArith Bool String List.
Import ListNotations.
From Verif Require Import Base Text Uri AnyUri Auth History.
Open Scope N_scope.
Open Scope list_scope.

(** 792-808 [validate_display_name] *)
Definition name_ok (s : str) : bool := (blen s <=? 256) && negb (existsb is_ascii_control s).
(** 841-856 [validate_param_value]; [validate_param_name] (810-839) is the [pname_ok] of
    History.v *)
Definition pvalue_ok (s : str) : bool := (blen s <=? 256) && negb (existsb is_ascii_control s).
(** 71-76 [PIdentity] *)
Record pident := mkPid { pi_name : option str; pi_uri : any_uri; pi_params : params }.
(** 80-86 [from_uri], 93-97 [with_display_name], 100-135 [with_param], [add_param] *)
Definition pi_from (u : any_uri) : pident := mkPid None u [].
Definition pi_with_name (i : pident) (n : str) : option pident := if name_ok n then Some (mkPid (Some n) (pi_uri i) (pi_params i)) else None.
Definition pi_add (i : pident) (n : str) (v : option str) : option pident :=
  match add_param pvalue_ok (pi_params i) n v with Some m => Some (mkPid (pi_name i) (pi_uri i) m) | None => None end.
(** 161-178 Display *)
Definition show_param (p : str * option str) : str := lit ";" ++ fst p ++ match snd p with Some v => lit "=" ++ v | None => [] end.
Definition pi_show (i : pident) : str :=
  match pi_name i with Some n => lit """" ++ n ++ lit """ " | None => [] end ++ lit "<" ++ any_text (pi_uri i) ++ lit ">" ++ flat_map show_param (pi_params i).

(** ** Headers of identities *)
(** 338-343, 350-367, 374-392, 480-534 the constructors; both headers have the same *)
Definition tel_of (number : str) : option any_uri :=
  match tel_parse (if starts_with (lit "tel:") number then number else lit "tel:" ++ number) with Some t => Some (ATel t) | None => None end.
Definition single_sip (u : sip_uri) : list pident := [pi_from (ASip u)].
Definition single_tel (number : str) : option (list pident) := match tel_of number with Some t => Some [pi_from t] | None => None end.
Definition sip_and_tel (u : sip_uri) (number : str) : option (list pident) := match tel_of number with Some t => Some [pi_from (ASip u); pi_from t] | None => None end.
(** 399-412 and 541-554 [new] *)
Definition ids_new (l : list pident) : option (list pident) := match l with [] => None | _ => if 10 <? llen l then None else Some l end.
(** 419-447 [has_tel_identity], [has_sip_identity], [sip_identity], [tel_identity] *)
Definition is_tel (i : pident) : bool := match pi_uri i with ATel _ => true | _ => false end.
Definition is_sip (i : pident) : bool := match pi_uri i with ASip _ => true | _ => false end.
Definition first_text (f : pident -> bool) (l : list pident) : option str := match find f l with Some i => Some (any_text (pi_uri i)) | None => None end.
Definition sip_identity := first_text is_sip.
Definition tel_identity := first_text is_tel.
(** 460-470 and 602-612 Display *)
Definition ids_show (l : list pident) : str := join (lit ", ") (map pi_show l).

(** ** Reading *)
(** 696-728 [find_unquoted_angle_brackets] up to the opening bracket: [None] is an error,
    [Some None] is no bracket; then up to the closing one *)
Fixpoint to_open (q : bool) (s : str) : option (option (str * str)) :=
  match s with
  | [] => Some None
  | c :: r =>
      if negb q && (c =? 60) then Some (Some ([], r))
      else if negb q && (c =? 62) then None
      else match to_open (if c =? 34 then negb q else q) r with
           | Some (Some (a, b)) => Some (Some (c :: a, b))
           | o => o
           end
  end.
Fixpoint to_close (q : bool) (s : str) : option (str * str) :=
  match s with
  | [] => None
  | c :: r =>
      if negb q && (c =? 62) then Some ([], r)
      else if negb q && (c =? 60) then None
      else match to_close (if c =? 34 then negb q else q) r with
           | Some (a, b) => Some (c :: a, b)
           | None => None
           end
  end.
(** 730-765 [split_identities]: cutting at the commas, then trimming *)
Fixpoint cut_ids (q a : bool) (s : str) : list str :=
  match s with
  | [] => [[]]
  | c :: r =>
      if (c =? 44) && negb q && negb a then [] :: cut_ids q a r
      else match cut_ids (if c =? 34 then negb q else q) (if q then a else if c =? 60 then true else if c =? 62 then false else a) r with
           | h :: t => (c :: h) :: t
           | [] => [[c]]
           end
  end.
Definition split_ids (s : str) : list str := filter (fun p => negb (str_eqb p [])) (map trim (cut_ids false false s)).
(** 775-788 [add_params_from_str] *)
Fixpoint add_parts (i : pident) (ps : list str) : option pident :=
  match ps with
  | [] => Some i
  | p :: r =>
      match trim p with
      | [] => add_parts i r
      | t =>
          match (match split_once 61 t with Some (n, v) => pi_add i (trim n) (Some (trim v)) | None => pi_add i t None end) with
          | Some i' => add_parts i' r
          | None => None
          end
      end
  end.
Definition add_params (i : pident) (s : str) : option pident := add_parts i (split_on 59 s).
(** 648-694 [parse_p_identity] *)
Definition parse_pid (value : str) : option pident :=
  match trim value with
  | [] => None
  | input =>
      match to_open false input with
      | None => None
      | Some (Some (before, rest)) =>
          match to_close false rest with
          | None => None
          | Some (inside, after) =>
              let display := trim_by (N.eqb 34) (trim before) in
              match parse_any (trim inside) with
              | None => None
              | Some u =>
                  match (match display with [] => Some (pi_from u) | d => pi_with_name (pi_from u) d end) with
                  | None => None
                  | Some i => match trim after with [] => Some i | ps => add_params i ps end
                  end
              end
          end
      | Some None =>
          match split_once 59 input with
          | Some (u, ps) => match parse_any (trim u) with Some u' => add_params (pi_from u') (trim ps) | None => None end
          | None => match parse_any (trim input) with Some u' => Some (pi_from u') | None => None end
          end
      end
  end.
(** 640-645 [parse_p_identities] and the loops of 615-622, 628-635 *)
Fixpoint parse_list (ps : list str) : option (list pident) :=
  match ps with
  | [] => Some []
  | p :: r => match parse_pid p, parse_list r with Some i, Some l => Some (i :: l) | _, _ => None end
  end.
Fixpoint parse_pids (vs : list str) : option (list pident) :=
  match vs with
  | [] => Some []
  | v :: r => match parse_list (split_ids v), parse_pids r with Some a, Some b => Some (a ++ b) | _, _ => None end
  end.
(** 615-637 [parse_p_asserted_identity], [parse_p_preferred_identity]: [None] is an error,
    [Some None] no identity *)
Definition parse_identities (vs : list str) : option (option (list pident)) :=
  match parse_pids vs with
  | None => None
  | Some [] => Some None
  | Some l => match ids_new l with Some l' => Some (Some l') | None => None end
  end.

(** ** P-Access-Network-Info, P-Visited-Network-ID *)
(** 858-902 [validate_access_type], [validate_network_id] *)
Definition bounded (mx : N) (s : str) : bool := negb (str_eqb s []) && (blen s <=? mx) && negb (existsb is_ascii_control s).
(** 185-256 [PAccessNetworkInfo] *)
Record access := mkAccess { ac_type : str; ac_params : params }.
Definition access_new (t : str) : option access := if bounded 64 t then Some (mkAccess t []) else None.
Definition access_add (a : access) (n : str) (v : option str) : option access :=
  match add_param pvalue_ok (ac_params a) n v with Some m => Some (mkAccess (ac_type a) m) | None => None end.
(** header_values.rs:338-359 [parse_p_access_network_info] *)
Fixpoint access_parts (a : access) (ps : list str) : option access :=
  match ps with
  | [] => Some a
  | p :: r =>
      match trim p with
      | [] => access_parts a r
      | t =>
          match (match split_once 61 t with Some (n, v) => access_add a (trim n) (Some (trim_by (N.eqb 34) (trim v))) | None => access_add a t None end) with
          | Some a' => access_parts a' r
          | None => None
          end
      end
  end.
Definition parse_access (s : str) : option access :=
  match split_on 59 s with
  | [] => None
  | t :: ps => match access_new (trim t) with Some a => access_parts a ps | None => None end
  end.
(** 280-303 [PVisitedNetworkIdHeader::new] and header_values.rs:361-375 *)
Definition visited_new (l : list str) : option (list str) :=
  match l with [] => None | _ => if 20 <? llen l then None else if forallb (bounded 256) l then Some l else None end.
Definition parse_visited (s : str) : option (list str) :=
  match split_quoted_commas 64 s with
  | None => None
  | Some ps => visited_new (filter (fun p => negb (str_eqb p [])) (map (fun p => trim (trim_by (N.eqb 34) p)) ps))
  end.
