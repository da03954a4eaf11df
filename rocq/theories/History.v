(** Model of History-Info and Geolocation headers: crates/sip-core/src/history_info.rs,
    geolocation.rs and their readers in crates/sip-parse/src/header_values.rs.  Errors are
    [None]: which of them is reported is not modelled.  A header that occurs several times
    is the list of its values. *)
From Coq Require Import NArith Bool String List.
Import ListNotations.
From Verif Require Import Base Text Uri AnyUri Auth.
Open Scope N_scope.
Open Scope list_scope.

(** history_info.rs:306-313, geolocation.rs:532-541: the characters of a token *)
Definition token_c (c : N) : bool := is_alnum c || mem c (lit "-.!%*_+`'~").
(** history_info.rs:287-318 and geolocation.rs:426-452 [validate_param_name] *)
Definition pname_ok (s : str) : bool := negb (str_eqb s []) && (blen s <=? 64) && negb (existsb is_ascii_control s) && forallb token_c s.
(** history_info.rs:320-349 [validate_param_value]: may be empty *)
Definition hvalue_ok (s : str) : bool := (blen s <=? 256) && negb (existsb is_ascii_control s) && forallb token_c s.
(** geolocation.rs:454-475 [validate_param_value]: may not *)
Definition gvalue_ok (s : str) : bool := hvalue_ok s && negb (str_eqb s []).

(** history_info.rs:81-85 [HistoryInfoEntry], geolocation.rs:88-91 [GeolocationValue] *)
Definition params := list (str * option str).
Record entry := mkEntry { e_uri : any_uri; e_params : params }.
(** history_info.rs:103-126, geolocation.rs:109-131 [add_param], for one of the two checks *)
Definition add_param (vok : str -> bool) (m : params) (n : str) (v : option str) : option params :=
  if negb (pname_ok n) then None
  else if match v with Some t => negb (vok t) | None => false end then None
  else if 20 <=? llen m then None
  else match bget (lower n) m with Some _ => None | None => Some (bput (lower n) v m) end.

(** ** History-Info *)
(** history_info.rs:208-221 [HistoryInfoHeader::new], 237-247 [push] *)
Definition history_new (es : list entry) : option (list entry) :=
  match es with [] => None | _ => if 50 <? llen es then None else Some es end.
Definition history_push (es : list entry) (e : entry) : option (list entry) := if 50 <=? llen es then None else Some (es ++ [e]).
(** history_info.rs:141-153 [get_param], [index]; 280-282 [find_by_index] *)
Definition entry_index (e : entry) : option str := match bget (lit "index") (e_params e) with Some v => v | None => None end.
Definition find_by_index (i : str) (es : list entry) : option entry := find (fun e => match entry_index e with Some j => str_eqb j i | None => false end) es.
(** header_values.rs:246-248 *)
Fixpoint add_all (m : params) (ps : params) : option params :=
  match ps with
  | [] => Some m
  | (n, v) :: r => match add_param hvalue_ok m n v with Some m' => add_all m' r | None => None end
  end.
(** header_values.rs:236-250 *)
Fixpoint history_parts (ps : list str) : option (list entry) :=
  match ps with
  | [] => Some []
  | p :: r =>
      match trim p with
      | [] => history_parts r
      | t =>
          match parse_name_addr t with
          | Some na => match add_all [] (na_ps na), history_parts r with Some m, Some l => Some (mkEntry (na_uri na) m :: l) | _, _ => None end
          | None => None
          end
      end
  end.
(** header_values.rs:227-253 [parse_history_info] *)
Fixpoint history_values (vs : list str) : option (list entry) :=
  match vs with
  | [] => Some []
  | v :: r =>
      match split_quoted_commas 50 v with
      | Some ps => match history_parts ps, history_values r with Some a, Some b => Some (a ++ b) | _, _ => None end
      | None => None
      end
  end.
Definition parse_history (vs : list str) : option (list entry) := match history_values vs with Some es => history_new es | None => None end.

(** ** Geolocation *)
(** geolocation.rs:184-197 [GeolocationHeader::new] *)
Definition geo_new (es : list entry) : option (list entry) :=
  match es with [] => None | _ => if 10 <? llen es then None else Some es end.
(** header_values.rs:277-281: a parameter that is refused is left out *)
Fixpoint geo_params (m : params) (ps : params) : params :=
  match ps with
  | [] => m
  | (n, v) :: r => geo_params (match add_param gvalue_ok m n v with Some m' => m' | None => m end) r
  end.
(** header_values.rs:271-284: a part that is no name-addr is left out *)
Fixpoint geo_parts (ps : list str) : list entry :=
  match ps with
  | [] => []
  | p :: r =>
      match trim p with
      | [] => geo_parts r
      | t => match parse_name_addr t with Some na => mkEntry (na_uri na) (geo_params [] (na_ps na)) :: geo_parts r | None => geo_parts r end
      end
  end.
(** header_values.rs:263-288 [parse_geolocation_header] *)
Fixpoint geo_values (vs : list str) : option (list entry) :=
  match vs with
  | [] => Some []
  | v :: r =>
      match split_quoted_commas 10 v with
      | Some ps => match geo_values r with Some b => Some (geo_parts ps ++ b) | None => None end
      | None => None
      end
  end.
Definition parse_geo (vs : list str) : option (list entry) := match geo_values vs with Some es => geo_new es | None => None end.
