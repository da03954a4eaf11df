(** Model of the Via header (crates/sip-core/src/via.rs), of token lists
    (crates/sip-core/src/token_list.rs) and of what a UAS does to the top Via of its
    responses (crates/sip-uas/src/integrated.rs). *)
From Coq Require Import NArith Bool String List.
Import ListNotations.
From Verif Require Import Base Headers Text Uri Msg.
Open Scope N_scope.
Open Scope list_scope.

(** via.rs:33-37 *)
Definition MAX_TRANSPORT_LENGTH : N := 32.
Definition MAX_SENT_BY_LENGTH : N := 256.
Definition MAX_VIA_NAME_LENGTH : N := 64.
Definition MAX_VIA_VALUE_LENGTH : N := 256.
Definition MAX_VIA_PARAMS : N := 20.
(** via.rs:251-257 [is_token_char] is the same set as [uri_token_char]. *)

(** via.rs:72-102 [validate_transport]: a token has no control characters *)
Definition validate_transport (t : str) : bool :=
  match t with
  | [] => false
  | _ => (blen t <=? MAX_TRANSPORT_LENGTH) && negb (existsb is_control t) && forallb uri_token_char t
  end.
(** via.rs:235-249 [validate_port] *)
Definition validate_port (p : str) : bool :=
  match p with
  | [] => false
  | _ => all_digits p && match parse_uint u32_max p with Some n => in_range 1 65535 n | None => false end
  end.
(** via.rs:139-142, 174-177: the characters of host names *)
Definition v6_char (c : N) : bool := is_hex c || (c =? 58) || (c =? 46).
Definition via_host_char (c : N) : bool := is_alnum c || (c =? 46) || (c =? 45) || (c =? 95).
(** via.rs:105-190 [validate_sent_by] *)
Definition validate_sent_by (s : str) : bool :=
  match s with
  | [] => false
  | c0 :: r0 =>
      (blen s <=? MAX_SENT_BY_LENGTH) && negb (existsb is_control s)
      && (if c0 =? 91 then
            match split_once 93 r0 with
            | None => false
            | Some (host, rest) =>
                match host with
                | [] => false
                | _ => forallb v6_char host
                       && match rest with
                          | [] => true
                          | c :: p => (c =? 58) && validate_port p
                          end
                end
            end
          else if mem 91 s || mem 93 s then false
          else if 1 <? llen (filter (N.eqb 58) s) then false
          else match rsplit_once 58 s with
               | Some (host, port) =>
                   match host with [] => false | _ => forallb via_host_char host && validate_port port end
               | None => forallb via_host_char s
               end)
  end.
(** via.rs:193-215, 217-233 [validate_param_name], [validate_param_value] *)
Definition via_pname (n : str) : bool :=
  match n with [] => false | _ => (blen n <=? MAX_VIA_NAME_LENGTH) && forallb uri_token_char n end.
Definition via_pvalue (v : str) : bool := (blen v <=? MAX_VIA_VALUE_LENGTH) && negb (existsb is_control v).

(** via.rs:286-291 [ViaHeader]; the parameters are a BTreeMap *)
Record via := mkVia { w_transport : str; w_sent_by : str; w_params : list (str * option str) }.
(** via.rs:315-330 [new] *)
Definition via_new (transport sent_by : str) : option via :=
  if validate_transport transport && validate_sent_by sent_by then Some (mkVia transport sent_by []) else None.
(** via.rs:408-446: one turn of the parameter loop of [parse] *)
Definition via_add (m : list (str * option str)) (p : str) : option (list (str * option str)) :=
  if MAX_VIA_PARAMS <=? llen m then None
  else match trim p with
  | [] => Some m
  | _ as t =>
      let '(k, v) := match split_once 61 t with Some (k, v) => (trim k, Some (trim v)) | None => (t, None) end in
      if via_pname k && match v with Some v => via_pvalue v | None => true end && negb (is_some (bget (lower k) m))
      then Some (bput (lower k) v m) else None
  end.
(** the two characters [trim_matches] removes *)
Definition lws (c : N) : bool := (c =? 32) || (c =? 9).
(** via.rs:349-453 [parse] *)
Definition via_parse (input : str) : option via :=
  if existsb (fun c => is_control c && negb (c =? 9)) input then None
  else match trim_by lws input with
  | [] => None
  | _ as t =>
      match split_on 59 t with
      | [] => None
      | value :: params =>
          match split_ws (trim value) with
          | [proto; sent_by] =>
              match split_on 47 proto with
              | [sip; ver; transport] =>
                  if eq_ic sip (lit "SIP") && str_eqb ver (lit "2.0") && validate_transport transport && validate_sent_by sent_by
                  then match fold_opt via_add params [] with
                       | Some ps => Some (mkVia transport sent_by ps)
                       | None => None
                       end
                  else None
              | _ => None
              end
          | _ => None
          end
      end
  end.
(** via.rs:481-483 [param] *)
Definition via_param (v : via) (name : str) : option (option str) := bget (lower name) (w_params v).
(** via.rs:486-515 [with_param]; 518-547 [add_param] is the same *)
Definition via_with_param (v : via) (name : str) (value : option str) : option via :=
  if negb (via_pname name) then None
  else if is_some (bget (lower name) (w_params v)) then None
  else if MAX_VIA_PARAMS <=? llen (w_params v) then None
  else if match value with Some x => via_pvalue x | None => true end
  then Some (mkVia (w_transport v) (w_sent_by v) (bput (lower name) value (w_params v))) else None.
(** via.rs:557-581 [set_param] *)
Definition via_set_param (v : via) (name : str) (value : option str) : option via :=
  if negb (via_pname name) then None
  else if negb (is_some (bget (lower name) (w_params v))) && (MAX_VIA_PARAMS <=? llen (w_params v)) then None
  else if match value with Some x => via_pvalue x | None => true end
  then Some (mkVia (w_transport v) (w_sent_by v) (bput (lower name) value (w_params v))) else None.
(** via.rs:584-599 [Display] *)
Definition via_print (v : via) : str :=
  lit "SIP/2.0/" ++ w_transport v ++ lit " " ++ w_sent_by v ++ flat_map print_param (w_params v).
(** everything a program can do to get a Via value *)
Inductive via_start := VNew (transport sent_by : str) | VParse (text : str).
Inductive via_op := VWith (name : str) (value : option str) | VSet (name : str) (value : option str).
Definition via_begin (s : via_start) : option via := match s with VNew t b => via_new t b | VParse t => via_parse t end.
Definition via_step (v : via) (o : via_op) : option via :=
  match o with VWith n x => via_with_param v n x | VSet n x => via_set_param v n x end.
Definition via_build (s : via_start) (ops : list via_op) : option via :=
  match via_begin s with Some v => fold_opt via_step ops v | None => None end.

(** ** The top Via of a response *)
(** integrated.rs:885-893 [sent_by_host] *)
Definition sent_by_host (s : str) : str :=
  let s := trim s in
  let plain := match rsplit_once 58 s with Some (h, _) => h | None => s end in
  match s with
  | c :: r => if c =? 91 then match split_once 93 r with Some (h, _) => h | None => plain end else plain
  | [] => plain
  end.
(** integrated.rs:778-824 [apply_via_rport_received]; [ip] is the text of the source
    address *)
Definition fill_via (v : via) (ip : str) (port : N) : via * bool :=
  let '(v1, filled) := match via_param v (lit "rport") with
                       | Some None => match via_set_param v (lit "rport") (Some (print_N port)) with
                                      | Some v1 => (v1, true) | None => (v, false) end
                       | _ => (v, false)
                       end in
  if (negb (str_eqb (sent_by_host (w_sent_by v1)) ip) || filled) && is_none (via_param v1 (lit "received"))
  then match via_set_param v1 (lit "received") (Some ip) with Some v2 => (v2, true) | None => (v1, filled) end
  else (v1, filled).
Definition apply_via (hs : headers) (ip : str) (port : N) : headers :=
  match hget (lit "Via") hs with
  | None => hs
  | Some t => match via_parse t with
              | None => hs
              | Some v => let '(v', changed) := fill_via v ip port in
                          if changed then or_same hs (hset_or_push hs (lit "Via") (via_print v')) else hs
              end
  end.

(** ** Token lists *)
(** token_list.rs:43-44 *)
Definition MAX_TOKENS : N := 50.
Definition MAX_TOKEN_LENGTH : N := 64.
(** token_list.rs:73-97 [validate_token] *)
Definition valid_token (t : str) : bool :=
  match t with [] => false | _ => (blen t <=? MAX_TOKEN_LENGTH) && forallb uri_token_char t end.
(** token_list.rs:155-174 [from_tokens] *)
Definition token_push (acc : list str) (t : str) : option (list str) :=
  if MAX_TOKENS <=? llen acc then None else if valid_token t then Some (acc ++ [t]) else None.
Definition tokens_from (ts : list str) : option (list str) := fold_opt token_push ts [].
(** token_list.rs:210-218 [parse] *)
Definition tokens_parse (s : str) : option (list str) :=
  match trim s with [] => None | t => tokens_from (map trim (split_on 44 t)) end.
(** token_list.rs:241-250 [add_token]; 253-256 [with_token] *)
Definition tokens_add (l : list str) (t : str) : option (list str) := token_push l (trim t).
(** token_list.rs:236-238 [contains] *)
Definition tokens_contains (l : list str) (t : str) : bool := existsb (fun x => eq_ic x t) l.
(** token_list.rs:270-280 [Display] *)
Definition tokens_print (l : list str) : str := join (lit ", ") l.
