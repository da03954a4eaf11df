(** Model of SIP URIs (crates/sip-core/src/uri.rs). *)
From Coq Require Import NArith Bool List.
Import ListNotations.
From Verif Require Import Base Text.
Open Scope N_scope.

(** uri.rs:16-25 *)
Definition MAX_URI_LENGTH : N := 2048.
Definition MAX_USER_LENGTH : N := 256.
Definition MAX_HOST_LENGTH : N := 256.
Definition MAX_PARAM_NAME_LENGTH : N := 64.
Definition MAX_PARAM_VALUE_LENGTH : N := 256.
Definition MAX_URI_HEADER_NAME_LENGTH : N := 64.
Definition MAX_URI_HEADER_VALUE_LENGTH : N := 512.
Definition MAX_PARAMS : N := 50.
Definition MAX_URI_HEADERS : N := 50.

(** [UriError] is modelled by [None] throughout this file *)

(** uri.rs:109-111 host name characters *)
Definition host_char (c : N) : bool := is_alnum c || existsb (N.eqb c) (lit ".-_").
(** uri.rs:76-121 [validate_host] *)
Definition validate_host (h : str) : bool :=
  match h with
  | [] => false
  | _ => if MAX_HOST_LENGTH <? blen h then false
         else if existsb is_control h then false
         else if mem 58 h then ipv6_ok h
         else forallb host_char h
  end.
(** uri.rs:131-166 [validate_user] *)
Definition validate_user (u : str) : bool :=
  match u with
  | [] => false
  | _ => if MAX_USER_LENGTH <? blen u then false
         else if existsb is_control u then false
         else negb (existsb (fun c => existsb (N.eqb c) (lit "@;?/#[]")) u)
  end.
(** uri.rs:169-174 [validate_port] *)
Definition validate_port (p : N) : bool := negb (p =? 0).
(** uri.rs:776-782 [is_token_char] *)
Definition uri_token_char (c : N) : bool :=
  is_alnum c || existsb (N.eqb c) (lit "-.!%*_+`'~").
(** uri.rs:177-202 [validate_param_name]; 224-249 [validate_header_name] is the
    same test *)
Definition validate_param_name (n : str) : bool :=
  match n with
  | [] => false
  | _ => if MAX_PARAM_NAME_LENGTH <? blen n then false
         else negb (existsb (fun c => is_control c || is_ws c || negb (uri_token_char c)) n)
  end.
Definition validate_uri_header_name (n : str) : bool :=
  match n with
  | [] => false
  | _ => if MAX_URI_HEADER_NAME_LENGTH <? blen n then false
         else negb (existsb (fun c => is_control c || is_ws c || negb (uri_token_char c)) n)
  end.
(** uri.rs:205-221 [validate_param_value] *)
Definition validate_param_value (v : str) : bool :=
  if MAX_PARAM_VALUE_LENGTH <? blen v then false else negb (existsb is_control v).
(** uri.rs:252-268 [validate_header_value] *)
Definition validate_uri_header_value (v : str) : bool :=
  if MAX_URI_HEADER_VALUE_LENGTH <? blen v then false
  else negb (existsb (fun c => is_control c || is_ws c) v).

(** uri.rs:277-292 [SipUri] *)
Record sip_uri := mkUri {
  u_raw : str; u_sips : bool; u_user : option str; u_host : str; u_port : option N;
  u_params : list (str * option str); u_headers : list (str * str) }.

(** uri.rs:738-774 [split_host_port]; [None] is an error *)
Definition count_c (c : N) (s : str) : N := llen (filter (N.eqb c) s).
Definition split_host_port (s : str) : option (str * option N) :=
  match s with
  | c :: r =>
      if c =? 91 then
        match split_once 93 r with
        | None => None
        | Some (host, rest) =>
            match rest with
            | d :: p => if d =? 58 then
                          match parse_uint u16_max p with
                          | Some n => Some (host, Some n) | None => None end
                        else Some (host, None)
            | [] => Some (host, None)
            end
        end
      else match rsplit_once 58 s with
           | Some (host, p) =>
               if 1 <? count_c 58 s then None
               else match p with
                    | [] => Some (s, None)
                    | _ => if all_digits p then
                             match parse_uint u16_max p with
                             | Some n => Some (host, Some n) | None => None end
                           else Some (s, None)
                    end
           | None => Some (s, None)
           end
  | [] => Some (s, None)
  end.

(** uri.rs:350-373: one step of the parameter loop *)
Definition add_param (m : list (str * option str)) (p : str) : option (list (str * option str)) :=
  if MAX_PARAMS <=? llen m then None
  else
    let p := trim p in
    match p with
    | [] => Some m
    | _ => match split_once 61 p with
           | Some (k, v) =>
               let k := trim k in let v := trim v in
               if validate_param_name k && validate_param_value v
               then Some (bput (lower k) (Some v) m) else None
           | None => if validate_param_name p then Some (bput (lower p) None m) else None
           end
    end.
(** uri.rs:405-428: one step of the header loop *)
Definition add_uri_header (m : list (str * str)) (p : str) : option (list (str * str)) :=
  if MAX_URI_HEADERS <=? llen m then None
  else match p with
       | [] => Some m
       | _ => match split_once 61 p with
              | Some (k, v) =>
                  let k := trim k in let v := trim v in
                  if validate_uri_header_name k && validate_uri_header_value v
                  then Some (bput (lower k) v m) else None
              | None => Some m
              end
       end.
Fixpoint fold_opt {A B} (f : A -> B -> option A) (l : list B) (a : A) : option A :=
  match l with
  | [] => Some a
  | x :: r => match f a x with Some a' => fold_opt f r a' | None => None end
  end.

(** uri.rs:375-385: user and host:port *)
Definition split_user (base : str) : option (option str * str) :=
  match split_once 64 base with
  | Some (u, h) =>
      match pct_decode_str (trim u) with
      | Some d => if validate_user d then Some (Some d, trim h) else None
      | None => None
      end
  | None => Some (None, trim base)
  end.

(** uri.rs:313-438 [SipUri::parse] *)
Definition parse_uri (input : str) : option sip_uri :=
  if existsb is_control input then None
  else if MAX_URI_LENGTH <? blen input then None
  else match split_once 58 input with
  | None => None
  | Some (scheme, rest) =>
    let sips := eq_ic scheme (lit "sips") in
    if negb sips && negb (eq_ic scheme (lit "sip")) then None
    else
    let '(addr, hpart) := match split_once 63 rest with
                          | Some (a, h) => (a, Some h) | None => (rest, None) end in
    let base := trim (hd [] (split_on 59 addr)) in
    match fold_opt add_param (tl (split_on 59 addr)) [] with
    | None => None
    | Some params =>
    match split_user base with
    | None => None
    | Some (user, hp) =>
    match hp with
    | [] => None
    | _ =>
    match split_host_port hp with
    | None => None
    | Some (h, port) =>
    match pct_decode_str h with
    | None => None
    | Some dh =>
      let host := lower dh in
      if negb (validate_host host) then None
      else if match port with Some p => negb (validate_port p) | None => false end then None
      else match match hpart with
                 | Some h => fold_opt add_uri_header (split_on 38 h) []
                 | None => Some [] end with
           | None => None
           | Some hdrs => Some (mkUri input sips user host port params hdrs)
           end
    end end end end end
  end.

(** uri.rs:784-824 [build_raw_sip_uri] *)
Definition print_host (h : str) : str :=
  if mem 58 h && negb (starts_with (lit "[") h) && negb (ends_with (lit "]") h)
  then lit "[" ++ h ++ lit "]" else h.
Definition print_param (kv : str * option str) : str :=
  lit ";" ++ fst kv ++ match snd kv with Some v => lit "=" ++ v | None => [] end.
Definition print_uri_header (kv : str * str) : str := fst kv ++ lit "=" ++ snd kv.
Definition build_raw (sips : bool) (user : option str) (host : str) (port : option N)
    (params : list (str * option str)) (hdrs : list (str * str)) : str :=
  (if sips then lit "sips:" else lit "sip:")
  ++ (match user with Some u => u ++ lit "@" | None => [] end)
  ++ print_host host
  ++ (match port with Some p => lit ":" ++ print_N p | None => [] end)
  ++ flat_map print_param params
  ++ (match hdrs with [] => [] | _ => lit "?" ++ join (lit "&") (map print_uri_header hdrs) end).
Definition rebuild (u : sip_uri) : sip_uri :=
  mkUri (build_raw (u_sips u) (u_user u) (u_host u) (u_port u) (u_params u) (u_headers u))
        (u_sips u) (u_user u) (u_host u) (u_port u) (u_params u) (u_headers u).

(** uri.rs:295-310 [SipUri::new] *)
Definition uri_new (host : str) : option sip_uri :=
  if validate_host host then Some (mkUri (lit "sip:" ++ host) false None host None [] []) else None.

(** uri.rs:476-551: the builder methods *)
Inductive uri_op :=
| UWithHost (h : str) | UWithoutPort | UWithUser (u : str) | UWithPort (p : N)
| UWithoutHeaders | UWithParam (n : str) (v : option str).
Definition uri_step (u : sip_uri) (o : uri_op) : option sip_uri :=
  match o with
  | UWithHost h =>
      if validate_host h
      then Some (rebuild (mkUri [] (u_sips u) (u_user u) h (u_port u) (u_params u) (u_headers u))) else None
  | UWithoutPort =>
      Some (rebuild (mkUri [] (u_sips u) (u_user u) (u_host u) None (u_params u) (u_headers u)))
  | UWithUser n =>
      if validate_user n
      then Some (rebuild (mkUri [] (u_sips u) (Some n) (u_host u) (u_port u) (u_params u) (u_headers u))) else None
  | UWithPort p =>
      if validate_port p
      then Some (rebuild (mkUri [] (u_sips u) (u_user u) (u_host u) (Some p) (u_params u) (u_headers u))) else None
  | UWithoutHeaders =>
      match u_headers u with
      | [] => Some u
      | _ => Some (rebuild (mkUri [] (u_sips u) (u_user u) (u_host u) (u_port u) (u_params u) []))
      end
  | UWithParam n v =>
      if MAX_PARAMS <=? llen (u_params u) then None
      else if negb (validate_param_name n) then None
      else if match v with Some v => negb (validate_param_value v) | None => false end then None
      else Some (rebuild (mkUri [] (u_sips u) (u_user u) (u_host u) (u_port u)
                                (bput (lower n) v (u_params u)) (u_headers u)))
  end.

(** how a program obtains a URI: [SipUri::parse] or [SipUri::new], then any
    builder calls that succeed *)
Inductive uri_start := UNew (host : str) | UParse (text : str).
Definition uri_begin (s : uri_start) : option sip_uri :=
  match s with UNew h => uri_new h | UParse t => parse_uri t end.
Definition uri_build (s : uri_start) (ops : list uri_op) : option sip_uri :=
  match uri_begin s with
  | Some u => fold_opt uri_step ops u
  | None => None
  end.
