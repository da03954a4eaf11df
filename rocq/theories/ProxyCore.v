(** Model of the proxy helper functions (crates/sip-proxy/src/lib.rs,
    cancel_ack.rs, location.rs, service.rs, the forwarding module of stateful.rs,
    crates/sip-core/src/max_forwards.rs and route.rs). *)
From Coq Require Import NArith ZArith Bool String List.
Import ListNotations.
From Verif Require Import Base Headers Method Text Uri Msg AnyUri ProxyFork.
Open Scope N_scope.
Open Scope list_scope.

(** [Iterator::find_map] *)
Fixpoint find_map {A B} (f : A -> option B) (l : list A) : option B :=
  match l with
  | [] => None
  | x :: r => match f x with Some y => Some y | None => find_map f r end
  end.
Definition named (n : str) (h : header) : bool := eq_ic (fst h) n.
(** remove the first header with the name *)
Fixpoint remove_first (n : str) (hs : headers) : headers :=
  match hs with
  | [] => []
  | h :: r => if named n h then r else h :: remove_first n r
  end.
(** remove the last header with the name *)
Definition remove_last (n : str) (hs : headers) : headers := rev (remove_first n (rev hs)).
Definition with_headers (q : req) (hs : headers) : req := mkReq (q_method q) (q_uri q) hs (q_body q).
Definition with_uri (q : req) (u : uri) : req := mkReq (q_method q) u (q_headers q) (q_body q).

(** ** Via *)
Definition VIA : str := lit "Via".
(** lib.rs:125, 226: the value of the Via header the proxy adds *)
Definition via_value (transport host branch : str) : str :=
  lit "SIP/2.0/" ++ transport ++ lit " " ++ host ++ lit ";branch=" ++ branch ++ lit ";rport".
(** lib.rs:128-132, 228-232: prepend a Via header; both [expect]s may panic *)
Definition push_via (q : req) (v : str) : outcome req :=
  match header_new VIA v with
  | Err _ => Panics
  | Ok h => match hfrom_vec (h :: q_headers q) with
            | Err _ => Panics
            | Ok hs => Ret (with_headers q hs)
            end
  end.
(** lib.rs:123-135 [add_via]; the random branch id is an argument *)
Definition add_via (q : req) (host transport branch : str) : outcome req :=
  push_via q (via_value transport host branch).
(** lib.rs:191-211 [remove_top_via] *)
Definition remove_top_via (hs : headers) : headers := remove_first VIA hs.

(** lib.rs:90-93 [extract_via_sent_by] *)
Definition via_sent_by (v : str) : option str :=
  match split_ws v with
  | _ :: a :: _ => Some (hd a (split_on 59 a))
  | _ => None
  end.
(** lib.rs:97-100 [sent_by_matches_host] *)
Definition sent_by_matches (sent_by host : str) : bool := eq_ic (hd sent_by (split_on 58 sent_by)) host.
(** lib.rs:103-108 [extract_via_branch] *)
Definition via_branch (v : str) : option str :=
  find_map (strip_prefix (lit "branch=")) (map trim (split_on 59 v)).
(** lib.rs:249-250, 294 *)
Definition is_via (h : header) : bool := named VIA h || named (lit "v") h.

(** ** Loop detection *)
Definition get_or_empty (n : str) (hs : headers) : str := match hget n hs with Some v => v | None => [] end.
(** lib.rs:65-68: the number part of CSeq *)
Definition cseq_num (hs : headers) : str :=
  match hget (lit "CSeq") hs with
  | Some v => match split_ws v with a :: _ => a | [] => [] end
  | None => []
  end.
(** lib.rs:74-84: the text that is hashed *)
Definition loop_text (q : req) (host : str) : str :=
  let hs := q_headers q in
  get_or_empty (lit "To") hs ++ [31] ++ get_or_empty (lit "From") hs ++ [31]
  ++ get_or_empty (lit "Call-ID") hs ++ [31] ++ cseq_num hs ++ [31]
  ++ uri_text (q_uri q) ++ [31] ++ host.
(** lib.rs:44-47 *)
Definition MAX_VIA_HOPS : N := 70.
Definition BRANCH_MAGIC : str := lit "z9hG4bK".
Section Loop.
(** the first 16 bytes of the SHA-256 digest in hexadecimal, as a function of the
    text (whose UTF-8 encoding is what is hashed) *)
Variable hash16 : str -> str.
(** lib.rs:55-87 [compute_loop_branch] *)
Definition loop_branch (q : req) (host : str) : str := BRANCH_MAGIC ++ hash16 (loop_text q host).
(** lib.rs:220-235 [add_via_with_loop_detection] *)
Definition add_via_loop (q : req) (host transport : str) : outcome req :=
  push_via q (via_value transport host (loop_branch q host)).
(** lib.rs:246-272 [detect_loop_hashed]: [true] is the error *)
Definition detect_loop_hashed (q : req) (host : str) : bool :=
  existsb (fun h => is_via h &&
    match via_sent_by (snd h) with
    | Some sb => sent_by_matches sb host &&
        match via_branch (snd h) with
        | Some b => str_eqb b (loop_branch q host)
        | None => false end
    | None => false
    end) (q_headers q).
End Loop.
(** lib.rs:292-319: the loop of [detect_loop] *)
Fixpoint detect_hops (host : str) (n : N) (hs : headers) : bool :=
  match hs with
  | [] => false
  | h :: r =>
      if is_via h then
        if MAX_VIA_HOPS <? n + 1 then true
        else if match via_sent_by (snd h) with
                | Some sb => sent_by_matches sb host | None => false end then true
        else detect_hops host (n + 1) r
      else detect_hops host n r
  end.
(** lib.rs:291-320 [detect_loop]: [true] is the error *)
Definition detect_loop (q : req) (host : str) : bool := detect_hops host 0 (q_headers q).

(** ** Record-Route, Max-Forwards, Request-URI *)
(** lib.rs:151-159 *)
Definition uri_has_lr (u : sip_uri) : bool := existsb (fun kv => eq_ic (fst kv) (lit "lr")) (u_params u).
Definition record_route_value (u : sip_uri) : str :=
  if uri_has_lr u then lit "<" ++ u_raw u ++ lit ">" else lit "<" ++ u_raw u ++ lit ";lr>".
(** lib.rs:150-164 [add_record_route] *)
Definition add_record_route (q : req) (u : sip_uri) : outcome req :=
  match hpush (q_headers q) (lit "Record-Route") (record_route_value u) with
  | Ok hs => Ret (with_headers q hs)
  | Err _ => Panics
  end.
Definition MF : str := lit "Max-Forwards".
Inductive mf_error := MfExhausted | MfInvalid.
(** max_forwards.rs:66-104 [decrement_max_forwards] *)
Definition decrement_mf (hs : headers) : result (headers * N) mf_error :=
  match hget MF hs with
  | Some v =>
      let t := trim v in
      if negb (all_digits t) then Err MfInvalid
      else match parse_uint u16_max t with
           | None => Err MfInvalid
           | Some n =>
               if 255 <? n then Err MfInvalid
               else if n =? 0 then Err MfExhausted
               else match hset_or_push hs MF (print_N (n - 1)) with
                    | Ok hs' => Ok (hs', n - 1)
                    | Err _ => Err MfInvalid
                    end
           end
  | None => match hpush hs MF (lit "69") with
            | Ok hs' => Ok (hs', 69)
            | Err _ => Err MfInvalid
            end
  end.
(** lib.rs:178-182 [check_max_forwards] *)
Definition check_max_forwards (q : req) : option req :=
  match decrement_mf (q_headers q) with
  | Ok (hs, _) => Some (with_headers q hs)
  | Err _ => None
  end.
(** lib.rs:330-336 [set_request_uri] *)
Definition set_request_uri (q : req) (u : sip_uri) : req := with_uri q (SipU u).

(** ** Route headers *)
Definition ROUTE : str := lit "Route".
Definition to_uri (u : any_uri) : uri :=
  match u with ASip s => SipU s | ATel t => OtherU (t_raw t) | AAbs t => OtherU t end.
(** route.rs:323-355 [parse_name_addr]; its helpers are the ones of
    header_values.rs modelled in AnyUri *)
Definition route_name_addr (input : str) : option name_addr :=
  match input with
  | [] => None
  | _ =>
      match scan_to 60 false false input with
      | Some (before, after) =>
          match scan_to 62 false false after with
          | None => None
          | Some (inside, rest) =>
              match na_params (trim rest), parse_any (trim inside) with
              | Some ps, Some u =>
                  na_new (match trim before with [] => None | d => Some (trim_dquotes d) end) u ps
              | _, _ => None
              end
          end
      | None =>
          let '(u, p) := match split_once 59 input with Some x => x | None => (input, []) end in
          match parse_any (trim u), na_params p with
          | Some u, Some ps => na_new None u ps
          | _, _ => None
          end
      end
  end.
(** route.rs:286-297 [RouteHeader::parse] *)
Definition route_parse (input : str) : option name_addr :=
  if 2048 <? blen input then None else route_name_addr (trim input).
(** route.rs:182-195 [has_lr]; parameter names of URIs are stored in lower case *)
Definition route_has_lr (r : name_addr) : bool :=
  existsb (fun kv => eq_ic (fst kv) (lit "lr")) (na_ps r)
  || match na_uri r with
     | ASip u => is_some (bget (lit "lr") (u_params u))
     | _ => false
     end.
(** lib.rs:416-444 [apply_strict_routing_swap] *)
Definition strict_swap (q : req) : bool * req :=
  match find (named ROUTE) (q_headers q) with
  | None => (false, q)
  | Some h =>
      match route_parse (trim (snd h)) with
      | None => (false, q)
      | Some r =>
          if route_has_lr r then (false, q)
          else let hs := remove_first ROUTE (q_headers q) in
               (true, mkReq (q_method q) (to_uri (na_uri r))
                        (or_same hs (hpush hs ROUTE (lit "<" ++ uri_text (q_uri q) ++ lit ">"))) (q_body q))
      end
  end.
(** lib.rs:360-393 [recover_strict_routed_request_uri] *)
Definition strict_recover (is_self : uri -> bool) (q : req) : bool * req :=
  if negb (is_self (q_uri q)) then (false, q)
  else match find (named ROUTE) (rev (q_headers q)) with
       | None => (false, q)
       | Some h =>
           match route_parse (trim (snd h)) with
           | None => (false, q)
           | Some r => (true, mkReq (q_method q) (to_uri (na_uri r)) (remove_last ROUTE (q_headers q)) (q_body q))
           end
       end.

(** ** Forwarding *)
(** stateful.rs:998-1028 [prepare_forward]; [None] is its error (Max-Forwards) *)
Definition prepare_forward (q : req) (target : sip_uri) (host transport : str) (rr : option sip_uri) (branch : str)
  : option (outcome req) :=
  match check_max_forwards (set_request_uri q target) with
  | None => None
  | Some q1 => Some (match add_via q1 host transport branch with
                     | Panics => Panics
                     | Ret q2 => match rr with Some u => add_record_route q2 u | None => Ret q2 end
                     end)
  end.
(** stateful.rs:1037-1044 [prepare_response] *)
Definition prepare_response (r : resp) : resp :=
  mkResp (p_code r) (p_reason r) (remove_top_via (p_headers r)) (p_body r).

(** ** CANCEL and ACK *)
(** cancel_ack.rs:31-46 [extract_invite_cseq] *)
Definition invite_cseq (q : req) : option N :=
  match hget (lit "CSeq") (q_headers q) with
  | Some v => match split_ws v with
              | a :: _ :: _ => parse_uint u32_max a
              | _ => None end
  | None => None
  end.
(** cancel_ack.rs:70-84: rewrite the branch of a Via value *)
Fixpoint set_branch (b : str) (parts : list str) : option (list str) :=
  match parts with
  | [] => None
  | p :: r => if starts_with (lit "branch=") (lower p) then Some ((lit "branch=" ++ b) :: r)
              else match set_branch b r with Some r' => Some (p :: r') | None => None end
  end.
Definition rebranch (b v : str) : str :=
  let parts := map trim (split_on 59 v) in
  join (lit ";") (match set_branch b parts with Some p => p | None => parts ++ [lit "branch=" ++ b] end).
(** cancel_ack.rs:61-90 [prepare_cancel] *)
Definition prepare_cancel (q : req) (b : str) : req :=
  match hget VIA (q_headers q) with
  | Some v => with_headers q (or_same (q_headers q) (hset_or_push (q_headers q) VIA (rebranch b v)))
  | None => q
  end.
(** cancel_ack.rs:180-185 [extract_tag] *)
Definition from_tag (v : str) : option str := find_map (strip_prefix (lit "tag=")) (map trim (split_on 59 v)).
Definition opt_eqb (a b : option str) : bool :=
  match a, b with Some a, Some b => str_eqb a b | None, None => true | _, _ => false end.
(** cancel_ack.rs:107-151 [matches_invite] *)
Definition matches_invite (cancel invite : req) : bool :=
  match invite_cseq cancel, invite_cseq invite with
  | Some a, Some b =>
      (a =? b) &&
      match hget (lit "Call-ID") (q_headers cancel), hget (lit "Call-ID") (q_headers invite) with
      | Some c, Some d =>
          str_eqb c d &&
          match hget (lit "From") (q_headers cancel), hget (lit "From") (q_headers invite) with
          | Some f, Some g => opt_eqb (from_tag f) (from_tag g) && str_eqb (uri_text (q_uri cancel)) (uri_text (q_uri invite))
          | _, _ => false
          end
      | _, _ => false
      end
  | _, _ => false
  end.
(** service.rs:210-234 [build_cancel_template]; the random branch id is an argument *)
Definition cancel_template (q : req) (host transport branch : str) : outcome req :=
  match add_via (mkReq MCancel (q_uri q) (hremove (lit "Content-Length") (hremove (lit "Content-Type") (q_headers q))) [])
                host transport branch with
  | Panics => Panics
  | Ret c =>
      match hget (lit "CSeq") (q_headers c) with
      | Some v => match split_once 32 v with
                  | Some (n, _) => Ret (with_headers c (or_same (q_headers c)
                                     (hset_or_push (q_headers c) (lit "CSeq") (n ++ lit " CANCEL"))))
                  | None => Ret c
                  end
      | None => Ret c
      end
  end.
(** stateful.rs:629-650 [build_cancel_requests], with the branch each is for *)
Definition to_cancel (e : str * branch) : bool :=
  match br_state (snd e) with BCancelled | BTrying | BProceeding => true | _ => false end.
Definition cancel_requests (bs : list (str * branch)) (template : req) : list (str * req) :=
  map (fun e => (fst e, set_request_uri (prepare_cancel template (fst e)) (br_target (snd e)))) (filter to_cancel bs).
(** what [process_response] returns: the response handed over for forwarding *)
Definition forwarded (ev : list event) : option resp :=
  fold_left (fun acc e => match e with Sent _ r => Some r | _ => acc end) ev None.
(** service.rs:173-201 [handle_branch_response] *)
Definition handle_response (ord : list (str * branch) -> list (str * branch)) (host transport tbranch : str)
    (c : ctx) (b : str) (r : resp) : outcome (ctx * option resp * list (str * req)) :=
  let (c', ev) := process ord c b r in
  match forwarded ev with
  | Some f => if is_2xx f then
                match cancel_template (cx_req c') host transport tbranch with
                | Panics => Panics
                | Ret t => Ret (c', Some f, cancel_requests (ord (cx_branches c')) t)
                end
              else Ret (c', Some f, [])
  | None => Ret (c', None, [])
  end.

(** cancel_ack.rs:283-290 [AckType]; 199-219 [ack_type] *)
Inductive ack_kind := For2xx | Non2xx.
Definition ack_type (ack : req) (is_2xx : option bool) : ack_kind :=
  match is_2xx with
  | Some true => For2xx
  | Some false => Non2xx
  | None => if existsb (named ROUTE) (q_headers ack) then For2xx else Non2xx
  end.
(** [trim_matches] of angle brackets *)
Definition trim_angles (s : str) : str := trim_by (fun c => (c =? 60) || (c =? 62)) s.
(** cancel_ack.rs:237-253: the first Route that parses, and the other headers *)
Fixpoint take_route (hs : headers) : option (sip_uri * headers) :=
  match hs with
  | [] => None
  | h :: r =>
      match (if named ROUTE h then parse_uri (trim_angles (snd h)) else None) with
      | Some u => Some (u, r)
      | None => match take_route r with Some (u, r') => Some (u, h :: r') | None => None end
      end
  end.
(** cancel_ack.rs:231-262 [prepare_ack] *)
Definition prepare_ack (ack : req) (k : ack_kind) : req :=
  match k with
  | For2xx => match take_route (q_headers ack) with
              | Some (u, hs) => mkReq (q_method ack) (SipU u) hs (q_body ack)
              | None => ack
              end
  | Non2xx => ack
  end.
(** cancel_ack.rs:304-359 [process_route_set]; [None] is the error *)
Definition process_route_set (q : req) (ours : list sip_uri) : option (req * option sip_uri) :=
  match q_uri q with
  | OtherU _ => None
  | SipU ru =>
      if existsb (fun u => str_eqb (u_raw u) (u_raw ru)) ours then
        match find (named ROUTE) (rev (q_headers q)) with
        | Some h => match parse_uri (trim_angles (snd h)) with
                    | Some u => Some (mkReq (q_method q) (SipU u) (remove_last ROUTE (q_headers q)) (q_body q), Some u)
                    | None => Some (q, None) end
        | None => Some (q, None)
        end
      else Some (q, None)
  end.
(** cancel_ack.rs:364-378 [get_next_hop] *)
Definition next_hop (q : req) : option sip_uri :=
  match hget ROUTE (q_headers q) with
  | Some v => parse_uri (trim_angles v)
  | None => uri_sip (q_uri q)
  end.

(** ** Targets *)
(** location.rs:32-47 [Target]; a q value is a finite 32-bit float, that is an
    integer multiple of 2^-149, or NaN; the path is left out *)
Inductive qval := QNaN | QVal (z : Z).
Record target := mkTarget { tg_uri : sip_uri; tg_q : qval }.
(** location.rs:137-141 *)
Definition q_of (t : target) : Z := match tg_q t with QVal z => z | QNaN => 0%Z end.
Definition fix_nan (t : target) : target := mkTarget (tg_uri t) (QVal (q_of t)).
(** stable sort ([slice::sort_by]) by descending q *)
Fixpoint ins_q (t : target) (l : list target) : list target :=
  match l with
  | [] => [t]
  | x :: r => if (q_of x <=? q_of t)%Z then t :: l else x :: ins_q t r
  end.
Definition sort_q (l : list target) : list target := fold_right ins_q [] l.
Section Far.
(** [(a - b).abs() > 1e-6] on 32-bit floats *)
Variable far : Z -> Z -> bool.
(** location.rs:151-165: the grouping loop, [cur] reversed *)
Fixpoint group_from (q : Z) (cur : list target) (l : list target) : list (list target) :=
  match l with
  | [] => match cur with [] => [] | _ => [rev cur] end
  | t :: r => if far (q_of t) q then rev cur :: group_from (q_of t) [t] r
              else group_from q (t :: cur) r
  end.
(** location.rs:126-166 [group_by_q_value] *)
Definition group_by_q (l : list target) : list (list target) :=
  match sort_q (map fix_nan l) with
  | [] => []
  | t :: r => group_from (q_of t) [] (t :: r)
  end.
End Far.

(** ** Starting a fork *)
(** max_forwards.rs:126-158 [is_valid_branch] *)
Definition valid_branch (b : str) : bool :=
  (8 <=? blen b) && (blen b <=? 256) && starts_with (lit "z9hG4bK") b
  && negb (existsb is_ascii_control b) && forallb uri_token_char b.
(** service.rs:243-254: the loop over the Via parameters; slicing [trimmed[..7]]
    panics inside a character *)
Fixpoint top_branch (parts : list str) : outcome (option str) :=
  match parts with
  | [] => Ret None
  | p :: r =>
      let t := trim p in
      if 7 <=? blen t then
        match split_bytes 7 t with
        | None => Panics
        | Some (a, b) => if eq_ic a (lit "branch=") then Ret (if valid_branch b then Some b else None)
                         else top_branch r
        end
      else top_branch r
  end.
(** service.rs:236-255 [extract_top_via_branch] *)
Definition top_via_branch (q : req) : outcome (option str) :=
  match hget VIA (q_headers q) with
  | None => Ret None
  | Some v => top_branch (split_on 59 v)
  end.
(** stateful.rs [ForkMode], [ProxyTarget], MAX_TARGETS_PER_REQUEST *)
Inductive fork_mode := FNone | FSequential | FParallel.
Record ptarget := mkPt { pt_uri : sip_uri; pt_prio : N; pt_q : Z }.
Definition MAX_TARGETS_PER_REQUEST : N := 100.
(** service.rs:132-138: priority, then descending q, stable *)
Definition pt_before (a b : ptarget) : bool :=
  (pt_prio a <? pt_prio b) || ((pt_prio a =? pt_prio b) && (pt_q b <=? pt_q a)%Z).
Fixpoint ins_pt (t : ptarget) (l : list ptarget) : list ptarget :=
  match l with
  | [] => [t]
  | x :: r => if pt_before t x then t :: l else x :: ins_pt t r
  end.
Definition sort_pt (l : list ptarget) : list ptarget := fold_right ins_pt [] l.
(** service.rs:130-142 *)
Definition fork_targets (m : fork_mode) (l : list ptarget) : list ptarget :=
  match m with
  | FParallel => l
  | FSequential => firstn 1 (sort_pt l)
  | FNone => firstn 1 l
  end.
Inductive fork_result :=
| FError                                     (* an error is returned *)
| FPanic
| FStarted (c : ctx) (sent : list (str * req)).
(** service.rs:144-169: the loop over the targets; [ids] are the random branch
    ids drawn, one per target *)
Fixpoint fork_loop (q : req) (host transport : str) (rr : option sip_uri) (ids : list str) (ts : list ptarget)
    (c : ctx) (sent : list (str * req)) {struct ts} : fork_result :=
  match ts, ids with
  | [], _ => FStarted c sent
  | _ :: _, [] => FStarted c sent
  | t :: ts', b :: ids' =>
      match prepare_forward q (pt_uri t) host transport rr b with
      | None => fork_loop q host transport rr ids' ts' c sent
      | Some Panics => FPanic
      | Some (Ret q') =>
          if validate_branch_id b then
            match add_branch c b (pt_uri t) with
            | Err _ => FError
            | Ok c' => fork_loop q host transport rr ids' ts' c' (sent ++ [(b, q')])
            end
          else FError
      end
  end.
(** service.rs:86-170 [start_forking], the insertion of the context into the
    table left out (see [start_check], [start_insert]) *)
Definition start_forking (q : req) (ts : list ptarget) (host transport : str) (rr : option sip_uri) (m : fork_mode)
    (ids : list str) : fork_result :=
  if MAX_TARGETS_PER_REQUEST <? llen ts then FError
  else match hget (lit "Call-ID") (q_headers q) with
  | None => FError
  | Some _ =>
      match top_via_branch q with
      | Panics => FPanic
      | Ret None => FError
      | Ret (Some _) => fork_loop q host transport rr ids (fork_targets m ts) (ctx_new q) []
      end
  end.
