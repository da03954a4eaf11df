(** Model of the transaction manager (crates/sip-transaction/src/manager.rs)
    on top of the four machines of [Fsm.v].

    Simplifications: every public operation and every queued command is one
    atomic step (the code awaits between actions); metrics and logging are
    dropped; a transport context is its transport and a peer id; whether a
    send succeeds is read from an oracle (a list of booleans, one per attempt,
    default success).  Timer expiries are operations that may happen at any
    time, armed or not. *)
From Coq Require Import NArith Bool List.
Import ListNotations.
From Verif Require Import Base Headers Method Fsm.
Open Scope N_scope.

(** manager.rs:190-215 [TransportContext] (transport and peer only) *)
Record target := mkTarget { tg_transport : transport; tg_peer : N }.

(** lib.rs:225-229 [TransactionKey]; the direction is the table it is in *)
Definition key := (str * method)%type.
Definition key_eqb (a b : key) : bool := str_eqb (fst a) (fst b) && method_eqb (snd a) (snd b).

Record request := mkRequest { rq_method : method; rq_headers : headers; rq_wire : str }.

(** manager.rs:330-333 [ServerKind], 351-354 [ClientKind] *)
Inductive server_kind := SkInvite (f : si) | SkNon (f : sn).
Inductive client_kind := CkInvite (f : ci) | CkNon (f : cn).
(** manager.rs:322-328 [ServerEntry] *)
Record sentry := mkS { se_kind : server_kind; se_ctx : target; se_timers : list timer; se_start : N }.
(** manager.rs:335-349 [ClientEntry]; the user is an id *)
Record centry := mkC { ce_kind : client_kind; ce_ctx : target; ce_tu : N;
                       ce_timers : list timer; ce_start : N; ce_rest : list target }.

(** manager.rs:303-319 [ManagerCommand] *)
Inductive cmd :=
| CServerTimer (k : key) (t : timer) | CClientTimer (k : key) (t : timer)
| CClientError (k : key) | CServerError (k : key).

Record mgr := mkM { mg_server : list (key * sentry); mg_client : list (key * centry);
                    mg_queue : list cmd }.
(** manager.rs [TransactionLimits] and timer defaults *)
Record config := mkCfg { cf_max_server : N; cf_max_client : N;
                         cf_t1 : N; cf_t2 : N; cf_t4 : N }.

(** observable effects: sends with their outcome, calls on the transaction
    user, and the key of the handle given back to the caller *)
Inductive out :=
| OSend (k : key) (t : target) (bytes : str) (ok : bool)
| OProvisional (k : key) (tu : N) (r : response)
| OFinal (k : key) (tu : N) (r : response)
| OPrack (k : key) (tu : N) (r : response)
| OAck (k : key) (tu : N) (r : response) (is2xx : bool)
| OTerminated (k : key) (tu : N)
| OTransportError (k : key) (tu : N)
| OHandle (k : key)
| OPanic.

(** lib.rs:96-107 [branch_from_via] *)
Fixpoint find_branch (parts : list str) : option str :=
  match parts with
  | [] => None
  | p :: r =>
      match split_once 61 p with
      | Some (n, v) => if eq_ic (trim n) (lit "branch") then Some (trim v) else find_branch r
      | None => find_branch r
      end
  end.
Definition branch_from_via (via : str) : option str := find_branch (skipn 1 (split_on 59 via)).
(** manager.rs:728-732 [extract_branch], lib.rs:110-114 [request_branch_id] *)
Definition extract_branch (hs : headers) : option str :=
  match hget (lit "Via") hs with Some v => branch_from_via v | None => None end.
(** manager.rs:734-739 [extract_cseq_method] *)
Definition extract_cseq_method (hs : headers) : option method :=
  match hget (lit "CSeq") hs with
  | Some v => match split_ws v with
              | _ :: m :: _ => match method_from_token m with Ok x => Some x | Err _ => None end
              | _ => None
              end
  | None => None
  end.

(** ** Small table updates *)
Definition slookup (k : key) (m : mgr) := lookup key_eqb k (mg_server m).
Definition clookup (k : key) (m : mgr) := lookup key_eqb k (mg_client m).
Definition set_server (m : mgr) t := mkM t (mg_client m) (mg_queue m).
Definition set_client (m : mgr) t := mkM (mg_server m) t (mg_queue m).
Definition enqueue (c : cmd) (m : mgr) := mkM (mg_server m) (mg_client m) (mg_queue m ++ [c]).
Definition sput (k : key) (e : sentry) (m : mgr) := set_server m (insert key_eqb k e (mg_server m)).
Definition cput (k : key) (e : centry) (m : mgr) := set_client m (insert key_eqb k e (mg_client m)).
Definition sdel (k : key) (m : mgr) := set_server m (remove_key key_eqb k (mg_server m)).
Definition cdel (k : key) (m : mgr) := set_client m (remove_key key_eqb k (mg_client m)).

Definition drop_timer (t : timer) (l : list timer) := filter (fun x => negb (timer_eqb t x)) l.
Definition se_cancel (t : timer) (e : sentry) :=
  mkS (se_kind e) (se_ctx e) (drop_timer t (se_timers e)) (se_start e).
Definition se_arm (t : timer) (e : sentry) :=
  mkS (se_kind e) (se_ctx e) (t :: drop_timer t (se_timers e)) (se_start e).
Definition ce_cancel (t : timer) (e : centry) :=
  mkC (ce_kind e) (ce_ctx e) (ce_tu e) (drop_timer t (ce_timers e)) (ce_start e) (ce_rest e).
Definition ce_arm (t : timer) (e : centry) :=
  mkC (ce_kind e) (ce_ctx e) (ce_tu e) (t :: drop_timer t (ce_timers e)) (ce_start e) (ce_rest e).
Definition se_set (f : server_kind) (e : sentry) := mkS f (se_ctx e) (se_timers e) (se_start e).
Definition ce_set (f : client_kind) (e : centry) :=
  mkC f (ce_ctx e) (ce_tu e) (ce_timers e) (ce_start e) (ce_rest e).

(** ** Sending *)
Definition next (net : list bool) : bool * list bool :=
  match net with [] => (true, []) | b :: r => (b, r) end.

(** manager.rs:454-502 [dispatch_with_failover]: attempts made, the context
    and remaining targets afterwards, whether every target failed, and the
    rest of the oracle *)
Fixpoint failover (net : list bool) (cur : target) (rest : list target)
  : list (target * bool) * (target * list target) * bool * list bool :=
  let '(ok, net1) := next net in
  if ok then ([(cur, true)], (cur, rest), false, net1)
  else match rest with
       | [] => ([(cur, false)], (cur, []), true, net1)
       | nx :: rest' =>
           let '(att, st, failed, net2) := failover net1 nx rest' in
           ((cur, false) :: att, st, failed, net2)
       end.

Definition client_transmit (net : list bool) (k : key) (bytes : str) (m : mgr)
  : mgr * list out * list bool :=
  match clookup k m with
  | None => (m, [], net)
  | Some e =>
      let '(att, (cur, rest), failed, net') := failover net (ce_ctx e) (ce_rest e) in
      let e' := mkC (ce_kind e) cur (ce_tu e) (ce_timers e) (ce_start e) rest in
      let m1 := cput k e' m in
      let m2 := if failed then enqueue (CClientError k) m1 else m1 in
      (m2, map (fun p => OSend k (fst p) bytes (snd p)) att, net')
  end.

(** ** Applying machine actions *)

(** manager.rs:1439-1480 [schedule_client_timer]: a zero duration queues the
    expiry at once.  The MAX_TIMER_BUCKETS guard (10000) cannot trigger: there
    are 14 timer names. *)
Definition client_schedule (k : key) (t : timer) (d : N) (m : mgr) : mgr :=
  match clookup k m with
  | None => m
  | Some e =>
      if d =? 0 then enqueue (CClientTimer k t) (cput k (ce_cancel t e) m)
      else cput k (ce_arm t e) m
  end.

Definition of_client (k : key) (m : mgr) (f : centry -> list out) : list out :=
  match clookup k m with Some e => f e | None => [] end.

(** one action of manager.rs:1284-1364 [apply_client_invite_actions] and
    1366-1437 [apply_client_non_invite_actions] *)
Definition client_action (net : list bool) (k : key) (a : action) (m : mgr)
  : mgr * list out * list bool :=
  match a with
  | Transmit b => client_transmit net k b m
  | Deliver r =>
      (m, of_client k m (fun e => [if rs_code r <? 200 then OProvisional k (ce_tu e) r
                                   else OFinal k (ce_tu e) r]), net)
  | ExpectPrack r => (m, of_client k m (fun e => [OPrack k (ce_tu e) r]), net)
  | GenerateAck r b => (m, of_client k m (fun e => [OAck k (ce_tu e) r b]), net)
  | Schedule t d => (client_schedule k t d m, [], net)
  | Cancel t =>
      (match clookup k m with Some e => cput k (ce_cancel t e) m | None => m end, [], net)
  | Terminate => (cdel k m, of_client k m (fun e => [OTerminated k (ce_tu e)]), net)
  | Panic => (m, [OPanic], net)
  end.

Fixpoint client_actions (net : list bool) (k : key) (l : list action) (m : mgr)
  : mgr * list out * list bool :=
  match l with
  | [] => (m, [], net)
  | a :: r =>
      let '(m1, o1, net1) := client_action net k a m in
      let '(m2, o2, net2) := client_actions net1 k r m1 in
      (m2, o1 ++ o2, net2)
  end.

Definition client_terminated (f : client_kind) : bool :=
  match f with
  | CkInvite f => match ci_st f with CiTerminated => true | _ => false end
  | CkNon f => match cn_st f with CnTerminated => true | _ => false end
  end.

(** manager.rs:1249-1282 [reap_terminated_client] *)
Definition reap (k : key) (m : mgr) : mgr :=
  match clookup k m with
  | Some e => if client_terminated (ce_kind e) then cdel k m else m
  | None => m
  end.

(** manager.rs:1223-1233 [apply_client_actions] *)
Definition apply_client (net : list bool) (k : key) (l : list action) (m : mgr)
  : mgr * list out :=
  let '(m1, o, _) := client_actions net k l m in (reap k m1, o).

(** manager.rs:1482-1518 [schedule_timer] *)
Definition server_schedule (k : key) (t : timer) (d : N) (m : mgr) : mgr :=
  match slookup k m with
  | None => m
  | Some e =>
      if d =? 0 then enqueue (CServerTimer k t) (sput k (se_cancel t e) m)
      else sput k (se_arm t e) m
  end.

(** one action of manager.rs:1152-1221 [apply_server_actions] *)
Definition server_action (net : list bool) (k : key) (a : action) (m : mgr)
  : mgr * list out * list bool :=
  match a with
  | Transmit b =>
      match slookup k m with
      | None => (m, [], net)
      | Some e =>
          let '(ok, net') := next net in
          (if ok then m else enqueue (CServerError k) m, [OSend k (se_ctx e) b ok], net')
      end
  | Schedule t d => (server_schedule k t d m, [], net)
  | Cancel t =>
      (match slookup k m with Some e => sput k (se_cancel t e) m | None => m end, [], net)
  | Terminate => (sdel k m, [], net)
  | Panic => (m, [OPanic], net)
  | _ => (m, [], net)
  end.

Fixpoint server_actions (net : list bool) (k : key) (l : list action) (m : mgr)
  : mgr * list out * list bool :=
  match l with
  | [] => (m, [], net)
  | a :: r =>
      let '(m1, o1, net1) := server_action net k a m in
      let '(m2, o2, net2) := server_actions net1 k r m1 in
      (m2, o1 ++ o2, net2)
  end.
Definition apply_server (net : list bool) (k : key) (l : list action) (m : mgr) : mgr * list out :=
  let '(m1, o, _) := server_actions net k l m in (m1, o).

(** ** Feeding a machine *)
Definition srv_event (fi : si -> si * list action) (fn : sn -> sn * list action) (f : server_kind)
  : server_kind * list action :=
  match f with
  | SkInvite x => let '(x', a) := fi x in (SkInvite x', a)
  | SkNon x => let '(x', a) := fn x in (SkNon x', a)
  end.
Definition cli_event (fi : ci -> ci * list action) (fn : cn -> cn * list action) (f : client_kind)
  : client_kind * list action :=
  match f with
  | CkInvite x => let '(x', a) := fi x in (CkInvite x', a)
  | CkNon x => let '(x', a) := fn x in (CkNon x', a)
  end.

(** look the entry up, give the event to its machine, apply the actions *)
Definition server_feed (net : list bool) (k : key)
  (fi : si -> si * list action) (fn : sn -> sn * list action) (m : mgr) : mgr * list out :=
  match slookup k m with
  | None => (m, [])
  | Some e =>
      let '(f', acts) := srv_event fi fn (se_kind e) in
      apply_server net k acts (sput k (se_set f' e) m)
  end.
Definition client_feed (net : list bool) (k : key)
  (fi : ci -> ci * list action) (fn : cn -> cn * list action) (m : mgr) : mgr * list out :=
  match clookup k m with
  | None => (m, [])
  | Some e =>
      let '(f', acts) := cli_event fi fn (ce_kind e) in
      apply_client net k acts (cput k (ce_set f' e) m)
  end.

(** ** Limits *)
(** [min_by_key(start_time)]: the first minimal entry in iteration order *)
Fixpoint oldest {E} (start : E -> N) (l : list (key * E)) : option (key * N) :=
  match l with
  | [] => None
  | (k, e) :: r =>
      match oldest start r with
      | None => Some (k, start e)
      | Some (k', s') => if start e <=? s' then Some (k, start e) else Some (k', s')
      end
  end.
(** manager.rs:663-681 [enforce_server_transaction_limit] *)
Definition enforce_server (c : config) (m : mgr) : mgr :=
  if cf_max_server c <=? llen (mg_server m) then
    match oldest se_start (mg_server m) with Some (k, _) => sdel k m | None => m end
  else m.
(** manager.rs:686-708 [enforce_client_transaction_limit] *)
Definition enforce_client (c : config) (m : mgr) : mgr * list out :=
  if cf_max_client c <=? llen (mg_client m) then
    match oldest ce_start (mg_client m) with
    | Some (k, _) => (cdel k m, of_client k m (fun e => [OTerminated k (ce_tu e)]))
    | None => (m, [])
    end
  else (m, []).

(** ** Operations *)
Definition timers_of (c : config) (t : target) : timers :=
  mkTimers (tg_transport t) (cf_t1 c) (cf_t2 c) (cf_t4 c).

Definition is_invite (mt : method) : bool := match mt with MInvite => true | _ => false end.

(** manager.rs:764-866 [receive_request]; [gen] is the branch generated when
    the request has none *)
Definition receive_request (c : config) (net : list bool) (now : N) (gen : str)
  (rq : request) (ctx : target) (m : mgr) : mgr * list out :=
  let branch := match extract_branch (rq_headers rq) with Some b => b | None => gen end in
  let k := (branch, rq_method rq) in
  let ik := (branch, MInvite) in
  let ack_target :=
    match rq_method rq, slookup ik m with
    | MAck, Some e => match se_kind e with SkInvite _ => true | SkNon _ => false end
    | _, _ => false
    end in
  if ack_target then
    let '(m1, o) := server_feed net ik (fun f => si_step f SiAck) (fun f => (f, [])) m in
    (m1, o ++ [OHandle ik])
  else
  match slookup k m with
  | Some _ =>
      let '(m1, o) := server_feed net k (fun f => si_step f SiRetransmit)
                                         (fun f => sn_step f SnRetransmit) m in
      (m1, o ++ [OHandle k])
  | None =>
      let '(m1, o1) :=
        match rq_method rq, slookup ik m with
        | MCancel, Some e =>
            match se_kind e with
            | SkInvite _ => server_feed net ik (fun f => si_step f SiCancel) (fun f => (f, [])) m
            | SkNon _ => (m, [])
            end
        | _, _ => (m, [])
        end in
      let m2 := enforce_server c m1 in
      let tm := timers_of c ctx in
      let '(f, acts) :=
        if is_invite (rq_method rq)
        then let '(f, a) := si_step (si_new tm) SiInvite in (SkInvite f, a)
        else let '(f, a) := sn_step (sn_new tm) SnRequest in (SkNon f, a) in
      let m3 := sput k (mkS f ctx [] now) m2 in
      let '(m4, o2) := apply_server net k acts m3 in
      (m4, o1 ++ o2 ++ [OHandle k])
  end.

(** manager.rs:869-972 [start_client_transaction_with_targets] and
    [start_client_inner]; an empty target list or a missing branch is an
    error without effect *)
Definition start_client (c : config) (net : list bool) (now : N) (rq : request)
  (targets : list target) (tu : N) (m : mgr) : mgr * list out :=
  match targets, extract_branch (rq_headers rq) with
  | ctx :: rest, Some branch =>
      let k := (branch, rq_method rq) in
      let tm := timers_of c ctx in
      let '(m1, o1) := enforce_client c m in
      let '(f, acts) :=
        if is_invite (rq_method rq)
        then let '(f, a) := ci_step (ci_new tm) (CiSend (rq_wire rq)) in (CkInvite f, a)
        else let '(f, a) := cn_step (cn_new tm) (CnSend (rq_wire rq)) in (CkNon f, a) in
      let m2 := cput k (mkC f ctx tu [] now rest) m1 in
      let '(m3, o2) := apply_client net k acts m2 in
      (m3, o1 ++ o2 ++ [OHandle k])
  | _, _ => (m, [])
  end.

(** manager.rs:975-1039 [receive_response] and 1603-1632 [dispatch_response] *)
Definition receive_response (net : list bool) (r : response) (m : mgr) : mgr * list out :=
  match extract_branch (rs_headers r), extract_cseq_method (rs_headers r) with
  | Some b, Some mt =>
      if rs_code r <? 200
      then client_feed net (b, mt) (fun f => ci_step f (CiProv r)) (fun f => cn_step f (CnProv r)) m
      else client_feed net (b, mt) (fun f => ci_step f (CiFinal r)) (fun f => cn_step f (CnFinal r)) m
  | _, _ => (m, [])
  end.

(** manager.rs:1041-1062 [handle_server_timer] *)
Definition server_timer (net : list bool) (k : key) (t : timer) (m : mgr) : mgr * list out :=
  match slookup k m with
  | None => (m, [])
  | Some e => server_feed net k (fun f => si_step f (SiTimer t)) (fun f => sn_step f (SnTimer t))
                (sput k (se_cancel t e) m)
  end.
(** manager.rs:1064-1087 [handle_client_timer] *)
Definition client_timer (net : list bool) (k : key) (t : timer) (m : mgr) : mgr * list out :=
  match clookup k m with
  | None => (m, [])
  | Some e => client_feed net k (fun f => ci_step f (CiTimer t)) (fun f => cn_step f (CnTimer t))
                (cput k (ce_cancel t e) m)
  end.
(** manager.rs:1089-1093, 1115-1135 [process_client_transport_error] *)
Definition client_error (net : list bool) (k : key) (m : mgr) : mgr * list out :=
  match clookup k m with
  | None => (m, [])
  | Some e =>
      let '(m1, o) := client_feed net k (fun f => ci_step f CiTransportError)
                                        (fun f => cn_step f CnTransportError) m in
      (m1, OTransportError k (ce_tu e) :: o)
  end.
(** manager.rs:1095-1113, 1137-1150 [process_server_transport_error] *)
Definition server_error (net : list bool) (k : key) (m : mgr) : mgr * list out :=
  server_feed net k (fun f => si_step f SiTransportError) (fun f => sn_step f SnTransportError) m.

(** manager.rs:741-761 the command loop takes the oldest command *)
Definition pump (net : list bool) (m : mgr) : mgr * list out :=
  match mg_queue m with
  | [] => (m, [])
  | c :: q =>
      let m' := mkM (mg_server m) (mg_client m) q in
      match c with
      | CServerTimer k t => server_timer net k t m'
      | CClientTimer k t => client_timer net k t m'
      | CClientError k => client_error net k m'
      | CServerError k => server_error net k m'
      end
  end.

Inductive op :=
| ORequest (now : N) (gen : str) (rq : request) (ctx : target)
| OStartClient (now : N) (rq : request) (targets : list target) (tu : N)
| OResponse (r : response)
| OServerTimer (k : key) (t : timer)
| OClientTimer (k : key) (t : timer)
| OPump
| OSendProvisional (k : key) (r : response)
| OSendFinal (k : key) (r : response)
| OAckReceived (k : key).

(** manager.rs:1520-1601 [send_provisional], [send_final], [ack_received] *)
Definition step (c : config) (m : mgr) (x : list bool * op) : mgr * list out :=
  let '(net, o) := x in
  match o with
  | ORequest now gen rq ctx => receive_request c net now gen rq ctx m
  | OStartClient now rq targets tu => start_client c net now rq targets tu m
  | OResponse r => receive_response net r m
  | OServerTimer k t => server_timer net k t m
  | OClientTimer k t => client_timer net k t m
  | OPump => pump net m
  | OSendProvisional k r =>
      server_feed net k (fun f => si_step f (SiProv r)) (fun f => sn_step f (SnProv r)) m
  | OSendFinal k r =>
      server_feed net k (fun f => si_step f (SiFinal r)) (fun f => sn_step f (SnFinal r)) m
  | OAckReceived k => server_feed net k (fun f => si_step f SiAck) (fun f => sn_step f SnAck) m
  end.

Definition mgr_init : mgr := mkM [] [] [].

(** bins/siphond/src/main.rs:684-693: every request that is not an ACK goes
    through [receive_request] and is then given to the method handlers.  The
    third component is what the handlers get to see. *)
Definition daemon_request (c : config) (net : list bool) (now : N) (gen : str)
  (rq : request) (ctx : target) (m : mgr) : mgr * list out * list request :=
  let '(m1, o) := receive_request c net now gen rq ctx m in (m1, o, [rq]).
