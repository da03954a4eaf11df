(** Model of dialogs (crates/sip-dialog/src/lib.rs).  Line numbers below are
    of that file. *)
From Coq Require Import NArith Bool String List.
Import ListNotations.
From Verif Require Import Base Headers Method Text Uri Msg.
Open Scope N_scope.
Open Scope list_scope.

(** 33-53 limits *)
Definition MAX_CALL_ID_LENGTH : N := 256.
Definition MAX_TAG_LENGTH : N := 128.
Definition DLG_MAX_URI_LENGTH : N := 512.
Definition MAX_ROUTE_SET_SIZE : N := 50.
Definition MAX_EARLY_DIALOGS_PER_CALL_ID : N := 100.
Definition MAX_CONFIRMED_DIALOGS : N := 10000.
Definition MAX_CSEQ_VALUE : N := 2147483647.
Definition MAX_CSEQ_JUMP : N := 1000.
Definition MIN_SESSION_EXPIRES : N := 90.
Definition MAX_SESSION_EXPIRES : N := 86400.

(** 62-70 [DialogStateType] *)
Inductive dstate := Early | Confirmed | Terminated.
Definition dstate_eqb (a b : dstate) : bool :=
  match a, b with Early, Early | Confirmed, Confirmed | Terminated, Terminated => true | _, _ => false end.

(** 72-78 [DialogId] *)
Record dialog_id := mkId { di_call : str; di_local : str; di_remote : str }.
Definition did_eqb (a b : dialog_id) : bool :=
  str_eqb (di_call a) (di_call b) && str_eqb (di_local a) (di_local b) && str_eqb (di_remote a) (di_remote b).

(** 845-945 [DialogError] (payloads dropped) *)
Inductive dlg_error :=
| EInvalidCSeq | EMissingHeader | EInvalidCallId | EInvalidTag | ECallIdTooLong | ETagTooLong
| EUriTooLong | ECSeqTooLarge | ECSeqJump | ECSeqZero | ERouteSetTooLarge | ETooManyDialogs
| ESessionTooSmall | ESessionTooLarge | EControl.

(** 1009-1023 [validate_call_id] *)
Definition validate_call_id (s : str) : option dlg_error :=
  match s with
  | [] => Some EInvalidCallId
  | _ => if MAX_CALL_ID_LENGTH <? blen s then Some ECallIdTooLong
         else if existsb is_control s then Some EControl else None
  end.
(** 1026-1041 [validate_tag] *)
Definition validate_tag (s : str) : option dlg_error :=
  match s with
  | [] => Some EInvalidTag
  | _ => if MAX_TAG_LENGTH <? blen s then Some ETagTooLong
         else if existsb is_control s then Some EControl else None
  end.
(** 86-104 [DialogId::new] *)
Definition id_new (call local remote : str) : result dialog_id dlg_error :=
  match validate_call_id call with
  | Some e => Err e
  | None => match validate_tag local with
            | Some e => Err e
            | None => match validate_tag remote with
                      | Some e => Err e
                      | None => Ok (mkId call local remote)
                      end
            end
  end.
(** 1044-1059 [validate_uri] *)
Definition dlg_validate_uri (u : sip_uri) : option dlg_error :=
  let est := match u_user u with Some x => blen x | None => 0 end + blen (u_host u)
             + match u_port u with Some _ => 6 | None => 0 end + 10 in
  if DLG_MAX_URI_LENGTH <? est then Some EUriTooLong else None.
(** 1062-1073 [validate_cseq] *)
Definition validate_cseq (n : N) : option dlg_error :=
  if n =? 0 then Some ECSeqZero else if MAX_CSEQ_VALUE <? n then Some ECSeqTooLarge else None.
(** 1076-1089 [validate_cseq_increment] *)
Definition validate_cseq_increment (prev new : N) : option dlg_error :=
  if new <=? prev then Some EInvalidCSeq
  else if MAX_CSEQ_JUMP <? new - prev then Some ECSeqJump else None.
(** durations are nanoseconds *)
Definition NS : N := 1000000000.
(** [Duration::MAX] is u64::MAX seconds and 999999999 ns *)
Definition DUR_MAX : N := u64_max * NS + 999999999.
(** 1092-1107 [validate_session_expires]: the seconds are cut to 32 bits *)
Definition validate_session_expires (d : N) : option dlg_error :=
  let secs := (d / NS) mod 4294967296 in
  if secs <? MIN_SESSION_EXPIRES then Some ESessionTooSmall
  else if MAX_SESSION_EXPIRES <? secs then Some ESessionTooLarge else None.
(** 1110-1121 [validate_route_set] *)
Definition validate_route_set (rs : list sip_uri) : option dlg_error :=
  if MAX_ROUTE_SET_SIZE <? llen rs then Some ERouteSetTooLarge
  else if existsb (fun u => is_some (dlg_validate_uri u)) rs then Some EUriTooLong else None.

(** 1215-1224 [extract_tag]: slicing at byte 4 panics inside a character *)
Fixpoint find_tag (segs : list str) : outcome (option str) :=
  match segs with
  | [] => Ret None
  | s :: r =>
      let t := trim s in
      if 4 <=? blen t then
        match split_bytes 4 t with
        | None => Panics
        | Some (a, b) => if eq_ic a (lit "tag=") then Ret (Some b) else find_tag r
        end
      else find_tag r
  end.
Definition extract_tag (v : str) : outcome (option str) := find_tag (split_on 59 v).

(** 158-164 [from_request], 168-173 [from_response_uac]: Call-ID, From tag and
    To tag, in this order *)
Definition id_of_headers (hs : headers) : outcome (option (str * str * str)) :=
  match header_of hs (lit "Call-ID") with
  | None => Ret None
  | Some c =>
      match header_of hs (lit "From") with
      | None => Ret None
      | Some f =>
          match extract_tag f with
          | Panics => Panics
          | Ret None => Ret None
          | Ret (Some ft) =>
              match header_of hs (lit "To") with
              | None => Ret None
              | Some t => match extract_tag t with
                          | Panics => Panics
                          | Ret None => Ret None
                          | Ret (Some tot) => Ret (Some (c, ft, tot))
                          end
              end
          end
      end
  end.
Definition id_from_request (r : req) : outcome (option dialog_id) :=
  match id_of_headers (q_headers r) with
  | Ret (Some (c, f, t)) => Ret (Some (mkId c f t)) | Ret None => Ret None | Panics => Panics end.
Definition id_from_response_uac (r : resp) : outcome (option dialog_id) :=
  match id_of_headers (p_headers r) with
  | Ret (Some (c, f, t)) => Ret (Some (mkId c f t)) | Ret None => Ret None | Panics => Panics end.
(** 177-182 [from_response_uas]; it looks at To before From, which changes
    nothing but which of two panics comes first *)
Definition id_from_response_uas (r : resp) : outcome (option dialog_id) :=
  match id_of_headers (p_headers r) with
  | Ret (Some (c, f, t)) => Ret (Some (mkId c t f)) | Ret None => Ret None | Panics => Panics end.

(** 1309-1319 [parse_uri_from_header] *)
Definition parse_uri_from_header (raw : str) : option sip_uri :=
  let t := trim raw in
  match split_once 60 t with
  | Some (_, rest) => match split_once 62 rest with
                      | Some (u, _) => parse_uri (trim u)
                      | None => None
                      end
  | None => match split_on 59 t with
            | u :: _ => parse_uri (trim u)
            | [] => None
            end
  end.
(** 1322-1356 [split_header_values] *)
Fixpoint shv (quotes : bool) (depth : nat) (cur : str) (s : str) : list str :=
  match s with
  | [] => match trim (rev cur) with [] => [] | p => [p] end
  | c :: r =>
      if c =? 34 then shv (negb quotes) depth (c :: cur) r
      else if c =? 60 then shv quotes (S depth) (c :: cur) r
      else if c =? 62 then shv quotes (pred depth) (c :: cur) r
      else if (c =? 44) && negb quotes && (match depth with O => true | _ => false end)
      then match trim (rev cur) with
           | [] => shv quotes depth [] r
           | p => p :: shv quotes depth [] r
           end
      else shv quotes depth (c :: cur) r
  end.
Definition split_header_values (s : str) : list str := shv false O [] s.

(** 1237-1262 [build_route_set] *)
Fixpoint add_routes (vals : list str) (acc : list sip_uri) : result (list sip_uri) dlg_error :=
  match vals with
  | [] => Ok acc
  | v :: r =>
      if MAX_ROUTE_SET_SIZE <=? llen acc then Err ERouteSetTooLarge
      else match parse_uri_from_header v with
           | None => add_routes r acc
           | Some u => match dlg_validate_uri u with
                       | Some e => Err e
                       | None => add_routes r (acc ++ [u])
                       end
           end
  end.
Definition build_route_set (hs : headers) (reverse : bool) : result (list sip_uri) dlg_error :=
  match add_routes (flat_map split_header_values (hget_all (lit "Record-Route") hs)) [] with
  | Err e => Err e
  | Ok rs => Ok (if reverse then rev rs else rs)
  end.
(** 1265-1267 [extract_contact_uri] *)
Definition extract_contact (hs : headers) : option sip_uri :=
  match header_of hs (lit "Contact") with
  | Some v => parse_uri_from_header v
  | None => None
  end.
(** 1270-1276 [parse_cseq_number] *)
Definition parse_cseq_number (hs : headers) : option N :=
  match header_of hs (lit "CSeq") with
  | None => None
  | Some v => match split_ws v with
              | [] => None
              | w :: _ => parse_uint u32_max w
              end
  end.
(** 1279-1290 [extract_session_timer] *)
Definition extract_session_timer (r : resp) : option (N * option refresher) :=
  match header_of (p_headers r) (lit "Session-Expires") with
  | None => None
  | Some v => match se_parse v with
              | Some (n, rf) => Some (n * NS, rf)
              | None => None
              end
  end.

(** 263-304 [Dialog] *)
Record dialog := mkD {
  d_id : dialog_id; d_state : dstate; d_target : sip_uri; d_routes : list sip_uri;
  d_lcseq : N; d_rcseq : N; d_ack : option N; d_luri : sip_uri; d_ruri : sip_uri;
  d_secure : bool; d_expires : option N; d_refresher : option refresher; d_uac : bool }.

(** 315-319, 378-382: the state a response establishes *)
Definition state_of_code (c : N) : option dstate :=
  if in_range 100 199 c then Some Early
  else if in_range 200 299 c then Some Confirmed else None.
Definition no_err (o : option dlg_error) : bool := is_none o.
(** 325-365, 388-428: the common tail of the two constructors; [th] are the
    headers the target and the routes come from *)
Definition dlg_make (uac : bool) (id : dialog_id) (rq : req) (rs : resp) (luri ruri : sip_uri) : option dialog :=
  match state_of_code (p_code rs) with
  | None => None
  | Some st =>
      let th := if uac then p_headers rs else q_headers rq in
      let target := match extract_contact th with Some u => u | None => ruri end in
      if negb (no_err (dlg_validate_uri luri) && no_err (dlg_validate_uri ruri) && no_err (dlg_validate_uri target))
      then None
      else match build_route_set th uac with
      | Err _ => None
      | Ok routes =>
          if is_some (validate_route_set routes) then None
          else match parse_cseq_number (q_headers rq) with
          | None => None
          | Some n =>
              if is_some (validate_cseq n) then None
              else
                let se := extract_session_timer rs in
                if match se with Some (d, _) => is_some (validate_session_expires d) | None => false end then None
                else Some (mkD id st target routes (if uac then n else 0) (if uac then 0 else n) None luri ruri
                               (u_sips luri || u_sips ruri)
                               (match se with Some (d, _) => Some d | None => None end)
                               (match se with Some (_, r) => r | None => None end) uac)
          end
      end
  end.
(** 307-366 [Dialog::new_uac] *)
Definition new_uac (rq : req) (rs : resp) (luri ruri : sip_uri) : outcome (option dialog) :=
  match id_from_response_uac rs with
  | Panics => Panics
  | Ret None => Ret None
  | Ret (Some id) => Ret (dlg_make true id rq rs luri ruri)
  end.
(** 369-429 [Dialog::new_uas] *)
Definition new_uas (rq : req) (rs : resp) (luri ruri : sip_uri) : outcome (option dialog) :=
  match id_from_response_uas rs with
  | Panics => Panics
  | Ret None => Ret None
  | Ret (Some id) => Ret (dlg_make false id rq rs luri ruri)
  end.

Definition set_state (d : dialog) (s : dstate) : dialog :=
  mkD (d_id d) s (d_target d) (d_routes d) (d_lcseq d) (d_rcseq d) (d_ack d) (d_luri d) (d_ruri d)
      (d_secure d) (d_expires d) (d_refresher d) (d_uac d).
Definition set_target (d : dialog) (u : sip_uri) : dialog :=
  mkD (d_id d) (d_state d) u (d_routes d) (d_lcseq d) (d_rcseq d) (d_ack d) (d_luri d) (d_ruri d)
      (d_secure d) (d_expires d) (d_refresher d) (d_uac d).
Definition set_routes (d : dialog) (rs : list sip_uri) : dialog :=
  mkD (d_id d) (d_state d) (d_target d) rs (d_lcseq d) (d_rcseq d) (d_ack d) (d_luri d) (d_ruri d)
      (d_secure d) (d_expires d) (d_refresher d) (d_uac d).
Definition set_timer (d : dialog) (e : option N) (r : option refresher) : dialog :=
  mkD (d_id d) (d_state d) (d_target d) (d_routes d) (d_lcseq d) (d_rcseq d) (d_ack d) (d_luri d) (d_ruri d)
      (d_secure d) e r (d_uac d).
Definition set_rcseq (d : dialog) (n : N) : dialog :=
  mkD (d_id d) (d_state d) (d_target d) (d_routes d) (d_lcseq d) n (d_ack d) (d_luri d) (d_ruri d)
      (d_secure d) (d_expires d) (d_refresher d) (d_uac d).
Definition set_ack (d : dialog) (n : N) : dialog :=
  mkD (d_id d) (d_state d) (d_target d) (d_routes d) (d_lcseq d) (d_rcseq d) (Some n) (d_luri d) (d_ruri d)
      (d_secure d) (d_expires d) (d_refresher d) (d_uac d).
Definition set_lcseq (d : dialog) (n : N) : dialog :=
  mkD (d_id d) (d_state d) (d_target d) (d_routes d) n (d_rcseq d) (d_ack d) (d_luri d) (d_ruri d)
      (d_secure d) (d_expires d) (d_refresher d) (d_uac d).

(** 552-556 [confirm] *)
Definition confirm (d : dialog) : dialog :=
  match d_state d with Early => set_state d Confirmed | _ => d end.
(** 559-561 [terminate] *)
Definition terminate (d : dialog) : dialog := set_state d Terminated.
(** 565-568 [next_local_cseq] (saturating) *)
Definition next_local_cseq (d : dialog) : dialog * N :=
  let n := N.min u32_max (d_lcseq d + 1) in (set_lcseq d n, n).
(** 585-623 [update_from_response] *)
Definition update_from_response (d : dialog) (r : resp) : dialog :=
  let d1 := match extract_contact (p_headers r) with Some u => set_target d u | None => d end in
  let ok := (200 <=? p_code r) && (p_code r <? 300) in
  let d2 := if dstate_eqb (d_state d1) Early && ok then
              match build_route_set (p_headers r) true with
              | Ok (x :: l) => set_routes d1 (x :: l)
              | _ => d1
              end
            else d1 in
  let d3 := match extract_session_timer r with
            | Some (e, rf) => set_timer d2 (Some e) rf
            | None => d2
            end in
  if ok then confirm d3 else d3.
(** 642-674 [update_from_request] *)
Definition update_from_request (d : dialog) (r : req) : dialog * option dlg_error :=
  match parse_cseq_number (q_headers r) with
  | None => (d, Some EMissingHeader)
  | Some n =>
      if n =? 0 then (d, Some EInvalidCSeq)
      else
        let step :=
          if str_eqb (method_str (q_method r)) (lit "ACK") then
            if negb (n =? d_rcseq d) || (d_rcseq d =? 0) then Err EInvalidCSeq
            else Ok (set_ack d n)
          else match validate_cseq n with
               | Some e => Err e
               | None => if 0 <? d_rcseq d then
                           match validate_cseq_increment (d_rcseq d) n with
                           | Some e => Err e
                           | None => Ok (set_rcseq d n)
                           end
                         else Ok (set_rcseq d n)
               end in
        match step with
        | Err e => (d, Some e)
        | Ok d1 => (match extract_contact (q_headers r) with Some u => set_target d1 u | None => d1 end, None)
        end
  end.
(** 542-546 [set_session_expires] *)
Definition set_session_expires (d : dialog) (e : N) : dialog * option dlg_error :=
  match validate_session_expires e with
  | Some err => (d, Some err)
  | None => (set_timer d (Some e) (d_refresher d), None)
  end.
(** 677-683 [needs_refresh]: [Duration * 2] panics on overflow *)
Definition needs_refresh (d : dialog) (elapsed : N) : outcome bool :=
  match d_expires d with
  | None => Ret false
  | Some e => if DUR_MAX <? e * 2 then Panics else Ret (e * 2 / 3 <=? elapsed)
  end.
(** 686-695 [matches_request] *)
Definition matches_request (d : dialog) (r : req) : outcome bool :=
  match id_from_request r with
  | Panics => Panics
  | Ret None => Ret false
  | Ret (Some q) => Ret (str_eqb (di_call q) (di_call (d_id d)) && str_eqb (di_local q) (di_remote (d_id d))
                         && str_eqb (di_remote q) (di_local (d_id d)))
  end.

(** what a program can do with a dialog it holds *)
Inductive dlg_op :=
| OConfirm | OTerminate | ONext | OResponse (r : resp) | ORequest (r : req) | OSetExpires (e : N).
Definition dlg_step (d : dialog) (o : dlg_op) : dialog :=
  match o with
  | OConfirm => confirm d
  | OTerminate => terminate d
  | ONext => fst (next_local_cseq d)
  | OResponse r => update_from_response d r
  | ORequest r => fst (update_from_request d r)
  | OSetExpires e => fst (set_session_expires d e)
  end.
Definition dlg_run (d : dialog) (ops : list dlg_op) : dialog := fold_left dlg_step ops d.

(** ** The table of dialogs: 699-843 [DialogManager].

    [insert] (740-773) takes a lock, reads the size of the map, scans it for
    early dialogs of the Call-ID, then inserts.  [remove], [cleanup_terminated]
    and the readers do not take the lock and may run between these steps, so
    the two numbers it reads may count entries removed since: they are
    arguments of the step, at least as large as the true numbers when the
    insert happens.  Metrics are dropped. *)
Definition dmap := list (dialog_id * dialog).
Definition early_same (id : dialog_id) (e : dialog_id * dialog) : bool :=
  dstate_eqb (d_state (snd e)) Early && str_eqb (di_call (fst e)) (di_call id).
(** 753-765 the filter of the scan *)
Definition early_others (id : dialog_id) (m : dmap) : N :=
  llen (filter (fun e => early_same id e && negb (did_eqb (fst e) id)) m).
(** 745-772 [insert] on an unchanging map *)
Definition dm_insert_seen (len early : N) (m : dmap) (d : dialog) : dmap * option dlg_error :=
  if MAX_CONFIRMED_DIALOGS <=? len then (m, Some ETooManyDialogs)
  else if dstate_eqb (d_state d) Early && (MAX_EARLY_DIALOGS_PER_CALL_ID <=? early)
  then (m, Some ETooManyDialogs)
  else (insert did_eqb (d_id d) d m, None).
Definition dm_insert (m : dmap) (d : dialog) : dmap * option dlg_error :=
  dm_insert_seen (llen m) (early_others (d_id d) m) m d.
(** 777-779 [get] *)
Definition dm_get (m : dmap) (id : dialog_id) : option dialog := lookup did_eqb id m.
(** 782-791 [find_by_request] *)
Definition dm_find (m : dmap) (r : req) : outcome (option dialog) :=
  match id_from_request r with
  | Panics => Panics
  | Ret None => Ret None
  | Ret (Some q) => Ret (dm_get m (mkId (di_call q) (di_remote q) (di_local q)))
  end.
(** 794-800 [remove] *)
Definition dm_remove (m : dmap) (id : dialog_id) : dmap * option dialog :=
  (remove_key did_eqb id m, lookup did_eqb id m).
(** 808-811 [cleanup_terminated] *)
Definition dm_cleanup (m : dmap) : dmap :=
  filter (fun e => negb (dstate_eqb (d_state (snd e)) Terminated)) m.

(** the manager as a concurrent system: the map and the insert in progress *)
Record dsys := mkSys { ds_map : dmap; ds_busy : option dialog }.
Inductive dact :=
| ALock (d : dialog)                     (* a caller of insert takes the lock *)
| AFinish (len early : N)                (* checks done with these readings; insert; unlock *)
| ARemove (id : dialog_id)
| ACleanup.
(** one atomic action; [None] when it cannot happen in this state *)
Definition dsys_step (s : dsys) (a : dact) : option dsys :=
  match a with
  | ALock d => match ds_busy s with None => Some (mkSys (ds_map s) (Some d)) | Some _ => None end
  | AFinish len early =>
      match ds_busy s with
      | None => None
      | Some d => if (llen (ds_map s) <=? len) && (early_others (d_id d) (ds_map s) <=? early)
                  then Some (mkSys (fst (dm_insert_seen len early (ds_map s) d)) None) else None
      end
  | ARemove id => Some (mkSys (fst (dm_remove (ds_map s) id)) (ds_busy s))
  | ACleanup => Some (mkSys (dm_cleanup (ds_map s)) (ds_busy s))
  end.
Fixpoint dsys_run (s : dsys) (acts : list dact) : option dsys :=
  match acts with
  | [] => Some s
  | a :: r => match dsys_step s a with Some s' => dsys_run s' r | None => None end
  end.
