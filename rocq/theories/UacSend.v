(** Model of what the integrated client does to the requests of [Uac] before and
    while they are sent (crates/sip-uac/src/integrated.rs; line numbers are of
    that file).  Name resolution, the transaction layer and the transports are
    not modelled here; a response is an argument. *)
From Coq Require Import NArith Bool String List.
Import ListNotations.
From Verif Require Import Base Headers Method Text Uri Msg Message AnyUri Dialog Auth Uac.
Open Scope N_scope.
Open Scope list_scope.

(** ** Routing inside a dialog *)
Definition route_line (u : sip_uri) : str * str := (lit "Route", angle u).
(** 447-494, 500-547: the request line's URI, the Route headers and the URI the
    request is sent to *)
Definition is_loose (u : sip_uri) : bool := is_some (bget (lit "lr") (u_params u)).
Definition routing (d : dialog) : sip_uri * list (str * str) * sip_uri :=
  match d_routes d with
  | [] => (d_target d, [], d_target d)
  | r :: rest =>
      if is_loose r then (d_target d, map route_line (r :: rest), r)
      else (r, map route_line rest ++ [route_line (d_target d)], r)
  end.
(** 426-494 [prepare_in_dialog_request]: the dialog afterwards, the request and
    the URI to send it to *)
Definition prepare (d : dialog) (q : req) : dialog * outcome (req * sip_uri) :=
  let '(d', n) := next_local_cseq d in
  let '(uri, routes, hop) := routing d in
  (d',
   match push_all (hremove (lit "CSeq") (q_headers q))
           [(lit "CSeq", print_N n ++ lit " " ++ method_str (q_method q))] with
   | Panics => Panics
   | Ret h1 =>
       match push_all (hremove (lit "Route") h1) routes with
       | Panics => Panics
       | Ret h2 => match finish (q_method q) uri h2 (q_body q) with
                   | Ret q' => Ret (q', hop)
                   | Panics => Panics
                   end
       end
   end).
(** 496-548 [apply_route_set_to_request] *)
Definition apply_routes (d : dialog) (q : req) : outcome req :=
  let '(uri, routes, _) := routing d in
  match push_all (hremove (lit "Route") (q_headers q)) routes with
  | Panics => Panics
  | Ret hs => finish (q_method q) uri hs (q_body q)
  end.
(** 549-572 [apply_in_dialog_response]: the dialog afterwards, false for an
    error; storing it in the manager is not modelled *)
Definition in_dialog_response (d : dialog) (r : resp) : dialog * bool :=
  if (200 <=? p_code r) && (p_code r <? 300) then (update_from_response d r, true)
  else if (p_code r =? 408) || (p_code r =? 481) then (terminate d, false)
  else (d, true).

(** ** ACK and CANCEL *)
(** 3495-3647 [send_ack] after a 2xx: [d] is the dialog made from the response,
    [sdp] the generated answer; [f] and [f2] are the random texts drawn by
    [create_ack] and for the Via *)
Definition set_via (q : req) (v : str) : outcome req :=
  match push_all (hremove (lit "Via") (q_headers q)) [(lit "Via", v)] with
  | Panics => Panics
  | Ret hs => Ret (mkReq (q_method q) (q_uri q) hs (q_body q))
  end.
Definition ack_ok (u : uac) (f f2 : fresh) (d : dialog) (invite : req) (rs : resp) (sdp : option str) : outcome req :=
  match mk_ack u f invite rs sdp with
  | Panics => Panics
  | Ret a =>
      match apply_routes d a with
      | Panics => Panics
      | Ret b =>
          match (match hget (lit "Via") (q_headers invite) with
                 | Some v => Some v | None => hget (lit "Via") (q_headers b) end) with
          | Some v => set_via b (replace_branch v (branch_of f2))
          | None => Panics (* not reached: [mk_ack] writes a Via *)
          end
      end
  end.
(** the same after any other final response *)
Definition ack_error (u : uac) (f : fresh) (invite : req) (rs : resp) : outcome req :=
  match mk_ack u f invite rs None with
  | Panics => Panics
  | Ret a =>
      match push_all (hremove (lit "Route") (q_headers a))
              (map (fun v => (lit "Route", v)) (hget_all (lit "Route") (q_headers invite))) with
      | Panics => Panics
      | Ret hs =>
          let b := mkReq (q_method a) (q_uri a) hs (q_body a) in
          match (match hget (lit "Via") (q_headers invite) with
                 | Some v => Some v | None => hget (lit "Via") (q_headers b) end) with
          | Some v => set_via b v
          | None => Panics
          end
      end
  end.
(** 3176-3252 [CallHandle::cancel]: header names are compared exactly *)
Definition cancel_lines (hs : headers) : list (str * str) :=
  flat_map (fun h => let '(n, v) := h in
    if existsb (str_eqb n) [lit "Via"; lit "From"; lit "To"; lit "Call-ID"; lit "Route"] then [(n, v)]
    else if str_eqb n (lit "CSeq") then
      match split_once 32 v with Some (k, _) => [(lit "CSeq", k ++ lit " CANCEL")] | None => [] end
    else []) hs.
Definition cancel_of (invite : req) : outcome req :=
  match push_all [] (cancel_lines (q_headers invite) ++ [max_forwards; zero_length]) with
  | Panics => Panics
  | Ret hs => match request_new MCancel (q_uri invite) hs [] with Some q => Ret q | None => Panics end
  end.

(** ** Retrying with credentials *)
(** 1270-1430 [send_non_invite_request], [retry_with_auth]: how many of the
    responses [rs] the sender waits for, that is how many requests it sends.
    [on] is [auto_retry_auth], [mx] is [max_auth_retries]; every authenticated
    request can be built.  [attempt] is 0 for the first send. *)
Definition challenged (c : N) : bool := (c =? 401) || (c =? 407).
Fixpoint retries (mx attempt : N) (rs : list N) : N :=
  match rs with
  | [] => 1
  | c :: r => 1 + (if challenged c && (attempt <? mx) then retries mx (attempt + 1) r else 0)
  end.
Definition non_invite_sends (on : bool) (mx : N) (rs : list N) : N :=
  match rs with
  | [] => 1
  | c :: r => 1 + (if challenged c && on then retries mx 1 r else 0)
  end.
(** 3435-3460 [on_final] of an INVITE: the attempt counter starts at 0 *)
Definition invite_sends (on : bool) (mx : N) (rs : list N) : N :=
  if on then retries mx 0 rs else 1.

(** ** A dialog shared between its owner and the session timer *)
(** 844-880 [start_session_timer], 3106-3150 [refresh_shared_session],
    [commit_advanced_dialog].  Each action is what happens under one hold of the
    dialog's lock, or one send.  Only the local CSeq of the dialog matters; [tag]
    stands for the rest of it (the remote target, the state). *)
Record shared := mkShared { sh_cseq : N; sh_tag : N }.
Inductive refresh := Reserved (c : shared) | InFlight (c : shared).
Record world := mkWorld {
  w_dialog : shared;
  w_tasks : list (N * refresh);     (* refreshes under way, by name *)
  w_wire : list N }.                (* CSeq numbers sent, newest first *)
Definition bump (c : shared) : shared := mkShared (N.min u32_max (sh_cseq c + 1)) (sh_tag c).
Inductive action :=
| AReserve (t : N)                  (* 3116-3121: clone, then advance the shared dialog *)
| ARefreshSend (t : N)              (* 3122-3124: the clone is advanced and the request sent *)
| ACommit (t : N) (tag : N)         (* 3125, 3137-3150, after a response that may have changed the clone *)
| AOwnerSend                        (* the owner sends an in-dialog request, holding the lock *)
| AOwnerBye                         (* 2137-2170 [bye]: sends on a clone, the dialog keeps its CSeq *)
| AChallenged (t : N).              (* 1342-1430: a refresh was challenged and repeated with the next number *)
Definition task (w : world) (t : N) : option refresh := lookup N.eqb t (w_tasks w).
Definition put_task (w : world) (t : N) (r : refresh) : list (N * refresh) := insert N.eqb t r (w_tasks w).
Definition drop_task (w : world) (t : N) : list (N * refresh) := remove_key N.eqb t (w_tasks w).
Definition act (w : world) (a : action) : world :=
  match a with
  | AReserve t => match task w t with
                  | None => mkWorld (bump (w_dialog w)) (put_task w t (Reserved (w_dialog w))) (w_wire w)
                  | Some _ => w
                  end
  | ARefreshSend t => match task w t with
                      | Some (Reserved c) => mkWorld (w_dialog w) (put_task w t (InFlight (bump c))) (sh_cseq (bump c) :: w_wire w)
                      | _ => w
                      end
  | ACommit t tag => match task w t with
                     | Some (InFlight c) =>
                         mkWorld (if sh_cseq (w_dialog w) <=? sh_cseq c then mkShared (sh_cseq c) tag else w_dialog w)
                                 (drop_task w t) (w_wire w)
                     | _ => w
                     end
  | AOwnerSend => mkWorld (bump (w_dialog w)) (w_tasks w) (sh_cseq (bump (w_dialog w)) :: w_wire w)
  | AOwnerBye => mkWorld (w_dialog w) (w_tasks w) (sh_cseq (bump (w_dialog w)) :: w_wire w)
  | AChallenged t => match task w t with
                     | Some (InFlight c) => mkWorld (w_dialog w) (w_tasks w) (sh_cseq c + 1 :: w_wire w)
                     | _ => w
                     end
  end.
Definition acts (w : world) (l : list action) : world := fold_left act l w.

(** ** The session timer *)
(** 3004-3078 [run_session_timer]: one tick.  [RefreshOk] is a 2xx; otherwise
    [gone] says whether the dialog is now terminated *)
Inductive tick := RefreshOk | RefreshFailed (gone : bool).
Inductive timer_state := Healthy | Failing (n : N) | Stopped_gone | Stopped_exhausted (n : N).
(** the states published, one per tick; nothing after the timer stopped *)
Fixpoint timer_run (mx consecutive : N) (l : list tick) : list timer_state :=
  match l with
  | [] => []
  | RefreshOk :: r => Healthy :: timer_run mx 0 r
  | RefreshFailed gone :: r =>
      let c := N.min u32_max (consecutive + 1) in
      if gone then [Stopped_gone]
      else if N.max 1 mx <=? c then [Stopped_exhausted c]
      else Failing c :: timer_run mx c r
  end.

(** ** Filling in the local address *)
(** 1120-1153 [fill_via_header] and 361-372 [build_via_value]: the branch is the
    text between the first "branch=" and the next one, up to a semicolon *)
Definition via_branch_text (v : str) : option str :=
  match find_sub (lit "branch=") v with
  | None => None
  | Some (_, r) =>
      let piece := match find_sub (lit "branch=") r with Some (x, _) => x | None => r end in
      match trim (match split_once 59 piece with Some (x, _) => x | None => piece end) with
      | [] => None
      | b => Some b
      end
  end.
Definition fill_via (f : fresh) (transport addr : str) (q : req) : req :=
  match hget (lit "Via") (q_headers q) with
  | None => q
  | Some v =>
      let b := match via_branch_text v with Some b => b | None => branch_of f end in
      match hset_or_push (q_headers q) (lit "Via")
              (lit "SIP/2.0/" ++ transport ++ lit " " ++ addr ++ lit ";branch=" ++ b ++ lit ";rport") with
      | Ok hs => mkReq (q_method q) (q_uri q) hs (q_body q)
      | Err _ => q
      end
  end.
(** 1156-1230 [fill_contact_header] without the outbound extension: the new
    value of a Contact *)
Definition filled_contact (addr : str) (c : str) : option str :=
  match find_sub (lit "sip:") c with
  | None => None
  | Some (_, after) =>
      let user := match split_once 64 after with Some (x, _) => x | None => [] end in
      let base := match user with
                  | [] => lit "<sip:" ++ addr ++ lit ">"
                  | _ => lit "<sip:" ++ user ++ lit "@" ++ addr ++ lit ">"
                  end in
      Some (base ++ match find_sub (lit ">;") c with Some (_, r) => lit ";" ++ r | None => [] end)
  end.
Definition fill_contact (addr : str) (q : req) : req :=
  match hget (lit "Contact") (q_headers q) with
  | None => q
  | Some c => match filled_contact addr c with
              | None => q
              | Some v => match hset_or_push (q_headers q) (lit "Contact") v with
                          | Ok hs => mkReq (q_method q) (q_uri q) hs (q_body q)
                          | Err _ => q
                          end
              end
  end.
