(** Model of the user agent server (crates/sip-uas/src/lib.rs; line numbers
    below are of that file unless another file is named).

    Random tags, branches and initial sequence numbers are arguments, and so is
    the verdict of the authenticator.  Every [unwrap] and [expect] is a possible
    panic.  Log lines are dropped.  The managers behind the server's locks are
    fields of its state. *)
From Coq Require Import NArith Bool String List.
Import ListNotations.
From Verif Require Import Base Headers Method Text Uri Msg Message Dialog Prack SessionTimer Uac.
Open Scope N_scope.
Open Scope list_scope.

Definition obind {A B : Type} (o : outcome A) (f : A -> outcome B) : outcome B :=
  match o with Ret a => f a | Panics => Panics end.
(** [Result] inside an outcome: [None] is an error *)
Definition rbind {A B : Type} (o : outcome (option A)) (f : A -> outcome (option B)) : outcome (option B) :=
  match o with Ret (Some a) => f a | Ret None => Ret None | Panics => Panics end.
(** [.unwrap()] / [.expect(..)] on the result of a header operation *)
Definition unwrap {A E : Type} (r : result A E) : outcome A := match r with Ok a => Ret a | Err _ => Panics end.
Definition contains (p s : str) : bool := is_some (find_sub p s).

(** 39-46 limits *)
Definition MAX_REASON_PHRASE : N := 128.
Definition MAX_ETAG : N := 256.
Definition UAS_MAX_BODY : N := 1048576.
(** 102-143 [validate_reason_phrase], [validate_sip_etag], [validate_body] *)
Definition reason_ok (s : str) : bool := short_text MAX_REASON_PHRASE s.
Definition etag_ok (s : str) : bool := short_text MAX_ETAG s.
Definition sdp_ok (s : option str) : bool := match s with Some b => blen b <=? UAS_MAX_BODY | None => true end.

(** sip-dialog lib.rs:1365-1370 [SubscriptionId]; the subscription of Uac.v with
    its expiry in seconds.  The state stays Active here. *)
Definition sub_id := (str * str * str * str)%type.
Definition sid_eqb (a b : sub_id) : bool :=
  let '(c, f, t, e) := a in let '(c', f', t', e') := b in
  str_eqb c c' && str_eqb f f' && str_eqb t t' && str_eqb e e'.
Definition sid_of (s : subscription) : sub_id := (sb_call s, sb_from s, sb_to s, sb_event s).
Record notifier := mkNtf { nt_sub : subscription; nt_expires : N }.
Definition smap := list (sub_id * notifier).
(** sip-dialog lib.rs:41 *)
Definition MAX_SUBSCRIPTIONS : N := 10000.
(** sip-dialog lib.rs:1673-1686 [SubscriptionManager::insert]; [None] is an error *)
Definition sm_insert (m : smap) (s : notifier) : option smap :=
  if MAX_SUBSCRIPTIONS <=? llen m then None else Some (insert sid_eqb (sid_of (nt_sub s)) s m).

(** 226-246 [UserAgentServer] without its authenticator *)
Record uas := mkUas {
  us_local : sip_uri; us_contact : sip_uri; us_dialogs : dmap; us_subs : smap;
  us_rseq : rseq_mgr; us_prack : pval }.
(** 250-260 [new] *)
Definition uas_new (local contact : sip_uri) : uas := mkUas local contact [] [] [] pv_empty.
Definition put_dialogs (s : uas) (m : dmap) : uas :=
  mkUas (us_local s) (us_contact s) m (us_subs s) (us_rseq s) (us_prack s).
Definition put_subs (s : uas) (m : smap) : uas :=
  mkUas (us_local s) (us_contact s) (us_dialogs s) m (us_rseq s) (us_prack s).
Definition put_rseq (s : uas) (m : rseq_mgr) : uas :=
  mkUas (us_local s) (us_contact s) (us_dialogs s) (us_subs s) m (us_prack s).
Definition put_prack (s : uas) (v : pval) : uas :=
  mkUas (us_local s) (us_contact s) (us_dialogs s) (us_subs s) (us_rseq s) v.

(** The configured authenticator as this request finds it: none, an error of
    [verify], or its answer.  929-936 [verify_authentication]; [None] is an
    error *)
Inductive auth_verdict := NoAuth | AuthFails | AuthSays (ok : bool).
Definition verify_authentication (a : auth_verdict) : option bool :=
  match a with NoAuth => Some true | AuthFails => None | AuthSays b => Some b end.
(** 625-632, 700-706, 951-958: the test in the accepting calls *)
Definition authorised (a : auth_verdict) : bool := match verify_authentication a with Some b => b | None => false end.

(** ** Tags of To *)
(** 1521-1548 [ensure_to_tag_header]: the name is compared byte by byte *)
Definition exact_to (hs : headers) : option str :=
  match find (fun h => str_eqb (fst h) (lit "To")) hs with Some h => Some (snd h) | None => None end.
Definition ensure_to_tag (tag : str) (hs : headers) : outcome headers :=
  match exact_to hs with
  | None => Ret hs
  | Some t => if contains (lit ";tag=") t then Ret hs
              else unwrap (hset_or_push hs (lit "To") (t ++ lit ";tag=" ++ tag))
  end.
(** 1494-1518 [replace_to_tag] *)
Definition strip_tag (t : str) : str :=
  match find_sub (lit ";tag=") t with
  | Some (before, after) =>
      before ++ match split_once 59 after with Some (_, rest) => 59 :: rest | None => [] end
  | None => t
  end.
Definition replace_to_tag (tag : str) (hs : headers) : outcome headers :=
  match exact_to hs with
  | None => Ret hs
  | Some t => unwrap (hset_or_push hs (lit "To") (strip_tag t ++ lit ";tag=" ++ tag))
  end.

(** ** Responses *)
(** 285-327: the headers taken over from the request *)
Definition copied (rq : req) : list (str * str) :=
  let hs := q_headers rq in
  map (fun v => ln "Via" v) (hget_all (lit "Via") hs)
  ++ opt_line "From" (hget (lit "From") hs)
  ++ opt_line "Call-ID" (hget (lit "Call-ID") hs)
  ++ opt_line "CSeq" (hget (lit "CSeq") hs)
  ++ opt_line "To" (hget (lit "To") hs)
  ++ map (fun v => ln "Record-Route" v) (hget_all (lit "Record-Route") hs).
(** 328-345 *)
Definition create_response (rq : req) (code : N) (reason tag : str) : outcome resp :=
  obind (push_all [] (copied rq ++ [zero_length])) (fun hs =>
  match status_new code reason with
  | None => Panics
  | Some _ =>
      match response_new code reason hs [] with
      | None => Panics
      | Some r => if code =? 100 then Ret r
                  else obind (ensure_to_tag tag hs) (fun hs' => Ret (mkResp code reason hs' []))
      end
  end).
(** [ensure_to_tag] once more on a response (it would draw a new tag; there is
    nothing left for it to do, so the same argument serves) *)
Definition retag (tag : str) (r : resp) : outcome resp :=
  obind (ensure_to_tag tag (p_headers r)) (fun hs => Ret (mkResp (p_code r) (p_reason r) hs (p_body r))).
Definition push_line (l : str * str) (r : resp) : outcome resp :=
  obind (unwrap (hpush (p_headers r) (fst l) (snd l))) (fun hs => Ret (mkResp (p_code r) (p_reason r) hs (p_body r))).
Definition set_line (l : str * str) (r : resp) : outcome resp :=
  obind (unwrap (hset_or_push (p_headers r) (fst l) (snd l))) (fun hs => Ret (mkResp (p_code r) (p_reason r) hs (p_body r))).
Definition contact_line (s : uas) : str * str := ln "Contact" (angle (us_contact s)).
(** 391-417, 1292-1315: the body of a response *)
Definition with_sdp (b : option str) (r : resp) : outcome resp :=
  match b with
  | None => Ret r
  | Some x =>
      obind (set_line (length_line x) r) (fun r1 =>
      obind (push_line (ln "Content-Type" (lit "application/sdp")) r1) (fun r2 =>
      match response_new (p_code r2) (p_reason r2) (p_headers r2) (utf8 x) with
      | Some r3 => Ret r3
      | None => Panics
      end))
  end.

(** 348-360 [create_trying], [create_ringing] *)
Definition create_trying (rq : req) (tag : str) : outcome resp := create_response rq 100 (lit "Trying") tag.
Definition create_ringing (rq : req) (tag : str) : outcome resp :=
  obind (create_response rq 180 (lit "Ringing") tag) (retag tag).
(** 367-420 [create_ok]; [None] is [UasError] *)
Definition create_ok (s : uas) (rq : req) (body : option str) (tag : str) : outcome (option resp) :=
  if negb (sdp_ok body) then Ret None
  else obind (create_response rq 200 (lit "OK") tag) (fun r =>
       obind (push_line (contact_line s) r) (fun r1 =>
       obind (retag tag r1) (fun r2 =>
       obind (with_sdp body r2) (fun r3 => Ret (Some r3))))).
(** 423-427 [accept_message], 916-925 [handle_cancel] without its method test *)
Definition plain_ok (rq : req) (tag : str) : outcome resp := create_response rq 200 (lit "OK") tag.
(** 430-450 [accept_publish] *)
Definition accept_publish (rq : req) (etag : option str) (tag : str) : outcome (option resp) :=
  if negb (match etag with Some e => etag_ok e | None => true end) then Ret None
  else obind (plain_ok rq tag) (fun r =>
       match etag with
       | Some e => obind (push_line (ln "SIP-ETag" e) r) (fun r' => Ret (Some r'))
       | None => Ret (Some r)
       end).
(** 458-496 [accept_options] *)
Definition BASE_ALLOW : str := lit "INVITE, ACK, BYE, CANCEL, OPTIONS".
Definition accept_options (rq : req) (tag : str) : outcome resp :=
  obind (plain_ok rq tag) (fun r =>
  obind (set_line (ln "Allow" BASE_ALLOW) r) (fun r1 =>
  set_line (ln "Accept" (lit "application/sdp")) r1)).
(** 452-456 [reject_message_publish], 798-802 [reject_invite], 1187-1190
    [reject_refer], 1392-1396 [create_bad_request], 510-526 the busy, decline and
    request-terminated responses: a response and, but for two of them, the tag again *)
Definition reject (rq : req) (code : N) (reason tag : str) : outcome resp :=
  obind (create_response rq code reason tag) (retag tag).
Definition create_busy (rq : req) (tag : str) := reject rq 486 (lit "Busy Here") tag.
Definition create_decline (rq : req) (tag : str) := reject rq 603 (lit "Decline") tag.
Definition create_request_terminated (rq : req) (tag : str) := reject rq 487 (lit "Request Terminated") tag.
Definition create_bad_request (rq : req) (tag : str) := reject rq 400 (lit "Bad Request") tag.
(** 529-541 [create_request_terminated_from_cancel] *)
Definition terminated_from_cancel (rq : req) (tag : str) : outcome resp :=
  obind (create_request_terminated rq tag) (fun r =>
  match hget (lit "CSeq") (q_headers rq) with
  | None => Ret r
  | Some v => set_line (ln "CSeq" (match split_ws v with w :: _ => w | [] => lit "0" end ++ lit " INVITE")) r
  end).
(** 551-566 [create_session_interval_too_small] *)
Definition create_422 (rq : req) (min_se : N) (tag : str) : outcome resp :=
  obind (create_response rq 422 (lit "Session Interval Too Small") tag) (fun r =>
  obind (push_line (ln "Min-SE" (print_N min_se)) r) (retag tag)).
(** seconds of a duration as [as u32] keeps them *)
Definition secs_u32 (d : N) : N := (d / NS) mod 4294967296.
(** 573-596 [validate_session_timer]: [Some] is the response to send *)
Definition requested_se (rq : req) : option (N * option refresher) :=
  match header_of (q_headers rq) (lit "Session-Expires") with Some v => se_parse v | None => None end.
Definition validate_session_timer (rq : req) (min_se : option N) (tag : str) : outcome (option resp) :=
  match requested_se rq with
  | Some (n, _) =>
      match tm_validate (n * NS) min_se with
      | Err m => obind (create_422 rq (secs_u32 m) tag) (fun r => Ret (Some r))
      | Ok _ => Ret None
      end
  | None => Ret None
  end.

(** ** Accepting calls *)
(** 1371-1390 [validate_invite_headers]: [Some] is the response to send *)
Definition required_headers : list str := map lit ["Via"; "From"; "To"; "Call-ID"; "CSeq"]%string.
Definition validate_invite (rq : req) (tag : str) : outcome (option resp) :=
  let bad := obind (create_bad_request rq tag) (fun r => Ret (Some r)) in
  if negb (str_eqb (method_str (q_method rq)) (lit "INVITE")) then Ret None
  else if existsb (fun n => is_none (hget n (q_headers rq))) required_headers then bad
  else match header_of (q_headers rq) (lit "From") with
       | None => bad
       | Some f => match extract_tag f with
                   | Panics => Panics
                   | Ret None => bad
                   | Ret (Some _) => Ret None
                   end
       end.
(** 1550-1573 [extract_from_uri]; [None] is an error *)
Definition from_uri (rq : req) : option sip_uri :=
  match header_of (q_headers rq) (lit "From") with
  | None => None
  | Some f =>
      match split_once 60 f with
      | Some (_, rest) => match split_once 62 rest with
                          | Some (u, _) => parse_uri (trim u)
                          | None => None
                          end
      | None => match split_once 59 f with
                | Some (u, _) => parse_uri (trim u)
                | None => parse_uri (trim f)
                end
      end
  end.
(** 654-655, 786: the dialog is stored; an error is ignored *)
Definition store (s : uas) (d : dialog) : uas := put_dialogs s (fst (dm_insert (us_dialogs s) d)).
(** 607-623, 694-706: what the two accepting calls test first; the 400 they
    build is thrown away *)
Definition invite_admitted (a : auth_verdict) (rq : req) (tag : str) : outcome bool :=
  if negb (str_eqb (method_str (q_method rq)) (lit "INVITE")) then Ret false
  else obind (validate_invite rq tag) (fun o => Ret (is_none o && authorised a)).
(** 613-663 [accept_invite]; [None] is an error *)
Definition accept_invite (s : uas) (a : auth_verdict) (rq : req) (sdp : option str) (tag : str)
  : outcome (option (uas * resp * dialog)) :=
  obind (invite_admitted a rq tag) (fun ok =>
  if negb ok then Ret None
  else obind (create_ok s rq sdp tag) (fun r =>
       match from_uri rq with
       | None => Ret None
       | Some ru =>
           match r with
           | None => Ret None
           | Some r => rbind (new_uas rq r (us_local s) ru) (fun d => Ret (Some (store s d, r, d)))
           end
       end)).

(** 155-184 [SessionTimerPolicy]; durations in nanoseconds *)
Record policy := mkPolicy { po_min : N; po_pref : option N; po_force : option refresher }.
(** 196-211 [AcceptInviteOutcome] *)
Inductive invite_outcome :=
| Accepted (s : uas) (r : resp) (d : dialog) (timer : option (N * refresher))
| TooSmall (r : resp) (required : N).
(** 713-719 the peer's Min-SE *)
Definition remote_min_se (rq : req) : option N :=
  match header_of (q_headers rq) (lit "Min-SE") with
  | Some v => match min_se_parse v with Some n => Some (n * NS) | None => None end
  | None => None
  end.
(** 757-775: the timer headers of the 2xx; a failing push is an error *)
Definition with_timer (t : option (N * refresher)) (r : resp) : option resp :=
  match t with
  | None => Some r
  | Some (n, w) =>
      match hpush (p_headers r) (lit "Session-Expires") (se_print (n / NS) (Some w)) with
      | Err _ => None
      | Ok hs => match hpush hs (lit "Require") (lit "timer") with
                 | Err _ => None
                 | Ok hs' => Some (mkResp (p_code r) (p_reason r) hs' (p_body r))
                 end
      end
  end.
(** 685-795 [accept_invite_with_session_timer] *)
Definition accept_invite_timer (s : uas) (a : auth_verdict) (rq : req) (sdp : option str) (p : policy) (tag : str)
  : outcome (option invite_outcome) :=
  obind (invite_admitted a rq tag) (fun ok =>
  if negb ok then Ret None
  else
    let accept (t : option (N * refresher)) :=
      rbind (create_ok s rq sdp tag) (fun r =>
      match with_timer t r with
      | None => Ret None
      | Some r' =>
          match from_uri rq with
          | None => Ret None
          | Some ru => rbind (new_uas rq r' (us_local s) ru) (fun d => Ret (Some (Accepted (store s d) r' d t)))
          end
      end) in
    match requested_se rq with
    | None => accept None
    | Some (n, hint) =>
        match negotiate (n * NS) (po_min p) (remote_min_se rq) (po_pref p) with
        | Err m => obind (create_422 rq (secs_u32 m) tag) (fun r => Ret (Some (TooSmall r m)))
        | Ok v => accept (Some (v, match po_force p with Some w => w | None => match hint with Some w => w | None => RUac end end))
        end
    end).

(** ** Inside dialogs *)
(** 1465-1490 [validate_dialog_request]; [Some] is accepted *)
Definition dialog_request (rq : req) (d : dialog) : outcome bool :=
  match header_of (q_headers rq) (lit "Call-ID") with
  | None => Ret false
  | Some c =>
      if negb (str_eqb c (di_call (d_id d))) then Ret false
      else match header_of (q_headers rq) (lit "From"), header_of (q_headers rq) (lit "To") with
           | Some f, Some t =>
               match extract_tag f with
               | Panics => Panics
               | Ret None => Ret false
               | Ret (Some ft) =>
                   match extract_tag t with
                   | Panics => Panics
                   | Ret None => Ret false
                   | Ret (Some tot) => Ret (str_eqb ft (di_remote (d_id d)) && str_eqb tot (di_local (d_id d)))
                   end
               end
           | _, _ => Ret false
           end
  end.
(** the tests all in-dialog handlers start with: the method, then the identifiers *)
Definition inside (m : string) (rq : req) (d : dialog) : outcome bool :=
  if negb (str_eqb (method_str (q_method rq)) (lit m)) then Ret false else dialog_request rq d.
(** 850-870 [handle_bye]: the dialog is removed before the response is built *)
Definition handle_bye (s : uas) (rq : req) (d : dialog) (tag : str) : outcome (option (uas * resp)) :=
  obind (inside "BYE" rq d) (fun ok =>
  if negb ok then Ret None
  else let s' := put_dialogs s (fst (dm_remove (us_dialogs s) (d_id d))) in
       rbind (create_ok s' rq None tag) (fun r => Ret (Some (s', r)))).
(** 888-907 [handle_info] *)
Definition handle_info (s : uas) (rq : req) (d : dialog) (tag : str) : outcome (option resp) :=
  obind (inside "INFO" rq d) (fun ok => if negb ok then Ret None else create_ok s rq None tag).
(** 916-925 [handle_cancel] *)
Definition handle_cancel (rq : req) (tag : str) : outcome (option resp) :=
  if negb (str_eqb (method_str (q_method rq)) (lit "CANCEL")) then Ret None
  else obind (plain_ok rq tag) (fun r => Ret (Some r)).
(** 1146-1184 [accept_refer] *)
Definition accept_refer (s : uas) (rq : req) (d : dialog) (tag : str) : outcome (option (resp * str)) :=
  obind (inside "REFER" rq d) (fun ok =>
  if negb ok then Ret None
  else match header_of (q_headers rq) (lit "Refer-To") with
       | None => Ret None
       | Some t => obind (create_response rq 202 (lit "Accepted") tag) (fun r =>
                   obind (push_line (contact_line s) r) (fun r1 =>
                   obind (retag tag r1) (fun r2 => Ret (Some (r2, t)))))
       end).

(** ** Reliable provisional responses *)
(** 1460-1462 [dialog_id_key] *)
Definition id_key (i : dialog_id) : str := di_call i ++ lit ":" ++ di_local i ++ lit ":" ++ di_remote i.
(** 1273-1290: the registration, when the request's CSeq can be read *)
Definition register_reliable (s : uas) (rq : req) (d : dialog) (rseq code now : N) : uas :=
  match parse_cseq_number (q_headers rq) with
  | None => s
  | Some n => let k := id_key (d_id d) in
              put_prack s (pv_push (pv_cleanup (us_prack s) k now) k (mkPend rseq n (q_method rq) code false now))
  end.
(** 1219-1318 [create_reliable_provisional]; [rnd] is the random number drawn
    for the first one of a dialog, [now] the time *)
Definition create_reliable (s : uas) (rq : req) (d : dialog) (code : N) (reason : str) (sdp : option str)
    (tag : str) (rnd now : N) : outcome (option (uas * resp)) :=
  if negb (in_range 100 199 code) then Panics
  else if negb (reason_ok reason && sdp_ok sdp) then Ret None
  else obind (create_response rq code reason tag) (fun r =>
       let '(m, rseq) := next_rseq rnd (d_id d) (us_rseq s) in
       let s1 := put_rseq s m in
       obind (push_line (ln "RSeq" (print_N rseq)) r) (fun r1 =>
       obind (push_line (ln "Require" (lit "100rel")) r1) (fun r2 =>
       obind (push_line (contact_line s) r2) (fun r3 =>
       obind (replace_to_tag (di_local (d_id d)) (p_headers r3)) (fun hs =>
       let s2 := register_reliable s1 rq d rseq code now in
       obind (with_sdp sdp (mkResp (p_code r3) (p_reason r3) hs (p_body r3))) (fun r4 => Ret (Some (s2, r4)))))))).

(** sip-dialog prack_validator.rs:203-266: why [validate_prack] refuses, as the
    text of its error.  Of the texts after "Invalid RSeq in RAck: " and the like
    only the part in the program's words is kept (an integer parse error says
    nothing of interest) *)
Definition prack_error (v : pval) (dlg : str) (hs : headers) : str :=
  match hget (lit "RAck") hs with
  | None => lit "PRACK missing RAck header"
  | Some t =>
      match split_ws t with
      | [a; b; c] =>
          match parse_uint u32_max a, parse_uint u32_max b, parse_std_method c with
          | None, _, _ => lit "Invalid RSeq in RAck: "
          | _, None, _ => lit "Invalid CSeq in RAck: "
          | _, _, None => lit "Invalid method in RAck: " ++ c
          | Some r, Some q, Some m =>
              match lookup str_eqb dlg (pv_pending v) with
              | None => lit "No pending reliable provisionals for dialog " ++ dlg
              | Some l =>
                  match find (fun p => pe_rseq p =? r) l with
                  | None => lit "RAck RSeq " ++ print_N r ++ lit " does not match any pending reliable provisional"
                  | Some p =>
                      if negb (pe_cseq p =? q)
                      then lit "RAck CSeq " ++ print_N q ++ lit " does not match provisional CSeq " ++ print_N (pe_cseq p)
                      else if negb (method_eqb (pe_method p) m) then lit "RAck method does not match provisional method"
                      else lit "Duplicate PRACK for RSeq " ++ print_N r ++ lit " (already acknowledged)"
                  end
              end
          end
      | _ => lit "Invalid RAck format: expected 'rseq cseq method', got '" ++ t ++ lit "'"
      end
  end.
(** 1340-1352: the status a text leads to *)
Definition prack_is_400 (e : str) : bool :=
  existsb (fun p => contains p e) (map lit ["missing RAck"; "Invalid RAck"; "does not match"; "Duplicate PRACK"]%string).
(** 1327-1361 [handle_prack] *)
Definition handle_prack (s : uas) (rq : req) (d : dialog) (tag : str) (now : N) : outcome (option (uas * resp)) :=
  obind (inside "PRACK" rq d) (fun ok =>
  if negb ok then Ret None
  else
    let k := id_key (d_id d) in
    let v := pv_cleanup (us_prack s) k now in
    match pv_check v k (q_headers rq) with
    | (v', Some _) => rbind (create_ok s rq None tag) (fun r => Ret (Some (put_prack s v', r)))
    | (_, None) =>
        obind (if prack_is_400 (prack_error v k (q_headers rq))
               then create_response rq 400 (lit "Bad Request") tag
               else create_response rq 481 (lit "Call/Transaction Does Not Exist") tag)
              (fun r => Ret (Some (put_prack s v, r)))
    end).

(** ** Subscriptions *)
(** sip-dialog lib.rs:1467-1473 [from_request_response], 1497-1530 [new_notifier] *)
Definition new_notifier (rq : req) (rs : resp) (luri ruri : sip_uri) : outcome (option notifier) :=
  match header_of (q_headers rq) (lit "Call-ID") with
  | None => Ret None
  | Some c =>
  match header_of (q_headers rq) (lit "From") with
  | None => Ret None
  | Some f =>
  rbind (extract_tag f) (fun ft =>
  match header_of (p_headers rs) (lit "To") with
  | None => Ret None
  | Some t =>
  rbind (extract_tag t) (fun tot =>
  match header_of (q_headers rq) (lit "Event"), extract_contact (p_headers rs), parse_cseq_number (q_headers rq) with
  | Some e, Some contact, Some n =>
      if is_some (validate_cseq n) then Ret None
      else
        let sub := mkSub c ft tot e luri ruri contact n in
        match header_of (p_headers rs) (lit "Expires") with
        | Some x => Ret (match parse_uint u64_max x with Some k => Some (mkNtf sub k) | None => None end)
        | None =>
            match header_of (q_headers rq) (lit "Expires") with
            | Some x => Ret (match parse_uint u64_max x with Some k => Some (mkNtf sub k) | None => None end)
            | None => Ret (Some (mkNtf sub 3600))
            end
        end
  | _, _, _ => Ret None
  end)
  end)
  end
  end.
(** 969-976 the granted expiry *)
Definition granted (rq : req) (expires : option N) : N :=
  match expires with
  | Some n => n
  | None => match hget (lit "Expires") (q_headers rq) with
            | Some v => match parse_uint u32_max v with Some n => n | None => 3600 end
            | None => 3600
            end
  end.
(** 938-1003 [accept_subscribe] *)
Definition accept_subscribe (s : uas) (a : auth_verdict) (rq : req) (expires : option N) (tag : str)
  : outcome (option (uas * resp * notifier)) :=
  if negb (str_eqb (method_str (q_method rq)) (lit "SUBSCRIBE")) then Ret None
  else if negb (authorised a) then Ret None
  else obind (plain_ok rq tag) (fun r =>
       obind (push_line (contact_line s) r) (fun r1 =>
       obind (push_line (ln "Expires" (print_N (granted rq expires))) r1) (fun r2 =>
       obind (retag tag r2) (fun r3 =>
       match from_uri rq with
       | None => Ret None
       | Some ru =>
           rbind (new_notifier rq r3 (us_local s) ru) (fun n =>
           Ret (Some (match sm_insert (us_subs s) n with Some m => put_subs s m | None => s end, r3, n)))
       end)))).
(** 1016-1136 [create_notify_sipfrag]: the Via comes from the server's contact
    address; [next_local_cseq] overflows at the largest number (a panic where
    overflow is checked) *)
Definition sipfrag_state (code : N) : str :=
  if in_range 200 299 code then lit "terminated;reason=noresource"
  else if 300 <=? code then lit "terminated;reason=rejected" else lit "active".
Definition server_via (s : uas) (branch : str) : str :=
  lit "SIP/2.0/" ++ match bget (lit "transport") (u_params (us_contact s)) with Some (Some v) => upper v | _ => lit "UDP" end
  ++ lit " " ++ u_host (us_contact s)
  ++ match u_port (us_contact s) with Some p => lit ":" ++ print_N p | None => [] end
  ++ lit ";branch=z9hG4bK" ++ branch.
Definition bump_sub (n : notifier) : notifier :=
  let s := nt_sub n in
  mkNtf (mkSub (sb_call s) (sb_from s) (sb_to s) (sb_event s) (sb_local s) (sb_remote s) (sb_contact s) (sb_lcseq s + 1)) (nt_expires n).
Definition notify_sipfrag (s : uas) (n : notifier) (code : N) (reason branch : str) : outcome (option (notifier * req)) :=
  if negb (reason_ok reason) then Ret None
  else
    let b := nt_sub n in
    if u32_max <=? sb_lcseq b then Panics
    else
      let body := lit "SIP/2.0 " ++ print_N code ++ lit " " ++ reason ++ [13; 10] in
      obind (assemble MNotify (sb_contact b)
        [ln "Via" (server_via s branch); ln "From" (tagged (us_local s) (sb_to b)); ln "To" (tagged (sb_remote b) (sb_from b));
         ln "Call-ID" (sb_call b); ln "CSeq" (print_N (sb_lcseq b + 1) ++ lit " NOTIFY"); contact_line s;
         ln "Event" (sb_event b); ln "Subscription-State" (sipfrag_state code);
         ln "Content-Type" (lit "message/sipfrag;version=2.0"); length_line body; max_forwards] (utf8 body))
      (fun q => Ret (Some (bump_sub n, q))).
