(** Model of the user agent client's request builders
    (crates/sip-uac/src/lib.rs; line numbers below are of that file unless
    another file is named).

    Random identifiers are arguments.  Every [headers.push(..).unwrap()] and
    [Request::new(..).expect(..)] is a possible panic.  Log lines are dropped. *)
From Coq Require Import NArith Bool String List.
Import ListNotations.
From Verif Require Import Base Headers Method Text Uri Msg Message AnyUri Dialog Auth.
Open Scope N_scope.
Open Scope list_scope.

(** 40-51 limits *)
Definition MAX_DISPLAY_NAME : N := 100.
Definition MAX_EVENT_NAME : N := 64.
Definition MAX_CONTENT_TYPE : N := 128.
Definition UAC_MAX_BODY : N := 1048576.
Definition MAX_REGISTRARS : N := 100.
Definition MAX_USER_AGENT : N := 256.
Definition MAX_AUTH_PARAMS : N := 20.

(** 144-194 [validate_user_agent], [validate_display_name],
    [validate_event_name], [validate_content_type]: no more than so many bytes,
    no control character *)
Definition short_text (mx : N) (s : str) : bool := (blen s <=? mx) && negb (existsb is_control s).
(** 196-204 [validate_body] *)
Definition short_body (s : str) : bool := blen s <=? UAC_MAX_BODY.

(** 213-262 [UserAgentClient]; the managers, the digest client and the stored
    Service-Route are arguments of the operations that use them *)
Record uac := mkUac {
  ua_local : sip_uri; ua_contact : sip_uri; ua_display : option str; ua_from : option sip_uri;
  ua_agent : str;
  ua_calls : list (str * str);     (* register_call_ids *)
  ua_cseqs : list (str * N);       (* register_cseqs *)
  ua_tags : list (str * str) }.    (* register_from_tags *)
(** 265-280 [new] *)
Definition uac_new (local contact : sip_uri) (agent : str) : uac := mkUac local contact None None agent [] [] [].
(** 283-295 [with_display_name], [set_display_name]: [None] is an error *)
Definition set_display (u : uac) (n : str) : option uac :=
  if short_text MAX_DISPLAY_NAME n
  then Some (mkUac (ua_local u) (ua_contact u) (Some n) (ua_from u) (ua_agent u) (ua_calls u) (ua_cseqs u) (ua_tags u))
  else None.
(** 312-325 [with_user_agent], [set_user_agent] *)
Definition set_agent (u : uac) (a : str) : option uac :=
  if short_text MAX_USER_AGENT a
  then Some (mkUac (ua_local u) (ua_contact u) (ua_display u) (ua_from u) a (ua_calls u) (ua_cseqs u) (ua_tags u))
  else None.

(** the random texts one call may draw: 3340-3376 [generate_branch],
    [generate_tag], [generate_call_id] *)
Record fresh := mkFresh { fr_branch : str; fr_tag : str; fr_call : str }.
Definition branch_of (f : fresh) : str := lit "z9hG4bK" ++ fr_branch f.
Definition call_of (f : fresh) : str := fr_call f ++ lit "@localhost".

(** a run of [headers.push(name, value).unwrap()] *)
Fixpoint push_all (acc : headers) (l : list (str * str)) : outcome headers :=
  match l with
  | [] => Ret acc
  | (n, v) :: r => match hpush acc n v with
                   | Ok hs => push_all hs r
                   | Err _ => Panics
                   end
  end.
(** ... followed by [Request::new(..).expect(..)] *)
Definition finish (m : method) (u : sip_uri) (hs : headers) (body : list N) : outcome req :=
  match request_new m (SipU u) hs body with Some q => Ret q | None => Panics end.
Definition assemble (m : method) (u : sip_uri) (l : list (str * str)) (body : list N) : outcome req :=
  match push_all [] l with Panics => Panics | Ret hs => finish m u hs body end.

(** ** Header values *)
Definition via_line (f : fresh) : str * str :=
  (lit "Via", lit "SIP/2.0/UDP placeholder;branch=" ++ branch_of f).
Definition angle (u : sip_uri) : str := lit "<" ++ u_raw u ++ lit ">".
Definition tagged (u : sip_uri) (tag : str) : str := angle u ++ lit ";tag=" ++ tag.
(** 3327-3336 [escape_quoted_string] *)
Definition escape_quoted (s : str) : str :=
  flat_map (fun c => if (c =? 92) || (c =? 34) then [92; c] else [c]) s.
(** [format!("\"{}\" <{}>;tag={}", ..)] *)
Definition named (display : str) (u : sip_uri) (tag : str) : str :=
  lit """" ++ display ++ lit """ " ++ tagged u tag.
(** 3274-3290 [format_from_header_tagged] *)
Definition from_value (u : uac) (override : option sip_uri) (tag : str) : str :=
  let uri := match override with
             | Some x => x
             | None => match ua_from u with Some x => x | None => ua_local u end
             end in
  match ua_display u with
  | Some d => named (escape_quoted d) uri tag
  | None => tagged uri tag
  end.
(** 1400-1415, 1512-1527, 2211-2226: the From of re-INVITE, UPDATE and PRACK;
    the display name is not escaped *)
Definition dialog_from (u : uac) (d : dialog) : str :=
  match ua_display u with
  | Some n => named n (ua_local u) (di_local (d_id d))
  | None => tagged (ua_local u) (di_local (d_id d))
  end.
Definition dialog_to (d : dialog) : str := tagged (d_ruri d) (di_remote (d_id d)).
Definition ln (n : string) (v : str) : str * str := (lit n, v).
Definition max_forwards : str * str := ln "Max-Forwards" (lit "70").
Definition agent_line (u : uac) : str * str := ln "User-Agent" (ua_agent u).
Definition length_line (s : str) : str * str := ln "Content-Length" (print_N (blen s)).
Definition zero_length : str * str := ln "Content-Length" (lit "0").
(** an optional body: its type and length, or length 0 *)
Definition body_lines (ty : string) (b : option str) : list (str * str) :=
  match b with
  | Some s => [ln "Content-Type" (lit ty); length_line s]
  | None => [zero_length]
  end.
Definition body_bytes (b : option str) : list N := match b with Some s => utf8 s | None => [] end.

(** ** Requests outside dialogs *)
(** 348-434 [create_unsolicited_notify], 441-521 [.._with_state] *)
Definition mk_unsolicited (u : uac) (f : fresh) (target : sip_uri) (event ctype body state : str) : outcome req :=
  assemble MNotify target
    [via_line f; ln "From" (tagged (ua_local u) (fr_tag f)); ln "To" (angle target); ln "Call-ID" (call_of f);
     ln "CSeq" (lit "1 NOTIFY"); max_forwards; ln "Event" event; ln "Subscription-State" state; agent_line u;
     ln "Content-Type" ctype; length_line body] (utf8 body).
(** 524-585 [create_options] *)
Definition mk_options (u : uac) (f : fresh) (target : sip_uri) : outcome req :=
  assemble MOptions target
    [via_line f; ln "From" (tagged (ua_local u) (fr_tag f)); ln "To" (angle target); ln "Call-ID" (call_of f);
     ln "CSeq" (lit "1 OPTIONS"); max_forwards; agent_line u; zero_length] [].
(** 1009-1103 [create_invite_with_from]; 1000-1002 [create_invite] has no override *)
Definition mk_invite (u : uac) (f : fresh) (target : sip_uri) (sdp : option str) (override : option sip_uri) : outcome req :=
  assemble MInvite target
    ([via_line f; ln "From" (from_value u override (fr_tag f)); ln "To" (angle target); ln "Call-ID" (call_of f);
      ln "CSeq" (lit "1 INVITE"); ln "Contact" (angle (ua_contact u)); max_forwards; agent_line u]
     ++ body_lines "application/sdp" sdp) (body_bytes sdp).
(** 1115-1197 [create_invite_with_body] ([None] is an error; [Request::new] cannot
    fail here) *)
Definition mk_invite_body (u : uac) (f : fresh) (target : sip_uri) (body ctype : str) : outcome (option req) :=
  if short_body body && short_text MAX_CONTENT_TYPE ctype then
    match push_all []
      [via_line f; ln "From" (from_value u None (fr_tag f)); ln "To" (angle target); ln "Call-ID" (call_of f);
       ln "CSeq" (lit "1 INVITE"); ln "Contact" (angle (ua_contact u)); max_forwards; agent_line u;
       ln "Content-Type" ctype; length_line body] with
    | Panics => Panics
    | Ret hs => Ret (request_new MInvite (SipU target) hs (utf8 body))
    end
  else Ret None.
Definition lift (o : outcome req) : outcome (option req) :=
  match o with Ret q => Ret (Some q) | Panics => Panics end.
(** 1604-1690 [create_publish] *)
Definition mk_publish (u : uac) (f : fresh) (target : sip_uri) (event ctype body : str) : outcome (option req) :=
  if short_text MAX_EVENT_NAME event && short_text MAX_CONTENT_TYPE ctype && short_body body then
    lift (assemble MPublish target
      [via_line f; ln "From" (from_value u None (fr_tag f)); ln "To" (angle target); ln "Call-ID" (call_of f);
       ln "CSeq" (lit "1 PUBLISH"); ln "Event" event; max_forwards; agent_line u;
       ln "Content-Type" ctype; length_line body] (utf8 body))
  else Ret None.
(** 2340-2417 [create_subscribe] *)
Definition mk_subscribe (u : uac) (f : fresh) (target : sip_uri) (event : str) (expires : N) : outcome req :=
  assemble MSubscribe target
    [via_line f; ln "From" (from_value u None (fr_tag f)); ln "To" (angle target); ln "Call-ID" (call_of f);
     ln "CSeq" (lit "1 SUBSCRIBE"); ln "Contact" (angle (ua_contact u)); ln "Event" event;
     ln "Expires" (print_N expires); max_forwards; agent_line u; zero_length] [].
(** [request.headers_mut().push(..).unwrap()] on a finished request *)
Definition add_header (o : outcome req) (n v : str) : outcome req :=
  match o with
  | Panics => Panics
  | Ret q => match hpush (q_headers q) n v with
             | Ok hs => Ret (mkReq (q_method q) (q_uri q) hs (q_body q))
             | Err _ => Panics
             end
  end.
(** 2603-2618 [create_reg_subscribe] *)
Definition mk_reg_subscribe (u : uac) (f : fresh) (target : sip_uri) (expires : N) : outcome req :=
  add_header (mk_subscribe u f target (lit "reg") expires) (lit "Accept") (lit "application/reginfo+xml").
(** 3034-3120 [create_message] *)
Definition mk_message (u : uac) (f : fresh) (target : sip_uri) (ctype body : str) : outcome req :=
  assemble MMessage target
    [via_line f; ln "From" (from_value u None (fr_tag f)); ln "To" (angle target); ln "Call-ID" (call_of f);
     ln "CSeq" (lit "1 MESSAGE"); max_forwards; ln "Content-Type" ctype; agent_line u; length_line body] (utf8 body).
(** 3140-3158 [create_message_with_headers] *)
Definition mk_message_with (u : uac) (f : fresh) (target : sip_uri) (ctype body : str) (extra : headers) : outcome req :=
  fold_left (fun o h => add_header o (fst h) (snd h)) extra (mk_message u f target ctype body).

(** ** REGISTER *)
(** 3160-3187 [register_call_id], 3193-3215 [register_from_tag]: the stored
    value, or a fresh one, stored unless the table is full *)
Definition remembered (key new : str) (m : list (str * str)) : list (str * str) * str :=
  match lookup str_eqb key m with
  | Some v => (m, v)
  | None => if MAX_REGISTRARS <=? llen m then (m, new) else (insert str_eqb key new m, new)
  end.
(** 3227-3252 [next_register_cseq] *)
Definition next_register_cseq (key : str) (m : list (str * N)) : list (str * N) * N :=
  match lookup str_eqb key m with
  | Some n => let n1 := (n + 1) mod 4294967296 in
              let n2 := if n1 =? 0 then 1 else n1 in
              (insert str_eqb key n2 m, n2)
  | None => if MAX_REGISTRARS <=? llen m then (m, 1) else (insert str_eqb key 1 m, 1)
  end.
(** 596-680 [create_register]; the three tables are changed even when a later
    push panics, which the result does not show *)
Definition mk_register (u : uac) (f : fresh) (registrar : sip_uri) (expires : N) : uac * outcome req :=
  let key := u_raw registrar in
  let '(tags, tag) := remembered key (fr_tag f) (ua_tags u) in
  let '(calls, call) := remembered key (call_of f) (ua_calls u) in
  let '(cseqs, n) := next_register_cseq key (ua_cseqs u) in
  (mkUac (ua_local u) (ua_contact u) (ua_display u) (ua_from u) (ua_agent u) calls cseqs tags,
   assemble MRegister registrar
    [via_line f; ln "From" (from_value u None tag); ln "To" (angle (ua_local u)); ln "Call-ID" call;
     ln "CSeq" (print_N n ++ lit " REGISTER"); ln "Contact" (angle (ua_contact u) ++ lit ";expires=" ++ print_N expires);
     ln "Expires" (print_N expires); max_forwards; agent_line u; zero_length] []).

(** ** Requests inside dialogs *)
Definition next_cseq (d : dialog) : N := snd (next_local_cseq d).
(** 1306-1378 [create_bye]: the only one that takes the From from the dialog *)
Definition mk_bye (u : uac) (f : fresh) (d : dialog) : outcome req :=
  assemble MBye (d_target d)
    [via_line f; ln "From" (tagged (d_luri d) (di_local (d_id d))); ln "To" (dialog_to d);
     ln "Call-ID" (di_call (d_id d)); ln "CSeq" (print_N (next_cseq d) ++ lit " BYE"); max_forwards; agent_line u;
     zero_length] [].
(** 1963-1970 [add_reason_header], 2001-2010 [create_bye_with_reason]; [reason] is the
    printed header *)
Definition mk_bye_reason (u : uac) (f : fresh) (d : dialog) (reason : str) : outcome req :=
  add_header (mk_bye u f d) (lit "Reason") reason.
(** 1387-1490 [create_reinvite], 1499-1594 [create_update] *)
Definition mk_modify (u : uac) (f : fresh) (d : dialog) (update : bool) (sdp : option str) : outcome req :=
  let m := if update then MUpdate else MInvite in
  assemble m (d_target d)
    ([via_line f; ln "From" (dialog_from u d); ln "To" (dialog_to d); ln "Call-ID" (di_call (d_id d));
      ln "CSeq" (print_N (next_cseq d) ++ (if update then lit " UPDATE" else lit " INVITE"));
      ln "Contact" (angle (ua_contact u)); max_forwards; agent_line u]
     ++ body_lines "application/sdp" sdp) (body_bytes sdp).
(** 1723-1760 [create_session_refresh]; a Supported header is never present *)
Definition mk_refresh (u : uac) (f : fresh) (d : dialog) (expires : N) (who : str) (update : bool)
  (sdp : option str) : outcome req :=
  match add_header (mk_modify u f d update sdp) (lit "Session-Expires") (print_N expires ++ lit ";refresher=" ++ who) with
  | Panics => Panics
  | Ret q => if hcontains (lit "Supported") (q_headers q) then Ret q
             else add_header (Ret q) (lit "Supported") (lit "timer")
  end.
(** 1789-1870 [create_info] *)
Definition mk_info (u : uac) (f : fresh) (d : dialog) (ctype body : str) : outcome (option req) :=
  if short_text MAX_CONTENT_TYPE ctype && short_body body then
    lift (assemble MInfo (d_target d)
      [via_line f; ln "From" (tagged (ua_local u) (di_local (d_id d))); ln "To" (dialog_to d);
       ln "Call-ID" (di_call (d_id d)); ln "CSeq" (print_N (next_cseq d) ++ lit " INFO"); max_forwards;
       ln "Content-Type" ctype; agent_line u; length_line body] (utf8 body))
  else Ret None.
(** 2198-2290 [build_prack_request]: [Request::new] cannot fail (empty body) *)
Definition mk_prack_rack (u : uac) (f : fresh) (d : dialog) (rack : str) : outcome req :=
  assemble MPrack (d_target d)
    [via_line f; ln "From" (dialog_from u d); ln "To" (dialog_to d); ln "Call-ID" (di_call (d_id d));
     ln "CSeq" (print_N (next_cseq d) ++ lit " PRACK"); ln "RAck" rack; max_forwards;
     ln "Contact" (angle (ua_contact u)); agent_line u; zero_length] [].
(** 2143-2166 [create_prack]: [Ret None] is an error *)
Definition mk_prack (u : uac) (f : fresh) (invite : req) (prov : resp) (d : dialog) : outcome (option req) :=
  match header_of (q_headers invite) (lit "CSeq") with
  | None => Ret None
  | Some c =>
      match split_ws c with
      | n :: m :: _ =>
          match parse_uint u32_max n with
          | None => Ret None
          | Some k =>
              match header_of (p_headers prov) (lit "RSeq") with
              | None => Ret None
              | Some r => match parse_uint u32_max r with
                          | None => Ret None
                          | Some rs => lift (mk_prack_rack u f d (print_N rs ++ lit " " ++ print_N k ++ lit " " ++ m))
                          end
              end
          end
      | _ => Ret None
      end
  end.
(** 2173-2196 [create_prack_from_provisional] *)
Definition mk_prack_from (u : uac) (f : fresh) (prov : resp) (d : dialog) : outcome (option req) :=
  match header_of (p_headers prov) (lit "RSeq") with
  | None => Ret None
  | Some r =>
      match parse_uint u32_max r with
      | None => Ret None
      | Some rs =>
          match header_of (p_headers prov) (lit "CSeq") with
          | None => Ret None
          | Some c => match split_ws c with
                      | n :: m :: _ => lift (mk_prack_rack u f d (print_N rs ++ lit " " ++ n ++ lit " " ++ m))
                      | _ => Ret None
                      end
          end
      end
  end.
(** 2792-2875 [create_refer] *)
Definition mk_refer (u : uac) (f : fresh) (d : dialog) (refer_to : sip_uri) : outcome req :=
  assemble MRefer (d_target d)
    [via_line f; ln "From" (tagged (ua_local u) (di_local (d_id d))); ln "To" (dialog_to d);
     ln "Call-ID" (di_call (d_id d)); ln "CSeq" (print_N (next_cseq d) ++ lit " REFER");
     ln "Contact" (angle (ua_contact u)); ln "Refer-To" (angle refer_to); max_forwards; agent_line u; zero_length] [].
(** the [urlencoding] crate: all bytes but letters, digits and [-_.~] *)
Definition unreserved (c : N) : bool := is_alnum c || existsb (N.eqb c) (lit "-_.~").
Definition upper_hex (d : N) : N := if d <? 10 then 48 + d else 55 + d.
Definition url_encode (s : str) : str :=
  flat_map (fun b => if unreserved b then [b] else [37; upper_hex (b / 16); upper_hex (b mod 16)]) (utf8 s).
(** 2896-2905: the Refer-To of an attended transfer *)
Definition refer_to_replaces (refer_to : sip_uri) (t : dialog) : str :=
  lit "<" ++ u_raw refer_to ++ lit "?Replaces=" ++ url_encode (di_call (d_id t)) ++ lit ";to-tag="
  ++ url_encode (di_remote (d_id t)) ++ lit ";from-tag=" ++ url_encode (di_local (d_id t)) ++ lit ">".
(** 2890-3010 [create_refer_with_replaces] *)
Definition mk_refer_replaces (u : uac) (f : fresh) (d : dialog) (refer_to : sip_uri) (t : dialog) : outcome req :=
  assemble MRefer (d_target d)
    [via_line f; ln "From" (tagged (ua_local u) (di_local (d_id d))); ln "To" (dialog_to d);
     ln "Call-ID" (di_call (d_id d)); ln "CSeq" (print_N (next_cseq d) ++ lit " REFER");
     ln "Contact" (angle (ua_contact u)); ln "Refer-To" (refer_to_replaces refer_to t);
     ln "Referred-By" (angle (ua_local u)); max_forwards; agent_line u; zero_length] [].

(** ** NOTIFY inside a subscription *)
(** crates/sip-dialog/src/lib.rs:1344-1361 [SubscriptionState] *)
Inductive sub_state := SActive | SPending | STerminated.
Definition sub_state_str (s : sub_state) : str :=
  match s with SActive => lit "active" | SPending => lit "pending" | STerminated => lit "terminated" end.
(** crates/sip-dialog/src/lib.rs:1365-1370, 1478-1487 [Subscription]; the
    expiry, the state and the remote CSeq are not used here *)
Record subscription := mkSub {
  sb_call : str; sb_from : str; sb_to : str; sb_event : str; sb_local : sip_uri; sb_remote : sip_uri;
  sb_contact : sip_uri; sb_lcseq : N }.
(** [subscription.local_cseq() + 1]: panics at the largest u32 (a build without
    overflow checks would wrap to 0) *)
Definition notify_lines (u : uac) (f : fresh) (s : subscription) (event : str) (st : sub_state) : list (str * str) :=
  [via_line f; ln "From" (tagged (ua_local u) (sb_to s)); ln "To" (tagged (sb_remote s) (sb_from s));
   ln "Call-ID" (sb_call s); ln "CSeq" (print_N (sb_lcseq s + 1) ++ lit " NOTIFY");
   ln "Contact" (angle (ua_contact u)); ln "Event" event; ln "Subscription-State" (sub_state_str st); max_forwards].
(** 2460-2560 [create_notify] *)
Definition mk_notify (u : uac) (f : fresh) (s : subscription) (st : sub_state) (body : option str) : outcome req :=
  if u32_max <=? sb_lcseq s then Panics
  else assemble MNotify (sb_contact s)
    (notify_lines u f s (sb_event s) st ++ [agent_line u] ++ body_lines "text/plain" body) (body_bytes body).
(** 2673-2780 [create_reg_notify]; [xml] is the printed document *)
Definition mk_reg_notify (u : uac) (f : fresh) (s : subscription) (st : sub_state) (xml : str) : outcome req :=
  if u32_max <=? sb_lcseq s then Panics
  else assemble MNotify (sb_contact s)
    (notify_lines u f s (lit "reg") st ++ [ln "Content-Type" (lit "application/reginfo+xml"); agent_line u; length_line xml])
    (utf8 xml).

(** ** ACK *)
(** 1211-1301 [create_ack] *)
Definition opt_line (n : string) (v : option str) : list (str * str) :=
  match v with Some x => [ln n x] | None => [] end.
Definition ack_cseq (invite : req) : option str :=
  match hget (lit "CSeq") (q_headers invite) with
  | Some c => match split_once 32 c with Some (n, _) => Some (n ++ lit " ACK") | None => None end
  | None => None
  end.
(** the request line keeps the INVITE's URI whatever its scheme *)
Definition mk_ack (u : uac) (f : fresh) (invite : req) (rs : resp) (sdp : option str) : outcome req :=
  match push_all []
    ([via_line f] ++ opt_line "From" (hget (lit "From") (q_headers invite)) ++ opt_line "To" (hget (lit "To") (p_headers rs))
     ++ opt_line "Call-ID" (hget (lit "Call-ID") (q_headers invite)) ++ opt_line "CSeq" (ack_cseq invite)
     ++ [max_forwards; agent_line u] ++ body_lines "application/sdp" sdp) with
  | Panics => Panics
  | Ret hs => match request_new MAck (q_uri invite) hs (body_bytes sdp) with Some q => Ret q | None => Panics end
  end.

(** ** The calls a program can make *)
Inductive call :=
| CUnsolicited (target : sip_uri) (event ctype body state : str)
| COptions (target : sip_uri)
| CInvite (target : sip_uri) (sdp : option str) (override : option sip_uri)
| CInviteBody (target : sip_uri) (body ctype : str)
| CPublish (target : sip_uri) (event ctype body : str)
| CSubscribe (target : sip_uri) (event : str) (expires : N)
| CRegSubscribe (target : sip_uri) (expires : N)
| CMessage (target : sip_uri) (ctype body : str)
| CRegister (registrar : sip_uri) (expires : N)
| CBye (d : dialog)
| CByeReason (d : dialog) (reason : str)
| CReinvite (d : dialog) (sdp : option str)
| CUpdate (d : dialog) (sdp : option str)
| CRefresh (d : dialog) (expires : N) (who : str) (update : bool) (sdp : option str)
| CInfo (d : dialog) (ctype body : str)
| CPrack (invite : req) (prov : resp) (d : dialog)
| CPrackFrom (prov : resp) (d : dialog)
| CRefer (d : dialog) (refer_to : sip_uri)
| CReferReplaces (d : dialog) (refer_to : sip_uri) (target : dialog)
| CNotify (s : subscription) (st : sub_state) (body : option str)
| CRegNotify (s : subscription) (st : sub_state) (xml : str).
(** the new state of the client and the request ([None]: an error is returned) *)
Definition perform (u : uac) (f : fresh) (c : call) : uac * outcome (option req) :=
  match c with
  | CUnsolicited t e ct b s => (u, lift (mk_unsolicited u f t e ct b s))
  | COptions t => (u, lift (mk_options u f t))
  | CInvite t sdp o => (u, lift (mk_invite u f t sdp o))
  | CInviteBody t b ct => (u, mk_invite_body u f t b ct)
  | CPublish t e ct b => (u, mk_publish u f t e ct b)
  | CSubscribe t e n => (u, lift (mk_subscribe u f t e n))
  | CRegSubscribe t n => (u, lift (mk_reg_subscribe u f t n))
  | CMessage t ct b => (u, lift (mk_message u f t ct b))
  | CRegister r n => let '(u', q) := mk_register u f r n in (u', lift q)
  | CBye d => (u, lift (mk_bye u f d))
  | CByeReason d r => (u, lift (mk_bye_reason u f d r))
  | CReinvite d sdp => (u, lift (mk_modify u f d false sdp))
  | CUpdate d sdp => (u, lift (mk_modify u f d true sdp))
  | CRefresh d n w up sdp => (u, lift (mk_refresh u f d n w up sdp))
  | CInfo d ct b => (u, mk_info u f d ct b)
  | CPrack i p d => (u, mk_prack u f i p d)
  | CPrackFrom p d => (u, mk_prack_from u f p d)
  | CRefer d r => (u, lift (mk_refer u f d r))
  | CReferReplaces d r t => (u, lift (mk_refer_replaces u f d r t))
  | CNotify s st b => (u, lift (mk_notify u f s st b))
  | CRegNotify s st x => (u, lift (mk_reg_notify u f s st x))
  end.
(** a history of calls: the requests built, in order *)
Fixpoint perform_all (u : uac) (cs : list (fresh * call)) : uac * list (outcome (option req)) :=
  match cs with
  | [] => (u, [])
  | (f, c) :: r => let '(u1, o) := perform u f c in
                   let '(u2, os) := perform_all u1 r in (u2, o :: os)
  end.

(** ** Answering a challenge *)
(** 3445-3470 [split_auth_params] (the same in auth_utils.rs:40-64): commas
    outside double quotes; a backslash has no meaning *)
Fixpoint commas (inq : bool) (cur : str) (s : str) : list str :=
  match s with
  | [] => match trim (rev cur) with [] => [] | p => [p] end
  | c :: r =>
      if c =? 34 then commas (negb inq) (c :: cur) r
      else if (c =? 44) && negb inq
      then match trim (rev cur) with
           | [] => commas inq [] r
           | p => p :: commas inq [] r
           end
      else commas inq (c :: cur) r
  end.
Definition split_auth_params (s : str) : list str := commas false [] s.
(** 3424-3431: [&value[1..value.len() - 1]] panics on a single quote *)
Definition unquote (v : str) : outcome str :=
  match v with
  | c :: r => if (c =? 34) && match rev v with z :: _ => z =? 34 | [] => false end
              then match r with [] => Panics | _ => Ret (removelast r) end
              else Ret v
  | [] => Ret v
  end.
(** 3413-3418, auth_utils.rs:22-27: one parameter *)
Definition challenge_param (p : str) : option (str * str) :=
  let t := trim p in
  let t := trim_start (match strip_prefix (lit "Digest") t with Some x => x | None => t end) in
  match split_once 61 t with
  | Some (k, v) => Some (trim k, trim v)
  | None => None
  end.
(** 3404-3439: the loop *)
Fixpoint challenge_params (count : N) (ps : list str) (m : list (str * str)) : outcome (option (list (str * str))) :=
  match ps with
  | [] => Ret (Some m)
  | p :: r =>
      if MAX_AUTH_PARAMS <=? count then Ret None
      else match challenge_param p with
           | None => challenge_params count r m
           | Some (k, v) => match unquote v with
                            | Panics => Panics
                            | Ret v' => challenge_params (count + 1) r (insert str_eqb k v' m)
                            end
           end
  end.
(** 3399-3441 [parse_www_authenticate]: the text after the first "digest", in
    any case, wherever it is *)
Definition after_digest (v : str) : option str :=
  let h := trim v in
  match find_sub (lit "digest") (lower h) with
  | None => None
  | Some (before, _) => Some (trim_start (skipn (List.length before + 6) h))
  end.
Definition parse_challenge (v : str) : outcome (option (list (str * str))) :=
  match after_digest v with
  | None => Ret None
  | Some ps => challenge_params 0 (split_auth_params ps) []
  end.
(** auth_utils.rs:8-38 [extract_realm] *)
Fixpoint find_realm (ps : list str) : outcome (option str) :=
  match ps with
  | [] => Ret None
  | p :: r => match challenge_param p with
              | Some (k, v) => if eq_ic k (lit "realm")
                               then match unquote v with Panics => Panics | Ret x => Ret (Some x) end
                               else find_realm r
              | None => find_realm r
              end
  end.
Definition extract_realm (rs : resp) : outcome (option str) :=
  match (match hget (lit "WWW-Authenticate") (p_headers rs) with
         | Some v => Some v | None => hget (lit "Proxy-Authenticate") (p_headers rs) end) with
  | None => Ret None
  | Some v => match after_digest v with
              | None => Ret None
              | Some ps => find_realm (split_auth_params ps)
              end
  end.

(** 3472-3498 [replace_via_branch] *)
Definition rebranched (b : str) (ps : list str) : list str :=
  let out := flat_map (fun p => let t := trim p in
                         if starts_with (lit "branch=") (lower t) then [lit "branch=" ++ b]
                         else match t with [] => [] | _ => [t] end) ps in
  if existsb (fun p => starts_with (lit "branch=") (lower (trim p))) ps then out else out ++ [lit "branch=" ++ b].
Definition replace_branch (via b : str) : str :=
  match split_on 59 via with
  | [] => []
  | base :: ps => match rebranched b ps with
                  | [] => trim base
                  | l => trim base ++ lit ";" ++ join (lit ";") l
                  end
  end.

Section Answer.
  Variable H : hash_fn -> list N -> str.
  (** 917-926: the quality of protection chosen *)
  Definition choose_qop (m : list (str * str)) : option qop :=
    match lookup str_eqb (lit "qop") m with
    | None => None
    | Some q => if is_some (find_sub (lit "auth-int") q) then Some QAuthInt
                else if is_some (find_sub (lit "auth") q) then Some QAuth else None
    end.
  (** 912-915 *)
  Definition choose_alg (m : list (str * str)) : algorithm :=
    match lookup str_eqb (lit "algorithm") m with
    | Some a => match alg_parse a with Some x => x | None => mkAlg Md5 false end
    | None => mkAlg Md5 false
    end.
  (** 953-983: the copied headers; [+= 1] panics at the largest u32 *)
  Fixpoint retry_headers (b : str) (done : bool) (hs : headers) : outcome (list (str * str)) :=
    match hs with
    | [] => Ret []
    | (n, v) :: r =>
        let go done x := match retry_headers b done r with Ret l => Ret (x :: l) | Panics => Panics end in
        if str_eqb n (lit "Via") then go done (lit "Via", replace_branch v b)
        else if str_eqb n (lit "CSeq") && negb done then
          match split_once 32 v with
          | Some (num, m) => match parse_uint u32_max num with
                             | Some k => if u32_max <=? k then Panics
                                         else go true (lit "CSeq", print_N (k + 1) ++ lit " " ++ m)
                             | None => go done (n, v)
                             end
          | None => go done (n, v)
          end
        else go done (n, v)
    end.
  (** 862-998 [create_authenticated_request_with]; [cl] is the digest client in
      use (the configured one or one made from the given credentials), [cnonce]
      its random text.  [None] is an error. *)
  Definition answer (cl : client) (f : fresh) (cnonce : str) (rq : req) (rs : resp) : client * outcome (option req) :=
    let proxy := p_code rs =? 407 in
    match hget (if proxy then lit "Proxy-Authenticate" else lit "WWW-Authenticate") (p_headers rs) with
    | None => (cl, Ret None)
    | Some v =>
        match parse_challenge v with
        | Panics => (cl, Panics)
        | Ret None => (cl, Ret None)
        | Ret (Some m) =>
            match lookup str_eqb (lit "realm") m, lookup str_eqb (lit "nonce") m with
            | Some realm, Some nonce =>
                let '(cl', value) := generate H cl (q_method rq) (uri_text (q_uri rq)) realm nonce
                                       (choose_alg m) (choose_qop m) (lookup str_eqb (lit "opaque") m)
                                       (q_body rq) cnonce in
                (cl',
                 match retry_headers (branch_of f) false (q_headers rq) with
                 | Panics => Panics
                 | Ret l =>
                     match push_all [] (l ++ [(if proxy then lit "Proxy-Authorization" else lit "Authorization", value)]) with
                     | Panics => Panics
                     | Ret hs => Ret (request_new (q_method rq) (q_uri rq) hs (q_body rq))
                     end
                 end)
            | _, _ => (cl, Ret None)
            end
        end
    end.
End Answer.

(** ** Service-Route *)
(** crates/sip-parse/src/header_values.rs:62-82 [parse_service_route] with the
    limit of service_route.rs:14: [None] is an error *)
Definition MAX_ROUTES : N := 50.
Fixpoint service_parts (ps : list str) : option (list name_addr) :=
  match ps with
  | [] => Some []
  | p :: r => match trim p with
              | [] => service_parts r
              | t => match parse_name_addr t, service_parts r with
                     | Some na, Some l => Some (na :: l)
                     | _, _ => None
                     end
              end
  end.
Fixpoint service_values (vs : list str) : option (list name_addr) :=
  match vs with
  | [] => Some []
  | v :: r => match split_quoted_commas MAX_ROUTES v with
              | None => None
              | Some ps => match service_parts ps, service_values r with
                           | Some a, Some b => Some (a ++ b)
                           | _, _ => None
                           end
              end
  end.
Definition parse_service_route (hs : headers) : option (list name_addr) :=
  match service_values (hget_all (lit "Service-Route") hs) with
  | Some l => if MAX_ROUTES <? llen l then None else Some l
  | None => None
  end.
(** 727-764 [process_register_response]: the stored routes *)
Definition stored_routes (old : option (list name_addr)) (rs : resp) : option (list name_addr) :=
  if negb (p_code rs =? 200) then old
  else match parse_service_route (p_headers rs) with
       | None => None
       | Some [] => None
       | Some l => Some l
       end.
(** 805-842 [apply_service_route] *)
Fixpoint before_first_route (rl : list (str * str)) (hs : headers) : headers :=
  match hs with
  | [] => rl
  | h :: r => if name_eq h (lit "Route") then rl ++ h :: r else h :: before_first_route rl r
  end.
Definition apply_service_route (sr : option (list name_addr)) (q : req) : outcome req :=
  match sr with
  | None => Ret q
  | Some l =>
      let values := map (fun na => lit "<" ++ any_text (na_uri na) ++ lit ">") l in
      if existsb (fun v => match header_new (lit "Route") v with Ok _ => false | Err _ => true end) values then Panics
      else match hfrom_vec (before_first_route (map (fun v => (lit "Route", v)) values) (q_headers q)) with
           | Ok hs => Ret (mkReq (q_method q) (q_uri q) hs (q_body q))
           | Err _ => Panics
           end
  end.
