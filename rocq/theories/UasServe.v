(** Model of the integrated user agent server
    (crates/sip-uas/src/integrated.rs; line numbers below are of that file).

    The application's handler is outside the model: that it is called, with
    which dialog, and whether it returned an error are recorded.  The defaults
    its trait provides are modelled separately.  A message is "sent" when it is
    given to the transaction layer. *)
From Coq Require Import NArith Bool String List.
Import ListNotations.
From Verif Require Import Base Headers Method Text Uri Msg Message Dialog Via TxManager Dns Uac Uas.
Open Scope N_scope.
Open Scope list_scope.

(** 284-313 [UASConfig] and the addresses of [IntegratedUAS] (318-331): a socket
    address is the text of its IP address and a port; [se_allow] is what the
    handler's [allow_header] (96-98) returns *)
Record settings := mkSettings {
  se_via : bool; se_contact : bool; se_trying : bool; se_agent : str; se_auth : bool;
  se_local : str * N; se_public : option (str * N); se_allow : str }.
(** the transport context of a request: peer, local address, transport *)
Record arrival := mkArrival { ar_peer : str * N; ar_local : option (str * N); ar_transport : transport }.

(** 826-837 [transport_param_for] *)
Definition transport_word (t : transport) : str :=
  match t with
  | Udp => lit "udp" | Tcp => lit "tcp" | Tls => lit "tls" | Sctp => lit "sctp" | TlsSctp => lit "tls-sctp"
  | Ws => lit "ws" | Wss => lit "wss"
  end.
(** 858-878 [build_contact_value] *)
Definition contact_value (user : str) (adv : str * N) (local : option (str * N)) (t : transport) : str :=
  let port := match local with Some l => snd l | None => snd adv end in
  lit "<sip:" ++ user ++ lit "@" ++ fst adv ++ lit ":" ++ print_N port ++ lit ";transport=" ++ transport_word t ++ lit ">".
Definition advertised (g : settings) : str * N := match se_public g with Some a => a | None => se_local g end.
Definition contact_user (s : uas) : str := match u_user (us_contact s) with Some u => u | None => lit "server" end.
(** 733-745, 747-755: a header added when there is none *)
Definition add_missing (n : string) (v : str) (hs : headers) : outcome headers :=
  match hget (lit n) hs with None => unwrap (hpush hs (lit n) v) | Some _ => Ret hs end.
(** 704-756 [auto_fill_headers]; [prepare_response] (695-697) is the same *)
Definition auto_fill (g : settings) (s : uas) (c : arrival) (r : resp) : outcome resp :=
  let hs1 := if se_via g then apply_via (p_headers r) (fst (ar_peer c)) (snd (ar_peer c)) else p_headers r in
  let hs2 := if se_contact g
             then or_same hs1 (hset_or_push hs1 (lit "Contact")
                                 (contact_value (contact_user s) (advertised g) (ar_local c) (ar_transport c)))
             else hs1 in
  obind (add_missing "Allow" (se_allow g) hs2) (fun hs3 =>
  obind (add_missing "Server" (se_agent g) hs3) (fun hs4 =>
  Ret (mkResp (p_code r) (p_reason r) hs4 (p_body r)))).

(** ** Dispatching a request *)
Inductive effect :=
| Provisional (r : resp)                    (* handle.send_provisional *)
| Final (r : resp)                          (* handle.send_final *)
| FinalOf (branch : str) (r : resp)         (* the INVITE transaction with this branch *)
| Handler (m : string) (d : option dialog).   (* the application is asked *)
Inductive ending := Done | Failed | Crashed.
Definition script := (list effect * ending)%type.
Definition stop : script := ([], Done).
Definition sending (o : outcome resp) (mk : resp -> effect) (k : script) : script :=
  match o with Ret r => (mk r :: fst k, snd k) | Panics => ([], Crashed) end.
(** [self.request_handler.on_x(..).await?] *)
Definition asking (m : string) (d : option dialog) (ok : bool) (k : script) : script :=
  if ok then (Handler m d :: fst k, snd k) else ([Handler m d], Failed).

(** 427-447 and the like: requests that need a dialog *)
Definition in_dialog (g : settings) (s : uas) (c : arrival) (m : string) (rq : req) (ok : bool) (tag : str) : script :=
  match dm_find (us_dialogs s) rq with
  | Panics => ([], Crashed)
  | Ret (Some d) => asking m (Some d) ok stop
  | Ret None => sending (obind (create_response rq 481 (lit "Call/Transaction Does Not Exist") tag) (auto_fill g s c)) Final stop
  end.
(** 391-608: the request once it is let in; [ok] tells whether the handler succeeds *)
Definition route (g : settings) (s : uas) (c : arrival) (rq : req) (ok : bool) (tag : str) : script :=
  match q_method rq with
  | MInvite =>
      match validate_invite rq tag with
      | Panics => ([], Crashed)
      | Ret (Some r) => sending (auto_fill g s c r) Final stop
      | Ret None =>
          match dm_find (us_dialogs s) rq with
          | Panics => ([], Crashed)
          | Ret d =>
              let k := asking "INVITE" d ok stop in
              if se_trying g then sending (obind (create_trying rq tag) (auto_fill g s c)) Provisional k else k
          end
      end
  | MAck => match dm_find (us_dialogs s) rq with
            | Panics => ([], Crashed)
            | Ret (Some d) => asking "ACK" (Some d) ok stop
            | Ret None => stop
            end
  | MBye => in_dialog g s c "BYE" rq ok tag
  | MCancel =>
      asking "CANCEL" None ok
        (match extract_branch (q_headers rq) with
         | None => stop
         | Some b => sending (obind (terminated_from_cancel rq tag) (auto_fill g s c)) (FinalOf b) stop
         end)
  | MRegister => asking "REGISTER" None ok stop
  | MOptions => sending (obind (accept_options rq tag) (fun r => obind (set_line (ln "Allow" (se_allow g)) r) (auto_fill g s c))) Final stop
  | MSubscribe => asking "SUBSCRIBE" None ok stop
  | MNotify => asking "NOTIFY" None ok stop
  | MRefer => in_dialog g s c "REFER" rq ok tag
  | MUpdate => in_dialog g s c "UPDATE" rq ok tag
  | MPrack => in_dialog g s c "PRACK" rq ok tag
  | MInfo => in_dialog g s c "INFO" rq ok tag
  | MMessage | MPublish | MUnknown _ =>
      sending (obind (create_response rq 501 (lit "Not Implemented") tag) (auto_fill g s c)) Final stop
  end.
(** 370-390: the authentication gate; [challenge] is what the authenticator's
    [challenge] returns.  A method that is spelled like a standard one but is
    not that variant cannot come out of a parser. *)
Definition dispatch (g : settings) (s : uas) (c : arrival) (a : auth_verdict) (challenge : option resp)
    (rq : req) (ok : bool) (tag : str) : script :=
  if se_auth g && negb (method_eqb (q_method rq) MAck) then
    match verify_authentication a with
    | None => ([], Failed)
    | Some true => route g s c rq ok tag
    | Some false =>
        match a, challenge with
        | NoAuth, _ => ([], Failed)
        | _, None => ([], Failed)
        | _, Some r => sending (auto_fill g s c r) Final stop
        end
    end
  else route g s c rq ok tag.
(** 1019-1024 [build]: authentication cannot be required without an authenticator *)
Definition buildable (g : settings) (configured : bool) : bool := negb (se_auth g && negb configured).
(** 47-57 [DEFAULT_SUPPORTED_METHODS] joined *)
Definition DEFAULT_ALLOW : str := join (lit ", ") (map lit ["INVITE"; "ACK"; "BYE"; "CANCEL"; "OPTIONS"]%string).
(** 59-67 [method_not_allowed_response] *)
Definition not_allowed (rq : req) (allow tag : str) : outcome resp :=
  obind (create_response rq 405 (lit "Method Not Allowed") tag) (push_line (ln "Allow" allow)).
(** 100-281: what the trait's own handlers answer ([on_ack] answers nothing).
    None of them touches the server's dialogs. *)
Definition default_handler (m : string) (rq : req) (allow tag : str) : option (outcome resp) :=
  if String.eqb m "ACK" then None
  else if String.eqb m "BYE" || String.eqb m "CANCEL" then Some (create_response rq 200 (lit "OK") tag)
  else if String.eqb m "OPTIONS" then Some (obind (accept_options rq tag) (set_line (ln "Allow" allow)))
  else Some (not_allowed rq allow tag).

(** 620-640 [accept_invite] of the integrated server: accept, fill in, send *)
Definition serve_invite (g : settings) (s : uas) (c : arrival) (a : auth_verdict) (rq : req) (sdp : option str) (tag : str)
  : outcome (option (uas * resp * dialog)) :=
  rbind (accept_invite s a rq sdp tag) (fun '(s', r, d) =>
  obind (auto_fill g s' c r) (fun r' => Ret (Some (s', r', d)))).
