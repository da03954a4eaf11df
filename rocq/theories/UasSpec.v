(** What the responses and dialogs of a user agent server have to look like
    (specification only): RFC 3261 8.2.6, 9.2, 12.1.1, 12.2.2, RFC 3262, 4028
    and 3515. *)
From Coq Require Import NArith Bool String List.
Import ListNotations.
From Verif Require Import Base Headers HeadersProofs Method Text Uri Msg Dialog Uac UacSpec Uas.
Open Scope N_scope.
Open Scope list_scope.

(** [p] occurs in [s] *)
Definition occurs (p s : str) : Prop := exists a b, s = a ++ p ++ b.
(** the values of a header, in order; the first of them *)
Definition values (n : string) (hs : headers) : list str := hget_all (lit n) hs.
Definition first_value (n : string) (hs : headers) : list str :=
  match values n hs with [] => [] | v :: _ => [v] end.

(** ** Responses *)
(** the To value of a response for the To value [t] of the request: [t] itself
    if it has a tag already, else [t] with the server's tag *)
Definition to_tagged (t tag t' : str) : Prop :=
  (occurs (lit ";tag=") t /\ t' = t) \/ (~ occurs (lit ";tag=") t /\ t' = t ++ lit ";tag=" ++ tag).
(** RFC 3261 8.2.6.2 and 12.1.1: all Via and Record-Route values in their
    order, From, Call-ID, CSeq *)
Definition mirrors (rq : req) (r : resp) : Prop :=
  values "Via" (p_headers r) = values "Via" (q_headers rq)
  /\ values "Record-Route" (p_headers r) = values "Record-Route" (q_headers rq)
  /\ values "From" (p_headers r) = first_value "From" (q_headers rq)
  /\ values "Call-ID" (p_headers r) = first_value "Call-ID" (q_headers rq)
  /\ values "CSeq" (p_headers r) = first_value "CSeq" (q_headers rq).
(** To: as in the request, with a tag unless [bare] *)
Definition to_of (bare : bool) (rq : req) (tag : str) (r : resp) : Prop :=
  match values "To" (q_headers rq) with
  | [] => values "To" (p_headers r) = []
  | t :: _ => exists t', values "To" (p_headers r) = [t'] /\ (if bare then t' = t else to_tagged t tag t')
  end.
Definition sized (r : resp) : Prop := values "Content-Length" (p_headers r) = [print_N (llen (p_body r))].

(** the calls that build responses without looking at the server's dialogs *)
Inductive reply :=
| YPlain (code : N) (reason : str) | YReject (code : N) (reason : str) | YTrying | YRinging
| YOk (body : option str) | YMessage | YPublish (etag : option str) | YOptions
| YBusy | YDecline | YTerminated | YBad | YInterval (min_se : N).
Definition made (o : outcome resp) : outcome (option resp) := match o with Ret r => Ret (Some r) | Panics => Panics end.
Definition make (s : uas) (rq : req) (tag : str) (y : reply) : outcome (option resp) :=
  match y with
  | YPlain c t => made (create_response rq c t tag) | YReject c t => made (reject rq c t tag)
  | YTrying => made (create_trying rq tag) | YRinging => made (create_ringing rq tag)
  | YOk b => create_ok s rq b tag | YMessage => made (plain_ok rq tag) | YPublish e => accept_publish rq e tag
  | YOptions => made (accept_options rq tag) | YBusy => made (create_busy rq tag) | YDecline => made (create_decline rq tag)
  | YTerminated => made (create_request_terminated rq tag) | YBad => made (create_bad_request rq tag)
  | YInterval n => made (create_422 rq n tag)
  end.
Definition status_wanted (y : reply) : N * str :=
  match y with
  | YPlain c t | YReject c t => (c, t) | YTrying => (100, lit "Trying") | YRinging => (180, lit "Ringing")
  | YOk _ | YMessage | YPublish _ | YOptions => (200, lit "OK")
  | YBusy => (486, lit "Busy Here") | YDecline => (603, lit "Decline") | YTerminated => (487, lit "Request Terminated")
  | YBad => (400, lit "Bad Request") | YInterval _ => (422, lit "Session Interval Too Small")
  end.
Definition reply_body (y : reply) : list N := match y with YOk (Some b) => utf8 b | _ => [] end.
Definition reply_headers (s : uas) (y : reply) : list (string * str) :=
  match y with
  | YOk b => ("Contact"%string, lit "<" ++ u_raw (us_contact s) ++ lit ">")
             :: match b with Some _ => [("Content-Type"%string, lit "application/sdp")] | None => [] end
  | YPublish (Some e) => [("SIP-ETag"%string, e)]
  | YOptions => [("Allow"%string, lit "INVITE, ACK, BYE, CANCEL, OPTIONS"); ("Accept"%string, lit "application/sdp")]
  | YInterval n => [("Min-SE"%string, print_N n)]
  | _ => []
  end.
(** a 100 needs no tag *)
Definition bare (y : reply) : bool := match y with YTrying => true | YPlain c _ => c =? 100 | _ => false end.
Definition answers (s : uas) (rq : req) (tag : str) (y : reply) (r : resp) : Prop :=
  (p_code r, p_reason r) = status_wanted y /\ p_body r = reply_body y /\ mirrors rq r /\ to_of (bare y) rq tag r /\ sized r
  /\ forall n v, In (n, v) (reply_headers s y) -> values n (p_headers r) = [v].
(** a status line the message type accepts *)
Definition status_fits (code : N) (reason : str) : Prop :=
  100 <= code <= 699 /\ blen reason <= 256 /\ forall c, In c reason -> is_ascii_control c = false.
(** how many headers a response takes over *)
Definition taken_over (rq : req) : N :=
  let hs := q_headers rq in
  llen (values "Via" hs) + llen (values "Record-Route" hs)
  + llen (first_value "From" hs) + llen (first_value "Call-ID" hs) + llen (first_value "CSeq" hs) + llen (first_value "To" hs).
(** the To value with the tag is too long for a header *)
Definition to_overflows (rq : req) (tag : str) : Prop :=
  exists t, first_value "To" (q_headers rq) = [t] /\ ~ occurs (lit ";tag=") t /\ 8192 < blen t + 5 + blen tag.
(** a request whose answers fit: its own headers are valid, it does not have too
    many of them, and its To has room for the tag *)
Definition roomy (rq : req) (tag : str) : Prop :=
  good_headers (q_headers rq) /\ taken_over rq <= 190 /\ ~ to_overflows rq tag /\ tag_text tag.
Definition fits (y : reply) : Prop :=
  match y with
  | YPlain c t | YReject c t => status_fits c t /\ c <> 100
  | YOk (Some b) => blen b <= 1048576
  | YPublish (Some e) => blen e <= 256 /\ forall c, In c e -> is_control c = false
  | YInterval n => n <= 4294967295
  | _ => True
  end.

(** ** Calls *)
(** the address of somebody who can take part in a call: it reads back, is
    plain text and of moderate size, and has no parameter tag *)
Definition party (x : sip_uri) : Prop :=
  parse_uri (u_raw x) = Some x /\ blen (u_raw x) <= 2048
  /\ (forall c, In c (u_raw x) -> is_ascii c = true /\ is_ws c = false /\ c <> 0 /\ c <> 34 /\ c <> 60 /\ c <> 62)
  /\ ~ occurs (lit ";tag=") (lower (u_raw x))
  /\ blen (match u_user x with Some n => n | None => [] end) + blen (u_host x) <= 490.
(** a display name that hides nothing from the server *)
Definition plain_name (n : str) : Prop :=
  plain_text 100 n /\ forall c, In c n -> is_ascii c = true /\ c <> 59 /\ c <> 60.
Definition caller (u : uac) : Prop :=
  party (ua_local u) /\ party (ua_contact u) /\ (forall x, ua_from u = Some x -> party x)
  /\ (forall n, ua_display u = Some n -> plain_name n) /\ plain_text 256 (ua_agent u).
Definition callee (s : uas) : Prop := party (us_local s) /\ party (us_contact s).
(** the two ends of a call *)
Definition two_ends (server client : dialog) : Prop :=
  d_id server = mkId (di_call (d_id client)) (di_remote (d_id client)) (di_local (d_id client))
  /\ d_rcseq server = d_lcseq client /\ d_lcseq server = d_rcseq client
  /\ d_routes server = rev (d_routes client) /\ d_state server = d_state client.
(** the table without one entry *)
Definition without (id : dialog_id) (m m' : dmap) : Prop :=
  dm_get m' id = None /\ forall i, i <> id -> dm_get m' i = dm_get m i.
(** the request carries the dialog's Call-ID, the peer's tag in From and ours in To *)
Definition addressed (rq : req) (d : dialog) : Prop :=
  id_of_headers (q_headers rq) = Ret (Some (di_call (d_id d), di_remote (d_id d), di_local (d_id d))).
(** only the dialogs of a server differ *)
Definition same_but_dialogs (s s' : uas) : Prop := s' = put_dialogs s (us_dialogs s').
