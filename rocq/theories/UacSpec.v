(** What the requests of a user agent client have to look like (specification
    only): RFC 3261 8.1.1, 12.2.1.1, 9.1, 13.2.2.4, 17.1.1.3 and 22. *)
From Coq Require Import NArith Bool String List.
Import ListNotations.
From Verif Require Import Base Headers Method Text Uri Msg AnyUri Dialog Uac UacSend.
Open Scope N_scope.
Open Scope list_scope.

(** the header [n] occurs once, with the value [v] *)
Definition once (q : req) (n : string) (v : str) : Prop := hget_all (lit n) (q_headers q) = [v].
Definition never (q : req) (n : string) : Prop := hget_all (lit n) (q_headers q) = [].

(** ** Every request *)
Definition wellformed (agent : str) (q : req) : Prop :=
  (exists b, once q "Via" (lit "SIP/2.0/UDP placeholder;branch=z9hG4bK" ++ b))
  /\ (exists v, once q "From" v) /\ (exists v, once q "To" v) /\ (exists v, once q "Call-ID" v)
  /\ (exists n, 1 <= n <= 4294967295 /\ once q "CSeq" (print_N n ++ [32] ++ method_str (q_method q)))
  /\ once q "Max-Forwards" (lit "70") /\ once q "User-Agent" agent
  /\ once q "Content-Length" (print_N (llen (q_body q))).

(** ** What each call asks for *)
Definition method_wanted (c : call) : string :=
  match c with
  | CUnsolicited _ _ _ _ _ | CNotify _ _ _ | CRegNotify _ _ _ => "NOTIFY"
  | COptions _ => "OPTIONS" | CInvite _ _ _ | CInviteBody _ _ _ | CReinvite _ _ => "INVITE"
  | CPublish _ _ _ _ => "PUBLISH" | CSubscribe _ _ _ | CRegSubscribe _ _ => "SUBSCRIBE"
  | CMessage _ _ _ => "MESSAGE" | CRegister _ _ => "REGISTER" | CBye _ | CByeReason _ _ => "BYE"
  | CUpdate _ _ => "UPDATE" | CRefresh _ _ _ up _ => if up then "UPDATE" else "INVITE"
  | CInfo _ _ _ => "INFO" | CPrack _ _ _ | CPrackFrom _ _ => "PRACK"
  | CRefer _ _ | CReferReplaces _ _ _ => "REFER"
  end%string.
(** the body with its type *)
Definition body_wanted (c : call) : option (str * str) :=
  match c with
  | CUnsolicited _ _ ct b _ | CInviteBody _ b ct | CPublish _ _ ct b | CMessage _ ct b | CInfo _ ct b => Some (ct, b)
  | CInvite _ (Some s) _ | CReinvite _ (Some s) | CUpdate _ (Some s) | CRefresh _ _ _ _ (Some s) =>
      Some (lit "application/sdp", s)
  | CNotify _ _ (Some s) => Some (lit "text/plain", s)
  | CRegNotify _ _ x => Some (lit "application/reginfo+xml", x)
  | _ => None
  end.
(** the other headers a call has to set *)
Definition headers_wanted (u : uac) (c : call) : list (string * str) :=
  match c with
  | CUnsolicited _ e _ _ s => [("Event"%string, e); ("Subscription-State"%string, s)]
  | CPublish _ e _ _ => [("Event"%string, e)]
  | CSubscribe _ e n => [("Event"%string, e); ("Expires"%string, print_N n)]
  | CRegSubscribe _ n => [("Event"%string, lit "reg"); ("Expires"%string, print_N n); ("Accept"%string, lit "application/reginfo+xml")]
  | CRegister _ n => [("Expires"%string, print_N n)]
  | CByeReason _ r => [("Reason"%string, r)]
  | CRefresh _ n w _ _ => [("Session-Expires"%string, print_N n ++ lit ";refresher=" ++ w); ("Supported"%string, lit "timer")]
  | CRefer _ r => [("Refer-To"%string, lit "<" ++ u_raw r ++ lit ">")]
  | CReferReplaces _ _ _ => [("Referred-By"%string, lit "<" ++ u_raw (ua_local u) ++ lit ">")]
  | CNotify s st _ => [("Event"%string, sb_event s); ("Subscription-State"%string, sub_state_str st)]
  | CRegNotify s st _ => [("Event"%string, lit "reg"); ("Subscription-State"%string, sub_state_str st)]
  | _ => []
  end.
(** where the peer can reach us: requests that make a dialog or can move its
    target carry a Contact, a MESSAGE must not (RFC 3428) *)
Definition contact_wanted (u : uac) (c : call) : option str :=
  let c1 := lit "<" ++ u_raw (ua_contact u) ++ lit ">" in
  match c with
  | CRegister _ n => Some (c1 ++ lit ";expires=" ++ print_N n)
  | CInvite _ _ _ | CInviteBody _ _ _ | CSubscribe _ _ _ | CRegSubscribe _ _ | CReinvite _ _ | CUpdate _ _
  | CRefresh _ _ _ _ _ | CRefer _ _ | CReferReplaces _ _ _ | CNotify _ _ _ | CRegNotify _ _ _
  | CPrack _ _ _ | CPrackFrom _ _ => Some c1
  | _ => None
  end.

(** ** Outside and inside dialogs *)
(** a request outside a dialog is sent to its target *)
Definition target_outside (c : call) : option sip_uri :=
  match c with
  | CUnsolicited t _ _ _ _ | COptions t | CInvite t _ _ | CInviteBody t _ _ | CPublish t _ _ _ | CSubscribe t _ _
  | CRegSubscribe t _ | CMessage t _ _ => Some t
  | _ => None
  end.
Definition dialog_inside (c : call) : option dialog :=
  match c with
  | CBye d | CByeReason d _ | CReinvite d _ | CUpdate d _ | CRefresh d _ _ _ _ | CInfo d _ _ | CPrack _ _ d | CPrackFrom _ d
  | CRefer d _ | CReferReplaces d _ _ => Some d
  | _ => None
  end.
Definition subscription_of (c : call) : option subscription :=
  match c with CNotify s _ _ | CRegNotify s _ _ => Some s | _ => None end.
(** [v] ends with the address [u] in angle brackets and the tag [t] *)
Definition names_tag (v : str) (u : sip_uri) (t : str) : Prop :=
  exists d, v = d ++ lit "<" ++ u_raw u ++ lit ">;tag=" ++ t.
(** what a reader of a From or To value makes of it: the address and the tag *)
Definition reads_as (v : str) (u : any_uri) (tag : str) : Prop :=
  exists na, parse_name_addr v = Some na /\ na_uri na = u /\ bget (lit "tag") (na_ps na) = Some (Some tag).

(** ** Inputs *)
(** text without line breaks or NUL that is at most [mx] bytes long *)
Definition plain_text (mx : N) (s : str) : Prop := blen s <= mx /\ forall c, In c s -> c <> 13 /\ c <> 10 /\ c <> 0.
Definition plain_fresh (f : fresh) : Prop := plain_text 64 (fr_branch f) /\ plain_text 64 (fr_tag f) /\ plain_text 64 (fr_call f).
(** the address a request outside a dialog comes from *)
Definition sender (u : uac) (c : call) : sip_uri :=
  let usual := match ua_from u with Some x => x | None => ua_local u end in
  match c with
  | CUnsolicited _ _ _ _ _ | COptions _ => ua_local u
  | CInvite _ _ (Some x) => x
  | _ => usual
  end.
(** a new request, outside any dialog: addressed to its target, with new identifiers *)
Definition stands_alone (u : uac) (f : fresh) (c : call) (t : sip_uri) (q : req) : Prop :=
  q_uri q = SipU t /\ once q "To" (lit "<" ++ u_raw t ++ lit ">") /\ once q "Call-ID" (fr_call f ++ lit "@localhost")
  /\ once q "CSeq" (lit "1 " ++ method_str (q_method q))
  /\ once q "Via" (lit "SIP/2.0/UDP placeholder;branch=z9hG4bK" ++ fr_branch f)
  /\ (exists v, once q "From" v /\ names_tag v (sender u c) (fr_tag f)).
(** a request inside the dialog [d], as the builders make it *)
Definition belongs_to (d : dialog) (q : req) : Prop :=
  q_uri q = SipU (d_target d)
  /\ once q "To" (lit "<" ++ u_raw (d_ruri d) ++ lit ">;tag=" ++ di_remote (d_id d))
  /\ once q "Call-ID" (di_call (d_id d))
  /\ once q "CSeq" (print_N (N.min 4294967295 (d_lcseq d + 1)) ++ lit " " ++ method_str (q_method q))
  /\ (exists v u, once q "From" v /\ names_tag v u (di_local (d_id d))).
(** ... and a NOTIFY of a subscription *)
Definition notifies (s : subscription) (q : req) : Prop :=
  q_uri q = SipU (sb_contact s)
  /\ once q "To" (lit "<" ++ u_raw (sb_remote s) ++ lit ">;tag=" ++ sb_from s)
  /\ once q "Call-ID" (sb_call s)
  /\ once q "CSeq" (print_N (sb_lcseq s + 1) ++ lit " NOTIFY")
  /\ (exists v u, once q "From" v /\ names_tag v u (sb_to s)).
(** ** Inputs no builder can stumble over *)
Definition plain_uri_text (u : sip_uri) : Prop := plain_text 2048 (u_raw u).
Definition plain_opt (P : str -> Prop) (o : option str) : Prop := match o with Some s => P s | None => True end.
Definition plain_client (u : uac) : Prop :=
  plain_uri_text (ua_local u) /\ plain_uri_text (ua_contact u) /\ plain_opt (plain_text 100) (ua_display u)
  /\ (forall x, ua_from u = Some x -> plain_uri_text x) /\ plain_text 256 (ua_agent u)
  /\ (forall k v, In (k, v) (ua_calls u) -> plain_text 128 v) /\ (forall k v, In (k, v) (ua_tags u) -> plain_text 128 v).
Definition plain_dialog (d : dialog) : Prop :=
  plain_uri_text (d_luri d) /\ plain_uri_text (d_ruri d) /\ plain_text 256 (di_call (d_id d))
  /\ plain_text 256 (di_local (d_id d)) /\ plain_text 256 (di_remote (d_id d)).
(** bodies of at most 10 MiB, other texts without line breaks and of moderate size *)
Definition body_fits (s : str) : Prop := blen s <= 10485760.
Definition plain_sub (s : subscription) : Prop :=
  plain_uri_text (sb_remote s) /\ plain_text 256 (sb_call s) /\ plain_text 256 (sb_from s) /\ plain_text 256 (sb_to s)
  /\ plain_text 1024 (sb_event s) /\ sb_lcseq s < 4294967295.
Definition plain_call (c : call) : Prop :=
  match c with
  | CUnsolicited t e ct b s => plain_uri_text t /\ plain_text 1024 e /\ plain_text 1024 ct /\ plain_text 1024 s /\ body_fits b
  | COptions t => plain_uri_text t
  | CInvite t sdp o => plain_uri_text t /\ plain_opt body_fits sdp /\ (forall x, o = Some x -> plain_uri_text x)
  | CInviteBody t b ct => plain_uri_text t
  | CPublish t e ct b => plain_uri_text t
  | CSubscribe t e n => plain_uri_text t /\ plain_text 1024 e /\ n <= 4294967295
  | CRegSubscribe t n => plain_uri_text t /\ n <= 4294967295
  | CMessage t ct b => plain_uri_text t /\ plain_text 1024 ct /\ body_fits b
  | CRegister r n => plain_uri_text r /\ n <= 4294967295
  | CBye d => plain_dialog d
  | CByeReason d r => plain_dialog d /\ plain_text 1024 r
  | CReinvite d sdp | CUpdate d sdp => plain_dialog d /\ plain_opt body_fits sdp
  | CRefresh d n w _ sdp => plain_dialog d /\ plain_opt body_fits sdp /\ n <= 4294967295 /\ plain_text 1024 w
  | CInfo d _ _ => plain_dialog d
  | CPrack i p d => plain_dialog d /\ forall v, header_of (q_headers i) (lit "CSeq") = Some v -> plain_text 4000 v
  | CPrackFrom p d => plain_dialog d /\ forall v, header_of (p_headers p) (lit "CSeq") = Some v -> plain_text 4000 v
  | CRefer d r => plain_dialog d /\ plain_uri_text r
  | CReferReplaces d r t => plain_dialog d /\ plain_uri_text r /\ plain_dialog t
      /\ is_str (di_call (d_id t)) = true /\ is_str (di_local (d_id t)) = true /\ is_str (di_remote (d_id t)) = true
  | CNotify s _ b => plain_sub s /\ plain_opt body_fits b
  | CRegNotify s _ x => plain_sub s /\ body_fits x
  end.

(** an address that is a parsed SIP URI without quotes, closing brackets or blanks *)
Definition addressable (x : sip_uri) : Prop :=
  parse_any (u_raw x) = Some (ASip x) /\ forall c, In c (u_raw x) -> c <> 34 /\ c <> 62 /\ is_ws c = false.
Definition tag_text (t : str) : Prop := t <> [] /\ blen t <= 256 /\ forall c, In c t -> is_alnum c = true.
(** the address and the tag a call's request comes from, as the client is configured *)
Definition speaker (u : uac) (f : fresh) (c : call) : sip_uri * str :=
  match c with
  | CBye d | CByeReason d _ => (d_luri d, di_local (d_id d))
  | CReinvite d _ | CUpdate d _ | CRefresh d _ _ _ _ | CInfo d _ _ | CPrack _ _ d | CPrackFrom _ d
  | CRefer d _ | CReferReplaces d _ _ => (ua_local u, di_local (d_id d))
  | CNotify s _ _ | CRegNotify s _ _ => (ua_local u, sb_to s)
  | CRegister r _ => (sender u c, match lookup str_eqb (u_raw r) (ua_tags u) with Some t => t | None => fr_tag f end)
  | _ => (sender u c, fr_tag f)
  end.
(** the calls whose From would carry the display name as it was given *)
Definition as_given (c : call) : bool :=
  match c with CReinvite _ _ | CUpdate _ _ | CRefresh _ _ _ _ _ | CPrack _ _ _ | CPrackFrom _ _ => true | _ => false end.

(** ** Answering a challenge *)
(** the headers that the retry rewrites are spelled as this program spells them *)
Definition canonical (q : req) : Prop :=
  forall n v, In (n, v) (q_headers q) -> (eq_ic n (lit "Via") = true -> n = lit "Via") /\ (eq_ic n (lit "CSeq") = true -> n = lit "CSeq").
(** a Via value as a list of parameters after its first part *)
Definition piece (p : str) : Prop := p <> [] /\ trim p = p /\ ~ In 59 p.
Definition is_branch (p : str) : bool := starts_with (lit "branch=") (lower p).
Definition via_with (base : str) (before : list str) (b : str) (after : list str) : str :=
  base ++ flat_map (fun p => 59 :: p) (before ++ [lit "branch=" ++ b] ++ after).

(** ** Routing inside a dialog (RFC 3261 12.2.1.1) *)
Definition bracketed (u : sip_uri) : str := lit "<" ++ u_raw u ++ lit ">".
(** the URI has the parameter lr *)
Definition loose (u : sip_uri) : Prop := exists v, In (lit "lr", v) (u_params u).
(** the request line's URI, the Route values and the next hop for the remote
    target [t] and the route set [rs] *)
Inductive routed (t : sip_uri) : list sip_uri -> sip_uri -> list str -> sip_uri -> Prop :=
| routed_direct : routed t [] t [] t
| routed_loose : forall r rs, loose r -> routed t (r :: rs) t (map bracketed (r :: rs)) r
| routed_strict : forall r rs, ~ loose r -> routed t (r :: rs) r (map bracketed (rs ++ [t])) r.

(** ** ACK and CANCEL *)
(** header names are spelled as in [ns] *)
Definition spelled (ns : list string) (hs : headers) : Prop :=
  forall n v k, In (n, v) hs -> In k ns -> eq_ic n (lit k) = true -> n = lit k.
(** the first value of a header is copied, if there is one *)
Definition copies (n : string) (from : headers) (q : req) : Prop :=
  hget_all (lit n) (q_headers q) = match hget_all (lit n) from with [] => [] | v :: _ => [v] end.

(** ** The session timer *)
(** how many of the last ticks, counted backwards, were failures *)
Fixpoint failures (newest_first : list tick) : N :=
  match newest_first with
  | RefreshFailed _ :: r => 1 + failures r
  | _ => 0
  end.
Definition stopped (s : timer_state) : bool := match s with Stopped_gone | Stopped_exhausted _ => true | _ => false end.
(** the challenges at the start of a list of status codes *)
Fixpoint challenges (rs : list N) : N :=
  match rs with
  | c :: r => if (c =? 401) || (c =? 407) then 1 + challenges r else 0
  | [] => 0
  end.
(** an ACK of the response [rs] to [invite] with the body [sdp] (13.2.2.4, 17.1.1.3) *)
Definition acknowledges (agent : str) (invite : req) (rs : resp) (sdp : option str) (q : req) : Prop :=
  method_str (q_method q) = lit "ACK"
  /\ copies "From" (q_headers invite) q /\ copies "Call-ID" (q_headers invite) q /\ copies "To" (p_headers rs) q
  /\ (forall n m vs, hget_all (lit "CSeq") (q_headers invite) = (print_N n ++ lit " " ++ m) :: vs -> once q "CSeq" (print_N n ++ lit " ACK"))
  /\ once q "Max-Forwards" (lit "70") /\ once q "User-Agent" agent
  /\ match sdp with
     | Some s => q_body q = utf8 s /\ once q "Content-Type" (lit "application/sdp")
     | None => q_body q = [] /\ never q "Content-Type"
     end
  /\ once q "Content-Length" (print_N (llen (q_body q))).

(** ** Numbers used by everyone who shares a dialog *)
Definition quiet (a : action) : Prop := match a with AChallenged _ | AOwnerBye => False | _ => True end.

(** ** Service-Route *)
(** the address of a proxy: it reads back as itself, has no headers, and no comma *)
Definition proxy_uri (u : sip_uri) : Prop := addressable u /\ u_headers u = [] /\ ~ In 44 (u_raw u).
Fixpoint listed (vs : list str) : str :=
  match vs with [] => [] | [v] => v | v :: r => v ++ lit ", " ++ listed r end.
(** the text of a branch: no semicolon, equals sign or blank *)
Definition branch_token (b : str) : Prop := b <> [] /\ forall c, In c b -> c <> 59 /\ c <> 61 /\ is_ws c = false.
