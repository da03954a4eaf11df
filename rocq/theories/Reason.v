(** Model of the Reason header (crates/sip-core/src/reason.rs, RFC 3326).
    Errors are one value: which one it is is not modelled. *)
From Coq Require Import NArith Bool String List.
Import ListNotations.
From Verif Require Import Base Text.
Open Scope N_scope.
Open Scope list_scope.

(** reason.rs:10-14 limits *)
Definition RS_MAX_PROTOCOL : N := 32.
Definition RS_MAX_NAME : N := 64.
Definition RS_MAX_VALUE : N := 256.
Definition RS_MAX_PARAMS : N := 20.
Definition RS_MAX_INPUT : N := 1024.

(** reason.rs:83-87 [ReasonHeader]; the parameters are sorted by name *)
Record reason := mkReason { rs_protocol : str; rs_params : list (str * option str) }.

(** reason.rs:130-243 [Q850Cause], its [code], [text] and [from_code]: a cause
    is its code, which is in this table *)
Definition Q850 : list (N * str) :=
  [(1, lit "Unallocated Number"); (2, lit "No Route to Transit Network"); (3, lit "No Route to Destination");
   (16, lit "Normal Call Clearing"); (17, lit "User Busy"); (18, lit "No User Responding"); (19, lit "No Answer");
   (20, lit "Subscriber Absent"); (21, lit "Call Rejected"); (22, lit "Number Changed");
   (27, lit "Destination Out of Order"); (28, lit "Invalid Number Format"); (29, lit "Facility Rejected");
   (31, lit "Normal Unspecified"); (34, lit "No Circuit Available"); (38, lit "Network Out of Order");
   (41, lit "Temporary Failure"); (42, lit "Switching Equipment Congestion"); (47, lit "Resource Unavailable");
   (55, lit "Incoming Calls Barred"); (57, lit "Bearer Capability Not Authorized");
   (58, lit "Bearer Capability Not Available");
   (63, lit "Service Not Available"); (65, lit "Bearer Capability Not Implemented");
   (79, lit "Service Not Implemented"); (87, lit "User Not Member of CUG"); (88, lit "Incompatible Destination");
   (102, lit "Recovery on Timer Expiry"); (111, lit "Protocol Error"); (127, lit "Interworking Unspecified")].
Definition q850_text (c : N) : option str := lookup N.eqb c Q850.
Definition q850_from_code (c : N) : option N := match q850_text c with Some _ => Some c | None => None end.
(** reason.rs:457-513 [sip_response_text] *)
Definition SIP_TEXTS : list (N * str) :=
  [(100, lit "Trying"); (180, lit "Ringing"); (181, lit "Call Is Being Forwarded"); (182, lit "Queued"); (183,
   lit "Session Progress"); (200, lit "OK"); (202, lit "Accepted"); (300, lit "Multiple Choices");
   (301, lit "Moved Permanently"); (302, lit "Moved Temporarily"); (305, lit "Use Proxy");
   (380, lit "Alternative Service"); (400, lit "Bad Request"); (401, lit "Unauthorized");
   (402, lit "Payment Required"); (403, lit "Forbidden"); (404, lit "Not Found"); (405, lit "Method Not Allowed");
   (406, lit "Not Acceptable"); (407, lit "Proxy Authentication Required"); (408, lit "Request Timeout");
   (410, lit "Gone"); (413, lit "Request Entity Too Large"); (414, lit "Request-URI Too Long");
   (415, lit "Unsupported Media Type"); (416, lit "Unsupported URI Scheme"); (420, lit "Bad Extension");
   (421, lit "Extension Required"); (423, lit "Interval Too Brief");
   (480, lit "Temporarily Unavailable"); (481, lit "Call/Transaction Does Not Exist"); (482, lit "Loop Detected");
   (483, lit "Too Many Hops"); (484, lit "Address Incomplete"); (485, lit "Ambiguous"); (486, lit "Busy Here");
   (487, lit "Request Terminated"); (488, lit "Not Acceptable Here"); (491, lit "Request Pending");
   (493, lit "Undecipherable"); (500, lit "Server Internal Error"); (501, lit "Not Implemented");
   (502, lit "Bad Gateway"); (503, lit "Service Unavailable"); (504, lit "Server Time-out");
   (505, lit "Version Not Supported");
   (513, lit "Message Too Large"); (600, lit "Busy Everywhere"); (603, lit "Decline");
   (604, lit "Does Not Exist Anywhere"); (606, lit "Not Acceptable")].
Definition sip_text (c : N) : str := match lookup N.eqb c SIP_TEXTS with Some t => t | None => lit "Unknown" end.

(** reason.rs:397-415 [validate_protocol], 418-436 [validate_param_name] *)
Definition rs_word (mx : N) (s : str) : bool :=
  negb (str_eqb s []) && (blen s <=? mx) && negb (existsb is_ascii_control s).
(** reason.rs:439-455 [validate_param_value] *)
Definition rs_value (s : str) : bool := (blen s <=? RS_MAX_VALUE) && negb (existsb is_ascii_control s).
(** reason.rs:99-120 [ReasonProtocol::as_str], [from_str] as used by the
    constructors: the known names get their usual spelling *)
Definition canonical_protocol (s : str) : str :=
  if str_eqb (lower s) (lit "sip") then lit "SIP"
  else if str_eqb (lower s) (lit "q.850") then lit "Q.850"
  else if str_eqb (lower s) (lit "sdp") then lit "SDP" else s.

(** reason.rs:248-261 [ReasonHeader::q850] *)
Definition reason_q850 (cause : N) : option reason :=
  match q850_text cause with
  | Some t => Some (mkReason (lit "Q.850") [(lit "cause", Some (print_N cause)); (lit "text", Some t)])
  | None => None
  end.
(** reason.rs:263-282 [ReasonHeader::sip] *)
Definition reason_sip (code : N) (text : option str) : option reason :=
  let t := match text with Some t => t | None => sip_text code end in
  if rs_value t then Some (mkReason (lit "SIP") [(lit "cause", Some (print_N code)); (lit "text", Some t)]) else None.
Fixpoint reason_normal (ps : list (str * option str)) (acc : list (str * option str)) : option (list (str * option str)) :=
  match ps with
  | [] => Some acc
  | (n, v) :: r =>
      let name := lower n in
      if rs_word RS_MAX_NAME name && match v with Some x => rs_value x | None => true end && negb (is_some (bget name acc))
      then reason_normal r (bput name v acc) else None
  end.
(** reason.rs:284-319 [ReasonHeader::new] *)
Definition reason_new (protocol : str) (ps : list (str * option str)) : option reason :=
  if rs_word RS_MAX_PROTOCOL protocol && (llen ps <=? RS_MAX_PARAMS) then
    match reason_normal ps [] with
    | Some m => Some (mkReason (canonical_protocol protocol) m)
    | None => None
    end
  else None.

(** reason.rs:341-346 [cause_code]: a u16 *)
Definition cause_code (h : reason) : option N :=
  match bget (lit "cause") (rs_params h) with Some (Some s) => parse_uint 65535 s | _ => None end.
(** reason.rs:349-354 [text] *)
Definition reason_text (h : reason) : option str :=
  match bget (lit "text") (rs_params h) with Some (Some s) => Some s | _ => None end.
(** reason.rs:357-373 [is_q850], [is_sip], [as_q850_cause] *)
Definition is_q850 (h : reason) : bool := eq_ic (rs_protocol h) (lit "Q.850").
Definition is_sip (h : reason) : bool := eq_ic (rs_protocol h) (lit "SIP").
Definition as_q850 (h : reason) : option N :=
  if is_q850 h then match cause_code h with Some c => q850_from_code c | None => None end else None.

(** reason.rs:376-394 [Display] *)
Definition rs_quotes (k v : str) : bool := str_eqb k (lit "text") || existsb (fun c => is_ws c || (c =? 59)) v.
Definition print_rs_param (p : str * option str) : str :=
  [59] ++ fst p ++ match snd p with
                   | None => []
                   | Some v => if rs_quotes (fst p) v then [61; 34] ++ v ++ [34] else [61] ++ v
                   end.
Definition reason_print (h : reason) : str := rs_protocol h ++ concat (map print_rs_param (rs_params h)).

(** reason.rs:589-615 [unescape_quoted_string] *)
Fixpoint rs_unescape (s : str) (escape : bool) : option str :=
  match s with
  | [] => if escape then None else Some []
  | c :: r =>
      if escape then match rs_unescape r false with Some o => Some (c :: o) | None => None end
      else if c =? 92 then rs_unescape r true
      else if is_ascii_control c then None
      else match rs_unescape r false with Some o => Some (c :: o) | None => None end
  end.
(** reason.rs:550-556: the inside of a text that starts and ends with a double
    quote and has at least two bytes *)
Definition in_quotes (s : str) : option str :=
  match s with
  | c :: r => if c =? 34 then match rev r with d :: m => if d =? 34 then Some (rev m) else None | [] => None end else None
  | [] => None
  end.
Definition rs_unquote (raw : str) : option str :=
  match in_quotes raw with Some i => rs_unescape i false | None => Some raw end.
(** reason.rs:534-576: the loop over the trimmed parameters *)
Fixpoint rs_loop (ps : list str) (m : list (str * option str)) : option (list (str * option str)) :=
  match ps with
  | [] => Some m
  | p :: r =>
      if str_eqb p [] then rs_loop r m
      else if RS_MAX_PARAMS <=? llen m then None
      else match split_once 61 p with
           | Some (n, v) =>
               let name := lower (trim n) in
               match rs_unquote (trim v) with
               | Some x => if rs_word RS_MAX_NAME name && rs_value x && negb (is_some (bget name m)) then rs_loop r (bput name (Some x) m) else None
               | None => None
               end
           | None =>
               let name := lower p in
               if rs_word RS_MAX_NAME name && negb (is_some (bget name m)) then rs_loop r (bput name None m) else None
           end
  end.
(** reason.rs:521-586 [parse_reason_from_string] *)
Definition reason_parse (s : str) : option reason :=
  if RS_MAX_INPUT <? blen s then None
  else match map trim (split_on 59 s) with
       | [] => None
       | p :: ps => if rs_word RS_MAX_PROTOCOL p then
                      match rs_loop ps [] with Some m => Some (mkReason (canonical_protocol p) m) | None => None end
                    else None
       end.
