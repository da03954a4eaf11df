(** Messages and the helpers shared by the dialog, registrar and proxy models. *)
From Coq Require Import NArith Bool String List.
Import ListNotations.
From Verif Require Import Base Headers Method Text Uri.
Open Scope N_scope.
Open Scope list_scope.

(** crates/sip-core/src/uri.rs:583-600 [Uri]: SIP URIs are modelled, the other
    schemes are opaque text *)
Inductive uri := SipU (u : sip_uri) | OtherU (text : str).
(** uri.rs:640-650 [Uri::as_str] *)
Definition uri_text (u : uri) : str := match u with SipU s => u_raw s | OtherU t => t end.
Definition uri_sip (u : uri) : option sip_uri := match u with SipU s => Some s | OtherU _ => None end.

(** crates/sip-core/src/msg.rs [Request], [Response]; the SIP version of the
    start line is fixed *)
Record req := mkReq { q_method : method; q_uri : uri; q_headers : headers; q_body : list N }.
Record resp := mkResp { p_code : N; p_reason : str; p_headers : headers; p_body : list N }.

(** crates/sip-parse/src/lib.rs:375-398 [canonical_header_name] *)
Definition canonical_table : list (str * str) :=
  [(lit "i", lit "Call-ID"); (lit "f", lit "From"); (lit "t", lit "To"); (lit "m", lit "Contact");
   (lit "l", lit "Content-Length"); (lit "s", lit "Subject"); (lit "k", lit "Supported");
   (lit "o", lit "Event"); (lit "e", lit "Content-Encoding"); (lit "c", lit "Content-Type");
   (lit "v", lit "Via"); (lit "r", lit "Refer-To"); (lit "b", lit "Referred-By");
   (lit "d", lit "Request-Disposition"); (lit "x", lit "Session-Expires");
   (lit "a", lit "Accept-Contact"); (lit "u", lit "Allow-Events")].
Definition canonical_name (n : str) : str :=
  match lookup str_eqb (lower n) canonical_table with Some c => c | None => n end.
(** crates/sip-parse/src/lib.rs:324-329 [header] *)
Definition header_of (hs : headers) (name : str) : option str :=
  match hget name hs with
  | Some v => Some v
  | None => hget (canonical_name name) hs
  end.

(** an operation that may panic *)
Inductive outcome (A : Type) := Ret (a : A) | Panics.
Arguments Ret {A}. Arguments Panics {A}.

(** [&s[..n]] and [&s[n..]] for a byte index [n]: [None] when the index is past
    the end or not a character boundary (Rust panics) *)
Fixpoint split_bytes (n : N) (s : str) : option (str * str) :=
  if n =? 0 then Some ([], s)
  else match s with
       | [] => None
       | c :: r => if len_utf8 c <=? n then
                     match split_bytes (n - len_utf8 c) r with
                     | Some (a, b) => Some (c :: a, b) | None => None end
                   else None
       end.

(** crates/sip-core/src/session_timer.rs: RefresherRole and Session-Expires *)
Inductive refresher := RUac | RUas.
Definition refresher_str (r : refresher) : str := match r with RUac => lit "uac" | RUas => lit "uas" end.
(** session_timer.rs [RefresherRole::parse]; [to_lowercase] agrees with ASCII
    lower-casing as far as these two words are concerned *)
Definition refresher_parse (s : str) : option refresher :=
  let l := lower (trim s) in
  if str_eqb l (lit "uac") then Some RUac else if str_eqb l (lit "uas") then Some RUas else None.
Definition SE_MIN : N := 90.
Definition SE_MAX : N := 86400.
(** session_timer.rs [SessionExpires::parse] *)
Definition se_parse (input : str) : option (N * option refresher) :=
  if existsb is_control input then None
  else match trim input with
  | [] => None
  | i => match split_on 59 i with
         | [] => None
         | d :: ps =>
             match parse_uint u32_max (trim d) with
             | None => None
             | Some n =>
                 if (n <? SE_MIN) || (SE_MAX <? n) then None
                 else Some (n, fold_left (fun acc p =>
                        match strip_prefix (lit "refresher=") (trim p) with
                        | Some v => refresher_parse (trim v) | None => acc end) ps None)
             end
         end
  end.
(** session_timer.rs [SessionExpires] Display *)
Definition se_print (n : N) (r : option refresher) : str :=
  print_N n ++ match r with Some r => lit ";refresher=" ++ refresher_str r | None => [] end.
(** session_timer.rs [MinSessionExpires::parse] *)
Definition MIN_SE_MAX : N := 7200.
Definition min_se_parse (input : str) : option N :=
  if existsb is_control input then None
  else match trim input with
  | [] => None
  | i => match parse_uint u32_max i with
         | None => None
         | Some n => if (n <? SE_MIN) || (MIN_SE_MAX <? n) then None else Some n
         end
  end.
