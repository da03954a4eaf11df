(** Model of registration event documents: crates/sip-core/src/reg_event.rs.  Errors are
    [None]: which of them is reported is not modelled.  Numbers given to the builders are
    u32. *)
From Coq Require Import NArith Bool String List.
Import ListNotations.
From Verif Require Import Base.
Open Scope N_scope.
Open Scope list_scope.

(** 111-125 [RegInfoState], [as_str] *)
Inductive doc_state := Full | Partial.
Definition doc_state_text (s : doc_state) : str := match s with Full => lit "full" | Partial => lit "partial" end.
(** 196-211 [RegistrationState], [as_str] *)
Inductive reg_state := Init | RActive | RTerminated.
Definition reg_state_text (s : reg_state) : str := match s with Init => lit "init" | RActive => lit "active" | RTerminated => lit "terminated" end.
(** 374-387 [ContactState], [as_str] *)
Inductive con_state := CActive | CTerminated.
Definition con_state_text (s : con_state) : str := match s with CActive => lit "active" | CTerminated => lit "terminated" end.
(** 390-418 [ContactEvent], [as_str] *)
Inductive event := Registered | Created | Refreshed | Shortened | Expired | Deactivated | Rejected | Unregistered | Probation.
Definition event_text (e : event) : str :=
  match e with
  | Registered => lit "registered" | Created => lit "created" | Refreshed => lit "refreshed" | Shortened => lit "shortened" | Expired => lit "expired"
  | Deactivated => lit "deactivated" | Rejected => lit "rejected" | Unregistered => lit "unregistered" | Probation => lit "probation"
  end.
(** 420-441 [parse], [from_str] *)
Definition event_of (s : str) : option event :=
  if str_eqb s (lit "registered") then Some Registered else if str_eqb s (lit "created") then Some Created else if str_eqb s (lit "refreshed") then Some Refreshed
  else if str_eqb s (lit "shortened") then Some Shortened else if str_eqb s (lit "expired") then Some Expired else if str_eqb s (lit "deactivated") then Some Deactivated
  else if str_eqb s (lit "rejected") then Some Rejected else if str_eqb s (lit "unregistered") then Some Unregistered else if str_eqb s (lit "probation") then Some Probation else None.

(** an [f32]: whether it lies in 0.0..=1.0 and what [Display] writes for it.  Floating
    point itself is not modelled. *)
Record real := mkReal { in_unit : bool; shown : str }.
(** 215-227 [Contact], 129-134 [Registration], 58-63 [RegInfo] *)
Record contact := mkContact { c_id : str; c_state : con_state; c_event : option event; c_uri : str; c_name : option str; c_expires : option N; c_retry : option N; c_duration : option N; c_q : option real; c_call : option str; c_cseq : option N }.
Record registration := mkReg { r_aor : str; r_id : str; r_state : reg_state; r_contacts : list contact }.
Record reginfo := mkInfo { i_version : N; i_state : doc_state; i_regs : list registration }.

(** ** Checks *)
(** 445-464 [validate_uri] *)
Definition uri_ok (s : str) : bool := negb (str_eqb s []) && (blen s <=? 512) && negb (existsb is_ascii_control s).
(** 466-485 [validate_id] *)
Definition id_ok (s : str) : bool := negb (str_eqb s []) && (blen s <=? 128) && negb (existsb is_ascii_control s).
(** 487-502 [validate_display_name] *)
Definition name_ok (s : str) : bool := (blen s <=? 256) && negb (existsb is_ascii_control s).
(** 504-522 [validate_call_id] *)
Definition call_ok (s : str) : bool := negb (str_eqb s []) && (blen s <=? 256) && negb (existsb is_ascii_control s).

(** ** Building *)
(** 67-73 [RegInfo::new] *)
Definition info_new (v : N) (s : doc_state) : reginfo := mkInfo v s [].
(** 80-89 [add_registration] *)
Definition add_registration (d : reginfo) (r : registration) : option reginfo :=
  if 100 <=? llen (i_regs d) then None else Some (mkInfo (i_version d) (i_state d) (i_regs d ++ [r])).
(** 142-156 [Registration::new] *)
Definition reg_new (aor i : str) (s : reg_state) : option registration := if uri_ok aor && id_ok i then Some (mkReg aor i s []) else None.
(** 163-172 [add_contact] *)
Definition add_contact (r : registration) (c : contact) : option registration :=
  if 50 <=? llen (r_contacts r) then None else Some (mkReg (r_aor r) (r_id r) (r_state r) (r_contacts r ++ [c])).
(** 235-256 [Contact::new] *)
Definition contact_new (i : str) (s : con_state) (u : str) : option contact := if id_ok i && uri_ok u then Some (mkContact i s None u None None None None None None None) else None.
(** 259-262 [with_event], 265-268 [with_expires], 299-302 [with_cseq], 318-321
    [with_retry_after], 324-327 [with_duration_registered] *)
Definition with_event (c : contact) (e : event) : contact := mkContact (c_id c) (c_state c) (Some e) (c_uri c) (c_name c) (c_expires c) (c_retry c) (c_duration c) (c_q c) (c_call c) (c_cseq c).
Definition with_expires (c : contact) (n : N) : contact := mkContact (c_id c) (c_state c) (c_event c) (c_uri c) (c_name c) (Some n) (c_retry c) (c_duration c) (c_q c) (c_call c) (c_cseq c).
Definition with_cseq (c : contact) (n : N) : contact := mkContact (c_id c) (c_state c) (c_event c) (c_uri c) (c_name c) (c_expires c) (c_retry c) (c_duration c) (c_q c) (c_call c) (Some n).
Definition with_retry (c : contact) (n : N) : contact := mkContact (c_id c) (c_state c) (c_event c) (c_uri c) (c_name c) (c_expires c) (Some n) (c_duration c) (c_q c) (c_call c) (c_cseq c).
Definition with_duration (c : contact) (n : N) : contact := mkContact (c_id c) (c_state c) (c_event c) (c_uri c) (c_name c) (c_expires c) (c_retry c) (Some n) (c_q c) (c_call c) (c_cseq c).
(** 275-279 [with_display_name], 286-290 [with_call_id], 309-315 [with_q] *)
Definition with_name (c : contact) (n : str) : option contact :=
  if name_ok n then Some (mkContact (c_id c) (c_state c) (c_event c) (c_uri c) (Some n) (c_expires c) (c_retry c) (c_duration c) (c_q c) (c_call c) (c_cseq c)) else None.
Definition with_call (c : contact) (i : str) : option contact :=
  if call_ok i then Some (mkContact (c_id c) (c_state c) (c_event c) (c_uri c) (c_name c) (c_expires c) (c_retry c) (c_duration c) (c_q c) (Some i) (c_cseq c)) else None.
Definition with_q (c : contact) (q : real) : option contact :=
  if in_unit q then Some (mkContact (c_id c) (c_state c) (c_event c) (c_uri c) (c_name c) (c_expires c) (c_retry c) (c_duration c) (Some q) (c_call c) (c_cseq c)) else None.

(** ** Writing *)
(** 525-536 [xml_escape] *)
Definition escape_c (c : N) : str :=
  if c =? 60 then lit "&lt;" else if c =? 62 then lit "&gt;" else if c =? 38 then lit "&amp;" else if c =? 34 then lit "&quot;" else if c =? 39 then lit "&apos;" else [c].
Definition escape (s : str) : str := flat_map escape_c s.
Definition NL : str := [10].
(** one attribute with the blank before it; those of an absent value are left out *)
Definition attr (n v : str) : str := lit " " ++ n ++ lit "=""" ++ v ++ lit """".
Definition opt_attr (n : str) (o : option str) : str := match o with Some v => attr n v | None => [] end.
(** 565-617: one contact *)
Definition contact_xml (c : contact) : str :=
  lit "    <contact" ++ attr (lit "id") (escape (c_id c)) ++ attr (lit "state") (con_state_text (c_state c))
  ++ opt_attr (lit "event") (option_map event_text (c_event c)) ++ opt_attr (lit "expires") (option_map print_N (c_expires c))
  ++ opt_attr (lit "retry-after") (option_map print_N (c_retry c)) ++ opt_attr (lit "duration-registered") (option_map print_N (c_duration c))
  ++ opt_attr (lit "q") (option_map shown (c_q c)) ++ opt_attr (lit "callid") (option_map escape (c_call c)) ++ opt_attr (lit "cseq") (option_map print_N (c_cseq c))
  ++ lit ">" ++ NL ++ lit "      <uri>" ++ escape (c_uri c) ++ lit "</uri>" ++ NL
  ++ match c_name c with Some n => lit "      <display-name>" ++ escape n ++ lit "</display-name>" ++ NL | None => [] end
  ++ lit "    </contact>" ++ NL.
(** 555-563, 619-620: one registration *)
Definition reg_xml (r : registration) : str :=
  lit "  <registration" ++ attr (lit "aor") (escape (r_aor r)) ++ attr (lit "id") (escape (r_id r)) ++ attr (lit "state") (reg_state_text (r_state r)) ++ lit ">" ++ NL
  ++ flat_map contact_xml (r_contacts r) ++ lit "  </registration>" ++ NL.
(** 543-626 [Display for RegInfo] *)
Definition to_xml (d : reginfo) : str :=
  lit "<?xml version=""1.0""?>" ++ NL
  ++ lit "<reginfo" ++ attr (lit "xmlns") (lit "urn:ietf:params:xml:ns:reginfo") ++ attr (lit "version") (print_N (i_version d)) ++ attr (lit "state") (doc_state_text (i_state d)) ++ lit ">" ++ NL
  ++ flat_map reg_xml (i_regs d) ++ lit "</reginfo>" ++ NL.
