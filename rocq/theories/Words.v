(** Model of the headers that hold one word or line: crates/sip-core/src/event.rs,
    sip_etag.rs, refer_sub.rs, subject.rs, priority.rs and version.rs.  Errors are
    [None]: which of them is reported is not modelled. *)
From Coq Require Import NArith Bool String List.
Import ListNotations.
From Verif Require Import Base Text.
Open Scope N_scope.
Open Scope list_scope.

(** event.rs:408-417 [is_token]; sip_etag.rs:87-94 *)
Definition token_c (c : N) : bool := is_alnum c || mem c (lit "-.!%*_+`'~").
(** event.rs:268-298 [validate_package], 300-325 [validate_id], 327-353
    [validate_param_name], 355-376 [validate_param_value], 378-406 [validate_state]:
    the same four checks with another limit (an empty value is no token) *)
Definition word_ok (mx : N) (s : str) : bool :=
  negb (str_eqb s []) && (blen s <=? mx) && negb (existsb is_ascii_control s) && forallb token_c s.

(** event.rs:74-79 [EventHeader]; params is a BTreeMap *)
Definition params := list (str * option str).
Record event := mkEvent { ev_package : str; ev_id : option str; ev_params : params }.
(** 86-94 [EventHeader::new] *)
Definition event_new (package : str) : option event :=
  if word_ok 64 package then Some (mkEvent package None []) else None.
(** 97-101 [with_id] *)
Definition with_id (e : event) (id : str) : option event :=
  if word_ok 256 id then Some (mkEvent (ev_package e) (Some id) (ev_params e)) else None.
(** 110-132 and 189-211 [add_param] (103-107 and 182-186 [with_param]) *)
Definition params_add (p : params) (n : str) (v : option str) : option params :=
  if word_ok 64 n && match v with Some t => word_ok 256 t | None => true end && (llen p <? 20) && is_none (bget (lower n) p)
  then Some (bput (lower n) v p) else None.
Definition event_add (e : event) (n : str) (v : option str) : option event :=
  match params_add (ev_params e) n v with Some p => Some (mkEvent (ev_package e) (ev_id e) p) | None => None end.
(** 151-154 and 226-229 [get_param] *)
Definition params_get (p : params) (n : str) : option (option str) := bget (lower n) p.

(** 231-237 [SubscriptionState] *)
Inductive sub_state := Active | Pending | Terminated | Unknown (s : str).
(** 241-251 [SubscriptionState::parse] *)
Definition state_parse (s : str) : option sub_state :=
  let l := lower s in
  if str_eqb l (lit "active") then Some Active
  else if str_eqb l (lit "pending") then Some Pending
  else if str_eqb l (lit "terminated") then Some Terminated
  else if word_ok 32 s then Some (Unknown s) else None.
(** 253-260 [as_str] *)
Definition state_text (x : sub_state) : str :=
  match x with Active => lit "active" | Pending => lit "pending" | Terminated => lit "terminated" | Unknown s => s end.
(** 165-169 [SubscriptionStateHeader] *)
Record sub_header := mkSub { sh_state : sub_state; sh_params : params }.
Definition sub_new (x : sub_state) : sub_header := mkSub x [].
Definition sub_add (h : sub_header) (n : str) (v : option str) : option sub_header :=
  match params_add (sh_params h) n v with Some p => Some (mkSub (sh_state h) p) | None => None end.

(** sip_etag.rs:65-101 [validate_entity_tag]; 174-179, 202-204 and 282-287, 310-312
    [new], [parse] of both headers *)
Definition etag_ok (s : str) : bool :=
  negb (str_eqb s []) && (blen s <=? 128) && negb (existsb (fun c => is_ascii_control c || is_ws c) s)
  && negb (existsb (fun c => negb (token_c c)) s).
Definition etag_new (s : str) : option str := if etag_ok s then Some s else None.
(** 209-212, 317-326 [constant_time_eq], [matches_etag]: equality of the bytes (the time it
    takes is not modelled) *)
Definition etag_match (a b : str) : bool := str_eqb (utf8 a) (utf8 b).

(** refer_sub.rs:261-273 [ReferSubHeader::parse] and 296-299 [Display] *)
Definition refer_sub_parse (s : str) : option bool :=
  if blen s <=? 16 then
    let v := lower (trim s) in
    if str_eqb v (lit "true") then Some true else if str_eqb v (lit "false") then Some false else None
  else None.
Definition refer_sub_text (b : bool) : str := if b then lit "true" else lit "false".

(** subject.rs:66-95 [validate_subject] and 150-155, 188-190 [new], [parse] *)
Definition blank (c : N) : bool := (c =? 32) || (c =? 9).
Definition subject_ok (s : str) : bool :=
  negb (str_eqb s [] || forallb blank s) && (blen s <=? 256)
  && forallb (fun c => blank c || in_range 33 126 c) s
  && negb (existsb (fun c => is_control c && negb (c =? 9)) s).
Definition subject_new (s : str) : option str := if subject_ok s then Some s else None.

(** priority.rs:61-75 [PriorityValue] *)
Inductive priority := Emergency | Urgent | Normal | NonUrgent | Extension (s : str).
(** 79-87 [as_str] *)
Definition priority_text (p : priority) : str :=
  match p with
  | Emergency => lit "emergency" | Urgent => lit "urgent" | Normal => lit "normal" | NonUrgent => lit "non-urgent"
  | Extension s => s
  end.
(** 204-237 [validate_priority_token] *)
Definition priority_c (c : N) : bool := is_alnum c || mem c (lit "!%'*+-.^_`|~").
Definition priority_ok (s : str) : bool :=
  negb (str_eqb s []) && (blen s <=? 32) && negb (existsb is_ascii_control s) && forallb priority_c s.
(** 129-145 [parse] *)
Definition priority_parse (s : str) : option priority :=
  let l := lower s in
  if str_eqb l (lit "emergency") then Some Emergency
  else if str_eqb l (lit "urgent") then Some Urgent
  else if str_eqb l (lit "normal") then Some Normal
  else if str_eqb l (lit "non-urgent") then Some NonUrgent
  else if priority_ok s then Some (Extension l) else None.
(** 165-173 [urgency_level] *)
Definition urgency (p : priority) : option N :=
  match p with Emergency => Some 3 | Urgent => Some 2 | Normal => Some 1 | NonUrgent => Some 0 | Extension _ => None end.

(** version.rs:105-156 [SipVersion::parse]: [true] for the one version there is.  The first
    four bytes are "SIP/" iff the first four characters are *)
Definition version_parse (s : str) : bool :=
  if existsb (fun c => is_control c && negb (c =? 9)) s then false
  else
    let t := trim_by blank s in
    if eq_ic (firstn 4 t) (lit "SIP/") then
      match split_once 46 (skipn 4 t) with
      | None => false
      | Some (a, b) =>
          if str_eqb a [] || str_eqb b [] || negb (forallb is_digit a) || negb (forallb is_digit b) then false
          else match parse_uint u16_max a, parse_uint u16_max b with
               | Some x, Some y => (x =? 2) && (y =? 0)
               | _, _ => false
               end
      end
    else false.
