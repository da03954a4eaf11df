(** Model of the Privacy header and its enforcement
    (crates/sip-core/src/privacy.rs, RFC 3323 and RFC 3325). *)
From Coq Require Import NArith Bool String List.
Import ListNotations.
From Verif Require Import Base Headers.
Open Scope N_scope.
Open Scope list_scope.

(** privacy.rs:8-9 limits *)
Definition PV_MAX_VALUES : N := 10.
Definition PV_MAX_INPUT : N := 256.

(** privacy.rs:61-74 [PrivacyValue] *)
Inductive privacy_value := PNone | PHeader | PSession | PUser | PId | PCritical.
Definition pv_eqb (a b : privacy_value) : bool :=
  match a, b with
  | PNone, PNone | PHeader, PHeader | PSession, PSession | PUser, PUser | PId, PId | PCritical, PCritical => true
  | _, _ => false
  end.
(** privacy.rs:77-87 [PrivacyValue::as_str] *)
Definition pv_text (v : privacy_value) : str :=
  match v with
  | PNone => lit "none" | PHeader => lit "header" | PSession => lit "session"
  | PUser => lit "user" | PId => lit "id" | PCritical => lit "critical"
  end.
(** privacy.rs:90-102 the three questions asked of one value *)
Definition pv_identity (v : privacy_value) : bool := match v with PId | PUser => true | _ => false end.
Definition pv_header (v : privacy_value) : bool := match v with PHeader | PUser => true | _ => false end.
Definition pv_session (v : privacy_value) : bool := match v with PSession | PUser => true | _ => false end.
(** privacy.rs:105-119 [PrivacyValue::from_str]; the code lowers with the
    Unicode rules, which differ from the ASCII ones only on characters none of
    the six words contains *)
Definition pv_read (s : str) : option privacy_value :=
  find (fun v => str_eqb (lower s) (pv_text v)) [PNone; PHeader; PSession; PUser; PId; PCritical].

(** privacy.rs:145-177 [PrivacyHeader], [new]; [None] is any error *)
Definition privacy := list privacy_value.
Definition pv_has (v : privacy_value) (h : privacy) : bool := existsb (pv_eqb v) h.
Definition privacy_new (l : list privacy_value) : option privacy :=
  match l with
  | [] => None
  | _ => if (1 <? llen l) && pv_has PNone l then None
         else if PV_MAX_VALUES <? llen l then None else Some l
  end.
(** privacy.rs:179-184 [PrivacyHeader::single] *)
Definition privacy_single (v : privacy_value) : privacy := [v].
Fixpoint pv_collect (l : list str) : option (list privacy_value) :=
  match l with
  | [] => Some []
  | s :: r => match pv_read s, pv_collect r with Some v, Some vs => Some (v :: vs) | _, _ => None end
  end.
(** privacy.rs:248-265 [PrivacyHeader::parse] *)
Definition privacy_parse (s : str) : option privacy :=
  if PV_MAX_INPUT <? blen s then None
  else match pv_collect (filter (fun p => negb (str_eqb p [])) (map trim (split_on 59 s))) with
       | Some l => privacy_new l
       | None => None
       end.
(** privacy.rs:268-283 [Display] *)
Definition privacy_print (h : privacy) : str := join (lit "; ") (map pv_text h).
(** privacy.rs:299-302 [parse_privacy_header] *)
Definition privacy_of (hs : headers) : option privacy :=
  match hget (lit "Privacy") hs with Some v => privacy_parse v | None => None end.
(** privacy.rs:499-505 [requires_privacy_enforcement] *)
Definition privacy_due (hs : headers) : bool :=
  match privacy_of hs with Some h => negb (pv_has PNone h) | None => false end.

(** privacy.rs:450-497 [split_header_params]: the second part, with the three
    flags in_quotes, in_angle and escape *)
Fixpoint header_params (s : str) (quotes angle escape : bool) : str :=
  match s with
  | [] => []
  | c :: r =>
      if escape then header_params r quotes angle false
      else if (c =? 92) && quotes then header_params r quotes angle true
      else if c =? 34 then header_params r (negb quotes) angle false
      else if (c =? 60) && negb quotes then header_params r quotes true false
      else if (c =? 62) && negb quotes then header_params r quotes false false
      else if (c =? 59) && negb quotes && negb angle then s
      else header_params r quotes angle false
  end.

(** privacy.rs:431-448 [anonymize_identity_header]; [None] is InputTooLarge *)
Definition ANONYMOUS : str := [34] ++ lit "Anonymous" ++ [34] ++ lit " <sip:anonymous@anonymous.invalid>".
Definition anonymize_value (v : str) : option str :=
  if 1024 <? blen v then None else Some (ANONYMOUS ++ header_params v false false false).

(** privacy.rs:397-413 one identity header; the flag tells whether it worked *)
Definition anonymize_one (name : str) (hs : headers) : headers * bool :=
  match hget name hs with
  | None => (hs, true)
  | Some v =>
      match anonymize_value v with
      | None => (hs, false)
      | Some a => let hs1 := hremove name hs in
                  match hpush hs1 name a with Ok hs2 => (hs2, true) | Err _ => (hs1, false) end
      end
  end.
(** privacy.rs:394-429 [anonymize_identity_headers]; the headers are those
    left behind, also when it fails *)
Definition anonymize (hs : headers) : headers * bool :=
  match anonymize_one (lit "From") hs with
  | (hs1, false) => (hs1, false)
  | (hs1, true) =>
      match anonymize_one (lit "Contact") hs1 with
      | (hs2, false) => (hs2, false)
      | (hs2, true) => (hremove (lit "P-Preferred-Identity") (hremove (lit "P-Asserted-Identity") hs2), true)
      end
  end.

(** privacy.rs:309-317 [REMOVABLE_HEADERS] *)
Definition REMOVABLE : list str :=
  [lit "Subject"; lit "Call-Info"; lit "Organization"; lit "User-Agent"; lit "Reply-To"; lit "In-Reply-To"; lit "Server"].
(** privacy.rs:359-391 [enforce_privacy] *)
Definition enforce_privacy (hs : headers) (h : privacy) : headers * bool :=
  if (llen h =? 1) && pv_has PNone h then (hs, true)
  else
    let hs1 := if existsb pv_header h then fold_left (fun acc n => hremove n acc) REMOVABLE hs else hs in
    if existsb pv_identity h then anonymize hs1 else (hs1, true).
