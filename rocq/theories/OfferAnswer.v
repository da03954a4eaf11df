(** Model of the offer/answer engine of crates/sip-core/src/sdp_offer_answer.rs
    (RFC 3264) and of the attributes it reads (crates/sip-core/src/sdp.rs).
    Overflowing additions panic, as with overflow checks; without them they wrap. *)
From Coq Require Import NArith Bool String List.
Import ListNotations.
From Verif Require Import Base Msg SdpCore.
Open Scope N_scope.
Open Scope list_scope.

(** ** Attributes *)
(** sdp.rs:595-624 [Direction] *)
Inductive direction := SendRecv | SendOnly | RecvOnly | Inactive.
Definition dir_text (d : direction) : str := match d with SendRecv => lit "sendrecv" | SendOnly => lit "sendonly" | RecvOnly => lit "recvonly" | Inactive => lit "inactive" end.
Definition dir_parse (s : str) : option direction :=
  if str_eqb s (lit "sendrecv") then Some SendRecv else if str_eqb s (lit "sendonly") then Some SendOnly
  else if str_eqb s (lit "recvonly") then Some RecvOnly else if str_eqb s (lit "inactive") then Some Inactive else None.
(** sdp.rs:716-721 [RtpMap], 2334-2374 [RtpMap::parse], 229-237 and 251-265 the
    limits, 2377-2389 [to_value] *)
Record rtpmap := mkRtp { rt_pt : N; rt_name : str; rt_rate : N; rt_params : option str }.
Definition p_rtpmap (v : str) : option rtpmap :=
  ab <- split_once 32 v ;;
  n <- parse_uint u8_max (fst ab) ;;
  match split_on 47 (snd ab) with
  | nm :: rate :: rest =>
      _ <- guard ((n <=? SD_PAYLOAD) && sd_text SD_ENCODING nm) ;;
      r <- parse_uint u32_max rate ;;
      _ <- guard (negb (r =? 0) && (r <=? SD_CLOCK)) ;;
      match rest with
      | [] => Some (mkRtp n nm r None)
      | p :: _ => _ <- guard (sd_text SD_FORMAT p) ;; Some (mkRtp n nm r (Some p))
      end
  | _ => None
  end.
Definition rtp_text (r : rtpmap) : str :=
  print_N (rt_pt r) ++ 32 :: rt_name r ++ 47 :: print_N (rt_rate r) ++ match rt_params r with Some p => 47 :: p | None => [] end.
(** sdp.rs:2421-2437 [Fmtp::parse]: format and parameters *)
Definition p_fmtp (v : str) : option (str * str) :=
  ab <- split_once 32 v ;; _ <- guard (sd_text SD_FORMAT (fst ab) && sd_text SD_FMTP (snd ab)) ;; Some ab.

(** ** Preconditions (sdp.rs:974-1301, RFC 3312) *)
(** [to_lowercase] on the words that matter: ASCII letters and the Kelvin sign *)
Definition low_c (c : N) : N := if c =? 8490 then 107 else lower_c c.
(** sdp.rs:978-999 [PreconditionType]: by its text *)
Definition ptype (s : str) : str := if str_eqb (map low_c s) (lit "qos") then lit "qos" else s.
(** sdp.rs:1011-1044 [StrengthTag] *)
Inductive strength := Mandatory | Optional | NoStrength | Failure | Unknown.
Definition strength_text (x : strength) : str :=
  match x with Mandatory => lit "mandatory" | Optional => lit "optional" | NoStrength => lit "none" | Failure => lit "failure" | Unknown => lit "unknown" end.
Definition strength_parse (s : str) : option strength :=
  let l := map low_c s in
  if str_eqb l (lit "mandatory") then Some Mandatory else if str_eqb l (lit "optional") then Some Optional else if str_eqb l (lit "none") then Some NoStrength
  else if str_eqb l (lit "failure") then Some Failure else if str_eqb l (lit "unknown") then Some Unknown else None.
(** sdp.rs:1058-1093 [StatusType] *)
Inductive status := E2E | Local | Remote.
Definition status_text (x : status) : str := match x with E2E => lit "e2e" | Local => lit "local" | Remote => lit "remote" end.
Definition status_parse (s : str) : option status :=
  let l := map low_c s in if str_eqb l (lit "e2e") then Some E2E else if str_eqb l (lit "local") then Some Local else if str_eqb l (lit "remote") then Some Remote else None.
Definition status_invert (x : status) : status := match x with E2E => E2E | Local => Remote | Remote => Local end.
(** sdp.rs:1105-1145 [PreconditionDirection] *)
Inductive pdir := PSend | PRecv | PBoth | PNone.
Definition pdir_text (x : pdir) : str := match x with PSend => lit "send" | PRecv => lit "recv" | PBoth => lit "sendrecv" | PNone => lit "none" end.
Definition pdir_parse (s : str) : option pdir :=
  let l := map low_c s in
  if str_eqb l (lit "send") then Some PSend else if str_eqb l (lit "recv") then Some PRecv else if str_eqb l (lit "sendrecv") then Some PBoth else if str_eqb l (lit "none") then Some PNone else None.
Definition pdir_invert (x : pdir) : pdir := match x with PSend => PRecv | PRecv => PSend | PBoth => PBoth | PNone => PNone end.
(** sdp.rs:1160-1200 [CurrentStatus], 1262-1301 [ConfirmStatus]: type, status
    type and direction *)
Record curr := mkCurr { cu_type : str; cu_status : status; cu_dir : pdir }.
Definition p_curr (v : str) : option curr :=
  match split_ws v with [a; b; c] => s <- status_parse b ;; d <- pdir_parse c ;; Some (mkCurr (ptype a) s d) | _ => None end.
Definition curr_text (c : curr) : str := cu_type c ++ spaced [status_text (cu_status c); pdir_text (cu_dir c)].
(** sdp.rs:1209-1253 [DesiredStatus] *)
Record des := mkDes { de_type : str; de_strength : strength; de_status : status; de_dir : pdir }.
Definition p_des (v : str) : option des :=
  match split_ws v with [a; b; c; d] => t <- strength_parse b ;; s <- status_parse c ;; r <- pdir_parse d ;; Some (mkDes (ptype a) t s r) | _ => None end.
Definition des_text (d : des) : str := de_type d ++ spaced [strength_text (de_strength d); status_text (de_status d); pdir_text (de_dir d)].
(** the values of the attributes with a name that [p] reads (sdp.rs:1737-1840
    [find_rtpmaps], [find_fmtps], [find_current_status], ...) *)
Fixpoint read_all {A} (name : str) (p : str -> option A) (l : list attribute) : list A :=
  match l with
  | [] => []
  | (n, Some v) :: r => if str_eqb n name then match p v with Some x => x :: read_all name p r | None => read_all name p r end else read_all name p r
  | _ :: r => read_all name p r
  end.
(** sdp.rs:1974-1992 [direction_meets_requirement] *)
Definition meets (current desired : pdir) : bool :=
  match desired, current with
  | PNone, _ => true
  | PSend, PSend | PSend, PBoth => true
  | PRecv, PRecv | PRecv, PBoth => true
  | PBoth, PBoth => true
  | _, _ => false
  end.
Definition status_eqb (a b : status) : bool := match a, b with E2E, E2E | Local, Local | Remote, Remote => true | _, _ => false end.
(** sdp.rs:1846-1884 [are_preconditions_met] *)
Definition preconditions_met (s : session) (idx : nat) : bool :=
  match nth_error (ss_media s) idx with
  | None => true
  | Some m =>
      let cs := read_all (lit "curr") p_curr (md_attrs m) in
      forallb (fun d => match de_strength d with
                        | Mandatory => match find (fun c => str_eqb (cu_type c) (de_type d) && status_eqb (cu_status c) (de_status d)) cs with
                                       | Some c => meets (cu_dir c) (de_dir d)
                                       | None => false
                                       end
                        | _ => true
                        end) (read_all (lit "des") p_des (md_attrs m))
  end.

(** ** Options (sdp_offer_answer.rs:66-440) *)
(** 266-337 [CodecInfo]; its [fmtp] is not used by the engine *)
Record codec := mkCodec { co_name : str; co_rate : N; co_channels : option N }.
Definition codec_matches (c : codec) (r : rtpmap) : bool :=
  eq_ic (co_name c) (rt_name r) && (co_rate c =? rt_rate r)
  && match co_channels c, rt_params r with
     | Some n, Some p => match parse_uint u16_max p with Some k => k =? n | None => false end
     | Some n, None => n =? 1
     | None, Some _ => false
     | None, None => true
     end.
Record answer_options := mkOpts {
  ao_address : str; ao_port : N; ao_audio : list codec; ao_video : list codec; ao_override : option direction; ao_reject : list nat;
  ao_username : str; ao_session : str; ao_local : option pdir; ao_remote : option pdir; ao_upgrade : bool }.
(** 230-256 [Default] *)
Definition default_options : answer_options :=
  mkOpts (lit "0.0.0.0") 50000 [mkCodec (lit "PCMU") 8000 (Some 1); mkCodec (lit "PCMA") 8000 (Some 1); mkCodec (lit "telephone-event") 8000 (Some 1)]
    [mkCodec (lit "H264") 90000 None; mkCodec (lit "VP8") 90000 None] None [] (lit "-") (lit "0") None None false.
(** 90-182, 341-440: what the setters accept *)
Definition ascii_text (mx : N) (s : str) : bool := (blen s <=? mx) && negb (existsb (fun c => (c <? 32) || (c =? 127)) s).
Definition codec_ok (c : codec) : bool := negb (str_eqb (co_name c) []) && ascii_text 64 (co_name c).
Definition options_ok (o : answer_options) : bool :=
  negb (str_eqb (ao_address o) []) && ascii_text 256 (ao_address o) && ascii_text 128 (ao_username o) && negb (str_eqb (ao_session o) []) && ascii_text 128 (ao_session o)
  && (llen (ao_audio o) <=? 50) && (llen (ao_video o) <=? 50) && forallb codec_ok (ao_audio o ++ ao_video o) && (llen (ao_reject o) <=? 20) && (ao_port o <=? u16_max).

(** ** Codecs (630-713) *)
(** [HashMap::insert]; the map is a list without two equal keys *)
Fixpoint rm_put (k : str) (r : rtpmap) (l : list (str * rtpmap)) : list (str * rtpmap) :=
  match l with [] => [(k, r)] | (k', r') :: t => if str_eqb k k' then (k, r) :: t else (k', r') :: rm_put k r t end.
Definition rm_has (k : str) (l : list (str * rtpmap)) : bool := existsb (fun p => str_eqb k (fst p)) l.
(** 656-697 [get_static_payload_rtpmap] *)
Definition static_map (f : str) : option rtpmap :=
  if str_eqb f (lit "0") then Some (mkRtp 0 (lit "PCMU") 8000 None) else if str_eqb f (lit "8") then Some (mkRtp 8 (lit "PCMA") 8000 None)
  else if str_eqb f (lit "3") then Some (mkRtp 3 (lit "GSM") 8000 None) else if str_eqb f (lit "4") then Some (mkRtp 4 (lit "G723") 8000 None)
  else if str_eqb f (lit "9") then Some (mkRtp 9 (lit "G722") 8000 None) else if str_eqb f (lit "18") then Some (mkRtp 18 (lit "G729") 8000 None) else None.
(** 630-654 [extract_rtpmaps] *)
Definition extract (m : media) : list (str * rtpmap) :=
  let a := fold_left (fun l r => rm_put (print_N (rt_pt r)) r l) (read_all (lit "rtpmap") p_rtpmap (md_attrs m)) [] in
  fold_left (fun l f => if rm_has f l then l else match static_map f with Some r => rm_put f r l | None => l end) (md_fmt m) a.
(** 699-713 [find_fmtp_for_payload] *)
Definition fmtp_of (m : media) (payload : str) : option str :=
  hd_error (read_all (lit "fmtp") (fun v => fp <- p_fmtp v ;; _ <- guard (str_eqb (fst fp) payload) ;; Some v) (md_attrs m)).
(** 715-725 [get_media_direction], 727-735 [negotiate_direction] *)
Fixpoint find_dir (l : list attribute) : option direction :=
  match l with
  | [] => None
  | (n, None) :: r => match dir_parse n with Some d => Some d | None => find_dir r end
  | _ :: r => find_dir r
  end.
Definition media_dir (m : media) : direction := match find_dir (md_attrs m) with Some d => d | None => SendRecv end.
Definition mirror (d : direction) : direction := match d with SendRecv => SendRecv | SendOnly => RecvOnly | RecvOnly => SendOnly | Inactive => Inactive end.

(** ** Preconditions of the answer (799-918 [handle_preconditions]) *)
Definition is_qos (s : str) : bool := str_eqb s (lit "qos").
Definition or_none (o : option pdir) : pdir := match o with Some d => d | None => PNone end.
Definition answer_curr (o : answer_options) (c : curr) : curr :=
  let s := status_invert (cu_status c) in
  mkCurr (cu_type c) s (match s with Local => or_none (ao_local o) | Remote => or_none (ao_remote o) | E2E => pdir_invert (cu_dir c) end).
Definition answer_des (o : answer_options) (d : des) : des :=
  mkDes (de_type d) (match de_strength d with Optional => if ao_upgrade o then Mandatory else Optional | x => x end) (status_invert (de_status d)) (pdir_invert (de_dir d)).
Definition answer_conf (c : curr) : curr := mkCurr (cu_type c) (status_invert (cu_status c)) (pdir_invert (cu_dir c)).
Definition preconditions (o : answer_options) (m : media) : list attribute :=
  map (fun c => (lit "curr", Some (curr_text (answer_curr o c)))) (filter (fun c => is_qos (cu_type c)) (read_all (lit "curr") p_curr (md_attrs m)))
  ++ map (fun d => (lit "des", Some (des_text (answer_des o d)))) (filter (fun d => is_qos (de_type d)) (read_all (lit "des") p_des (md_attrs m)))
  ++ map (fun c => (lit "conf", Some (curr_text (answer_conf c)))) (filter (fun c => is_qos (cu_type c)) (read_all (lit "conf") p_curr (md_attrs m))).

(** ** The answer *)
(** the order in which the entries of a [HashMap] come is not determined:
    [ord] gives it for each map *)
Definition order := list (str * rtpmap) -> list (str * rtpmap).
(** 520-609 [negotiate_media] *)
Definition supported (o : answer_options) (m : media) : option (list codec) :=
  if str_eqb (md_type m) (lit "audio") then Some (ao_audio o) else if str_eqb (md_type m) (lit "video") then Some (ao_video o) else None.
Definition codec_attrs (m : media) (common : list (str * rtpmap)) : list attribute :=
  flat_map (fun p => (lit "rtpmap", Some (rtp_text (snd p))) :: map (fun v => (lit "fmtp", Some v)) (opt_list (fmtp_of m (fst p)))) common.
Definition negotiate (ord : order) (o : answer_options) (m : media) (port : N) : option media :=
  cs <- supported o m ;;
  let common := filter (fun p => existsb (fun c => codec_matches c (snd p)) cs) (ord (extract m)) in
  _ <- guard (negb (llen common =? 0)) ;;
  let dir := match ao_override o with Some d => d | None => mirror (media_dir m) end in
  Some (mkMedia (md_type m) port None (md_proto m) (map fst common) None None [] None (codec_attrs m common ++ (dir_text dir, None) :: preconditions o m) (md_mid m) (md_rtcp m) (md_caps m)).
(** 611-628 [create_rejected_media] *)
Definition rejected (m : media) : media := mkMedia (md_type m) 0 None (md_proto m) (md_fmt m) None None [] None [] (md_mid m) None (md_caps m).
(** 491-514: [ords] are the orders of the maps of the streams, [idx] and [port]
    the next index and port *)
Fixpoint answer_loop (ords : nat -> order) (o : answer_options) (idx : nat) (port : N) (ms : list media) : outcome (list media) :=
  match ms with
  | [] => Ret []
  | m :: r =>
      if existsb (Nat.eqb idx) (ao_reject o) then
        match answer_loop ords o (S idx) port r with Ret l => Ret (rejected m :: l) | Panics => Panics end
      else match negotiate (ords idx) o m port with
           | Some a =>
               if u16_max <? port + 2 then Panics
               else match answer_loop ords o (S idx) (port + 2) r with Ret l => Ret (a :: l) | Panics => Panics end
           | None => match answer_loop ords o (S idx) port r with Ret l => Ret (rejected m :: l) | Panics => Panics end
           end
  end.
(** 456-517 [generate_answer], sdp.rs:1306-1329 [SdpSession::new] *)
Definition generate_answer (ords : nat -> order) (offer : session) (o : answer_options) : outcome (option session) :=
  if 20 <? llen (ss_media offer) then Ret None
  else match answer_loop ords o 0 (ao_port o) (ss_media offer) with
       | Panics => Panics
       | Ret ms =>
           Ret (Some (mkSession 0 (mkOrigin (ao_username o) (ao_session o) (lit "0") (lit "IN") (lit "IP4") (ao_address o)) (ss_name offer)
                        (mkBody None None [] [] (Some (mkConn (lit "IN") (lit "IP4") (ao_address o))) [] (bd_timing (ss_body offer)) [] [] None []) [] None ms))
       end.

(** ** Hold and resume (737-797 [create_hold_offer], [create_resume_offer]) *)
Definition hold_dir (d : direction) : direction := match d with SendRecv => SendOnly | RecvOnly => Inactive | SendOnly => SendOnly | Inactive => Inactive end.
Definition resume_dir (d : direction) : direction := match d with SendOnly => SendRecv | Inactive => RecvOnly | SendRecv => SendRecv | RecvOnly => RecvOnly end.
Definition is_dir (a : attribute) : bool := match snd a with Some _ => false | None => is_some (dir_parse (fst a)) end.
Definition redirect (f : direction -> direction) (m : media) : media :=
  m_attrs m (filter (fun a => negb (is_dir a)) (md_attrs m) ++ [(dir_text (f (media_dir m)), None)]).
Definition next_version (v : str) : outcome str :=
  match parse_uint u64_max v with Some n => if n =? u64_max then Panics else Ret (print_N (n + 1)) | None => Ret v end.
Definition with_version (g : origin) (v : str) : origin := mkOrigin (og_user g) (og_id g) v (og_net g) (og_type g) (og_addr g).
Definition new_offer (f : direction -> direction) (s : session) : outcome session :=
  match next_version (og_version (ss_origin s)) with
  | Panics => Panics
  | Ret v => Ret (mkSession (ss_version s) (with_version (ss_origin s) v) (ss_name s) (ss_body s) (ss_groups s) (ss_caps s) (map (redirect f) (ss_media s)))
  end.
Definition hold_offer : session -> outcome session := new_offer hold_dir.
Definition resume_offer : session -> outcome session := new_offer resume_dir.
