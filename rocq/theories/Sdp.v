(** Model of session descriptions and their negotiation: crates/sip-sdp/src/lib.rs,
    attrs.rs, builder.rs, negotiate.rs.
    Simplifications: error payloads are dropped; the map of rtpmaps is an association
    list, whose order stands for the (unspecified) order in which a [HashMap] is gone
    through; the session identifier, taken from the clock, is an argument. *)
From Coq Require Import NArith Bool String List.
Import ListNotations.
From Verif Require Import Base Text.
Open Scope N_scope.
Open Scope list_scope.

(** lib.rs:288-332 *)
Inductive media_type := MAudio | MVideo | MText | MApplication | MMessage | MOther (name : str).
Inductive protocol := PRtpAvp | PRtpSavp | PRtpSavpf | PUdpTlsRtpSavpf | PTcpTlsRtpSavpf | PUdp | PTcp | POther (name : str).
(** lib.rs:320-332; the network type is always IN *)
Inductive addr_type := IP4 | IP6.
(** lib.rs:334-342 *)
Inductive attribute := AProp (name : str) | AVal (name value : str).
(** lib.rs:345-358 *)
Record rtpmap := mkRtpMap { rm_pt : N; rm_name : str; rm_rate : N; rm_params : option str }.
(** lib.rs:197-246 *)
Record origin := mkOrigin { og_user : str; og_id : str; og_version : str; og_type : addr_type; og_addr : str }.
Record connection := mkConnection { cx_type : addr_type; cx_addr : str }.
Record repeat_time := mkRepeat { rp_interval : str; rp_duration : str; rp_offsets : list str }.
Record time_desc := mkTime { tm_start : N; tm_stop : N; tm_repeats : list repeat_time }.
Record time_zone := mkZone { tz_time : str; tz_offset : str }.
Record bandwidth := mkBandwidth { bw_type : str; bw_value : N }.
(** lib.rs:249-285 *)
Record media := mkMedia { md_type : media_type; md_port : N; md_ports : option N; md_proto : protocol;
  md_formats : list str; md_title : option str; md_conn : option connection; md_bw : list bandwidth;
  md_key : option str; md_attrs : list attribute; md_maps : list (N * rtpmap) }.
(** lib.rs:150-195 *)
Record sdp := mkSdp { sd_version : N; sd_origin : origin; sd_name : str; sd_info : option str; sd_uri : option str;
  sd_email : option str; sd_phone : option str; sd_conn : option connection; sd_bw : list bandwidth;
  sd_times : list time_desc; sd_zones : list time_zone; sd_key : option str; sd_attrs : list attribute;
  sd_media : list media }.

(** derived [PartialEq] *)
Definition media_type_eqb (a b : media_type) : bool :=
  match a, b with
  | MAudio, MAudio | MVideo, MVideo | MText, MText | MApplication, MApplication | MMessage, MMessage => true
  | MOther x, MOther y => str_eqb x y
  | _, _ => false
  end.
Definition protocol_eqb (a b : protocol) : bool :=
  match a, b with
  | PRtpAvp, PRtpAvp | PRtpSavp, PRtpSavp | PRtpSavpf, PRtpSavpf | PUdpTlsRtpSavpf, PUdpTlsRtpSavpf
  | PTcpTlsRtpSavpf, PTcpTlsRtpSavpf | PUdp, PUdp | PTcp, PTcp => true
  | POther x, POther y => str_eqb x y
  | _, _ => false
  end.
Definition opt_str_eqb (a b : option str) : bool :=
  match a, b with Some x, Some y => str_eqb x y | None, None => true | _, _ => false end.

(** lib.rs:45-66 *)
Definition MAX_USERNAME_LENGTH : N := 256.
Definition MAX_SESSION_ID_LENGTH : N := 256.
Definition MAX_SESSION_NAME_LENGTH : N := 512.
Definition MAX_ADDRESS_LENGTH : N := 256.
Definition MAX_ENCODING_NAME_LENGTH : N := 64.
Definition MAX_ATTRIBUTE_NAME_LENGTH : N := 128.
Definition MAX_ATTRIBUTE_VALUE_LENGTH : N := 1024.
Definition MAX_MEDIA_DESCRIPTIONS : N := 20.
Definition MAX_ATTRIBUTES : N := 50.
Definition MAX_FORMATS : N := 50.
Definition MAX_RTPMAPS : N := 50.
Definition MIN_CLOCK_RATE : N := 1000.
Definition MAX_CLOCK_RATE : N := 1000000000.
(** lib.rs:123-138 [validate_field]; 141-150, 153-161 *)
Definition valid_field (v : str) (max : N) : bool :=
  negb (match v with [] => true | _ => false end) && (blen v <=? max) && negb (existsb is_control v).
Definition valid_rate (r : N) : bool := (MIN_CLOCK_RATE <=? r) && (r <=? MAX_CLOCK_RATE).
Definition valid_pt (p : N) : bool := p <=? 127.

(** ** Attributes (attrs.rs) *)
Inductive direction := DSendRecv | DSendOnly | DRecvOnly | DInactive.
(** attrs.rs:43-62 *)
Definition dir_token (d : direction) : str :=
  match d with DSendRecv => lit "sendrecv" | DSendOnly => lit "sendonly" | DRecvOnly => lit "recvonly" | DInactive => lit "inactive" end.
Definition dir_of_token (t : str) : option direction :=
  if str_eqb t (lit "sendrecv") then Some DSendRecv
  else if str_eqb t (lit "sendonly") then Some DSendOnly
  else if str_eqb t (lit "recvonly") then Some DRecvOnly
  else if str_eqb t (lit "inactive") then Some DInactive
  else None.
Fixpoint find_map {A B} (f : A -> option B) (l : list A) : option B :=
  match l with [] => None | x :: r => match f x with Some y => Some y | None => find_map f r end end.
(** negotiate.rs:60-70 [from_attribute], 418-420 [extract_direction]; attrs.rs:65-70 *)
Definition dir_of_attr (a : attribute) : option direction :=
  match a with AProp n => dir_of_token n | AVal _ _ => None end.
Definition extract_direction (l : list attribute) : option direction := find_map dir_of_attr l.
(** attrs.rs:87-100 [parse_value_attr], [set_value_attr_unique] *)
Definition value_attr (key : str) (l : list attribute) : option str :=
  find_map (fun a => match a with AVal n v => if str_eqb n key then Some v else None | AProp _ => None end) l.
Definition has_name (key : str) (a : attribute) : bool := match a with AVal n _ => str_eqb n key | AProp _ => false end.
Definition set_value_attr (key value : str) (l : list attribute) : list attribute :=
  filter (fun a => negb (has_name key a)) l ++ [AVal key value].
(** attrs.rs:125-139 [parse_rtpmap_value]; parse.rs:782-806 [parse_rtpmap] reads the same *)
Definition parse_rtpmap (v : str) : option rtpmap :=
  match split_once 32 v with
  | None => None
  | Some (p, rest) =>
      match parse_uint u8_max p, split_on 47 rest with
      | Some pt, name :: rate :: more =>
          match parse_uint u32_max rate with
          | Some r => Some (mkRtpMap pt name r (match more with x :: _ => Some x | [] => None end))
          | None => None
          end
      | _, _ => None
      end
  end.
(** attrs.rs:156-164 [parse_fmtp_value], 438-450 [fmtp_iter], [fmtp_for] *)
Definition parse_fmtp (v : str) : option (N * str) :=
  match split_once 32 v with
  | None => None
  | Some (p, rest) => match parse_uint u8_max p with Some pt => Some (pt, trim rest) | None => None end
  end.
Definition fmtp_for (pt : N) (l : list attribute) : option str :=
  find_map (fun a => match a with
    | AVal n v => if str_eqb n (lit "fmtp") then
        match parse_fmtp v with Some (p, x) => if p =? pt then Some x else None | None => None end
        else None
    | AProp _ => None end) l.
(** the payload type at the start of an attribute's value:
    [split_whitespace().next().and_then(parse::<u8>)] *)
Definition leading_pt (v : str) : option N := match split_ws v with t :: _ => parse_uint u8_max t | [] => None end.
Definition pt_attr (key : str) (pt : N) (a : attribute) : bool :=
  match a with
  | AVal n v => str_eqb n key && match leading_pt v with Some p => p =? pt | None => false end
  | AProp _ => false
  end.
(** attrs.rs:455-475 [set_fmtp] *)
Definition set_fmtp (pt : N) (params : str) (m : media) : media :=
  mkMedia (md_type m) (md_port m) (md_ports m) (md_proto m) (md_formats m) (md_title m) (md_conn m) (md_bw m) (md_key m)
    (filter (fun a => negb (pt_attr (lit "fmtp") pt a)) (md_attrs m) ++ [AVal (lit "fmtp") (print_N pt ++ 32 :: trim params)])
    (md_maps m).
(** attrs.rs:478-486 [ptime], [set_ptime] *)
Definition ptime (m : media) : option N :=
  match value_attr (lit "ptime") (md_attrs m) with Some v => parse_uint u32_max v | None => None end.
Definition with_attrs (m : media) (l : list attribute) : media :=
  mkMedia (md_type m) (md_port m) (md_ports m) (md_proto m) (md_formats m) (md_title m) (md_conn m) (md_bw m) (md_key m) l (md_maps m).
Definition set_ptime (ms : N) (m : media) : media := with_attrs m (set_value_attr (lit "ptime") (print_N ms) (md_attrs m)).

(** ** Building media descriptions (lib.rs) *)
(** lib.rs:565-579 [add_format_token] *)
Definition add_format_token (t : str) (m : media) : option media :=
  if valid_field t MAX_ENCODING_NAME_LENGTH && (llen (md_formats m) <? MAX_FORMATS)
  then Some (mkMedia (md_type m) (md_port m) (md_ports m) (md_proto m) (md_formats m ++ [t]) (md_title m) (md_conn m) (md_bw m)
               (md_key m) (md_attrs m) (md_maps m))
  else None.
(** lib.rs:620-635: the text of an rtpmap attribute *)
Definition rtpmap_text (pt : N) (name : str) (rate : N) (params : option str) : str :=
  print_N pt ++ 32 :: name ++ 47 :: print_N rate ++ match params with Some p => 47 :: p | None => [] end.
(** lib.rs:588-643 [add_rtpmap]; 773-791 [remove_rtpmap_attr] *)
Definition add_rtpmap (pt : N) (name : str) (rate : N) (params : option str) (m : media) : option media :=
  if valid_pt pt && valid_field name MAX_ENCODING_NAME_LENGTH && valid_rate rate then
    let '(attrs, maps) :=
      if is_some (lookup N.eqb pt (md_maps m))
      then (filter (fun a => negb (pt_attr (lit "rtpmap") pt a)) (md_attrs m), remove_key N.eqb pt (md_maps m))
      else (md_attrs m, md_maps m) in
    if (llen maps <? MAX_RTPMAPS) && (llen attrs <? MAX_ATTRIBUTES) then
      Some (mkMedia (md_type m) (md_port m) (md_ports m) (md_proto m) (md_formats m) (md_title m) (md_conn m) (md_bw m) (md_key m)
              (attrs ++ [AVal (lit "rtpmap") (rtpmap_text pt name rate params)])
              (insert N.eqb pt (mkRtpMap pt name rate params) maps))
    else None
  else None.
(** lib.rs:646-660 [add_property], 690-696 [with_direction] *)
Definition add_property (n : str) (m : media) : option media :=
  if valid_field n MAX_ATTRIBUTE_NAME_LENGTH && (llen (md_attrs m) <? MAX_ATTRIBUTES)
  then Some (with_attrs m (md_attrs m ++ [AProp n])) else None.
(** lib.rs:795-833 [Origin::new], [Connection::new] *)
Definition addr_type_of (a : str) : addr_type := if mem 58 a then IP6 else IP4.
Definition origin_new (user id addr : str) : option origin :=
  if valid_field user MAX_USERNAME_LENGTH && valid_field id MAX_SESSION_ID_LENGTH && valid_field addr MAX_ADDRESS_LENGTH
  then Some (mkOrigin user id (lit "0") (addr_type_of addr) addr) else None.
Definition connection_new (addr : str) : option connection :=
  if valid_field addr MAX_ADDRESS_LENGTH then Some (mkConnection (addr_type_of addr) addr) else None.

(** ** Negotiation (negotiate.rs) *)
Inductive nego_error := NoCommonCodec | IncompatibleDirection | MissingMediaStream | InvalidSdp.
(** negotiate.rs:73-80 [reverse] *)
Definition dir_reverse (d : direction) : direction :=
  match d with DSendRecv => DSendRecv | DSendOnly => DRecvOnly | DRecvOnly => DSendOnly | DInactive => DInactive end.
(** negotiate.rs:89-102 [is_compatible_with] *)
Definition dir_compatible (a b : direction) : bool :=
  match a, b with
  | DInactive, DInactive => true
  | DInactive, _ | _, DInactive => false
  | DSendRecv, _ | _, DSendRecv => true
  | DSendOnly, DRecvOnly => true
  | DRecvOnly, DSendOnly => true
  | _, _ => false
  end.
(** negotiate.rs:105-121 [negotiate] *)
Definition dir_negotiate (a b : direction) : option direction :=
  if dir_compatible a b then
    Some (match a, b with
          | DInactive, _ | _, DInactive => DInactive
          | DSendRecv, d => d
          | d, DSendRecv => d
          | DSendOnly, DRecvOnly => DSendOnly
          | DRecvOnly, DSendOnly => DRecvOnly
          | DSendOnly, DSendOnly => DSendOnly
          | DRecvOnly, DRecvOnly => DRecvOnly
          end)
  else None.
(** negotiate.rs:438-447; parse.rs:771-780 [is_rtp_protocol] *)
Definition is_rtp (p : protocol) : bool :=
  match p with PRtpAvp | PRtpSavp | PRtpSavpf | PUdpTlsRtpSavpf | PTcpTlsRtpSavpf => true | _ => false end.
(** negotiate.rs:449-456 [parse_payload_type] *)
Definition payload_type (f : str) : option N :=
  match parse_uint u16_max f with Some v => if 127 <? v then None else Some v | None => None end.
(** negotiate.rs:458-464 [local_supports_static_pt] *)
Definition has_pt (m : media) (pt : N) : bool :=
  existsb (fun f => match payload_type f with Some p => p =? pt | None => false end) (md_formats m).
(** negotiate.rs:466-487 [find_matching_dynamic_rtpmap] *)
Definition matching_rtpmap (lm : media) (o : rtpmap) : option rtpmap :=
  find (fun l => has_pt lm (rm_pt l) && eq_ic (rm_name o) (rm_name l) && (rm_rate o =? rm_rate l) && opt_str_eqb (rm_params o) (rm_params l))
    (map snd (md_maps lm)).
(** negotiate.rs:332-390 [find_common_formats] *)
Definition common_format (om lm : media) (f : str) : option (str * option rtpmap) :=
  if is_rtp (md_proto om) then
    match payload_type f with
    | None => None
    | Some pt =>
        if pt <? 96 then (if has_pt lm pt then Some (f, lookup N.eqb pt (md_maps lm)) else None)
        else match lookup N.eqb pt (md_maps om) with
             | None => None
             | Some o => match matching_rtpmap lm o with
                         | Some l => Some (f, Some (mkRtpMap pt (rm_name l) (rm_rate l) (rm_params l)))
                         | None => None
                         end
             end
    end
  else if existsb (str_eqb f) (md_formats lm) then Some (f, None) else None.
Fixpoint filter_map {A B} (f : A -> option B) (l : list A) : list B :=
  match l with [] => [] | x :: r => match f x with Some y => y :: filter_map f r | None => filter_map f r end end.
Definition find_common_formats (om lm : media) : list (str * option rtpmap) := filter_map (common_format om lm) (md_formats om).
(** negotiate.rs:393-415 [create_rejected_media] *)
Definition rejected_media (om : media) : media :=
  mkMedia (md_type om) 0 (md_ports om) (md_proto om) (match md_formats om with [] => [lit "0"] | l => l end) None None [] None [] [].
(** negotiate.rs:422-436 [base_answer_media] *)
Definition base_answer (om : media) (port : N) : media :=
  mkMedia (md_type om) port (md_ports om) (md_proto om) [] None None [] None [] [].
(** negotiate.rs:262-277: the formats and their rtpmaps *)
Fixpoint add_formats (l : list (str * option rtpmap)) (m : media) : option media :=
  match l with
  | [] => Some m
  | (f, rm) :: r =>
      match add_format_token f m with
      | None => None
      | Some m1 =>
          match rm with
          | None => add_formats r m1
          | Some x => match add_rtpmap (rm_pt x) (rm_name x) (rm_rate x) (rm_params x) m1 with
                      | Some m2 => add_formats r m2
                      | None => None
                      end
          end
      end
  end.
(** negotiate.rs:279-300: fmtp lines *)
Definition carry_fmtp (om lm : media) (m : media) (f : str * option rtpmap) : media :=
  match payload_type (fst f) with
  | None => m
  | Some pt =>
      match fmtp_for pt (md_attrs lm) with
      | Some x => set_fmtp pt x m
      | None => match fmtp_for pt (md_attrs om) with Some x => set_fmtp pt x m | None => m end
      end
  end.
(** negotiate.rs:302-313: ptime *)
Definition carry_ptime (om lm : media) (m : media) : media :=
  match ptime lm with
  | Some p => set_ptime p m
  | None => match ptime om with Some p => set_ptime p m | None => m end
  end.
Definition with_conn (m : media) (c : option connection) : media :=
  match c with
  | None => m
  | Some _ => mkMedia (md_type m) (md_port m) (md_ports m) (md_proto m) (md_formats m) (md_title m) c (md_bw m) (md_key m) (md_attrs m) (md_maps m)
  end.
(** lib.rs:452-454 [find_media] *)
Definition find_media (t : media_type) (l : list media) : option media := find (fun m => media_type_eqb (md_type m) t) l.
(** negotiate.rs:225-329 [negotiate_media] *)
Definition negotiate_media (om : media) (caps : sdp) : result media nego_error :=
  match find_media (md_type om) (sd_media caps) with
  | None => Err MissingMediaStream
  | Some lm =>
      if negb (protocol_eqb (md_proto om) (md_proto lm)) then Err NoCommonCodec
      else
        let common := find_common_formats om lm in
        match common with
        | [] => Err NoCommonCodec
        | _ =>
            let od := match extract_direction (md_attrs om) with Some d => d | None => DSendRecv end in
            let ld := match extract_direction (md_attrs lm) with Some d => d | None => DSendRecv end in
            match dir_negotiate (dir_reverse od) ld with
            | None => Err IncompatibleDirection
            | Some d =>
                match add_formats common (base_answer om (md_port lm)) with
                | None => Err InvalidSdp
                | Some m =>
                    match add_property (dir_token d) (carry_ptime om lm (fold_left (carry_fmtp om lm) common m)) with
                    | None => Err InvalidSdp
                    | Some m => Ok (with_conn m (md_conn lm))
                    end
                end
            end
        end
  end.
(** negotiate.rs:183-219: line by line; [acc] the answer's lines so far, [types] those
    already accepted.  builder.rs:108-119 [media] limits their number. *)
Fixpoint negotiate_lines (caps : sdp) (types : list media_type) (acc : list media) (l : list media) : result (list media) nego_error :=
  match l with
  | [] => Ok acc
  | om :: r =>
      if existsb (media_type_eqb (md_type om)) types then
        if llen acc <? MAX_MEDIA_DESCRIPTIONS then negotiate_lines caps types (acc ++ [rejected_media om]) r else Err InvalidSdp
      else
        match negotiate_media om caps with
        | Ok m => if llen acc <? MAX_MEDIA_DESCRIPTIONS then negotiate_lines caps (types ++ [md_type om]) (acc ++ [m]) r else Err InvalidSdp
        | Err NoCommonCodec | Err MissingMediaStream =>
            if llen acc <? MAX_MEDIA_DESCRIPTIONS then negotiate_lines caps types (acc ++ [rejected_media om]) r else Err InvalidSdp
        | Err e => Err e
        end
  end.
(** negotiate.rs:167-222 [negotiate_answer]; [sid] is [generate_session_id] *)
Definition negotiate_answer (sid : str) (offer : sdp) (addr : str) (caps : sdp) : result sdp nego_error :=
  match origin_new (og_user (sd_origin caps)) sid addr with
  | None => Err InvalidSdp
  | Some o =>
      if valid_field (sd_name caps) MAX_SESSION_NAME_LENGTH then
        match connection_new addr with
        | None => Err InvalidSdp
        | Some c =>
            match negotiate_lines caps [] [] (sd_media offer) with
            | Ok ms => Ok (mkSdp 0 o (sd_name caps) None None None None (Some c) [] [mkTime 0 0 []] [] None [] ms)
            | Err e => Err e
            end
        end
      else Err InvalidSdp
  end.
