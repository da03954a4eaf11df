(** Model of the session descriptions of crates/sip-core/src/sdp.rs (RFC 4566):
    the types, [SdpSession::parse] and its [Display].  Errors are one value:
    which one it is is not modelled, nor the order in which two errors in one
    input are found. *)
From Coq Require Import NArith Bool String List.
Import ListNotations.
From Verif Require Import Base.
Open Scope N_scope.
Open Scope list_scope.

(** ** Limits (sdp.rs:128-176) *)
Definition SD_USERNAME : N := 255.
Definition SD_SESSION_ID : N := 64.
Definition SD_SESSION_VERSION : N := 64.
Definition SD_SESSION_NAME : N := 1024.
Definition SD_INFO : N := 2048.
Definition SD_URI : N := 2048.
Definition SD_EMAIL : N := 320.
Definition SD_PHONE : N := 32.
Definition SD_NETTYPE : N := 16.
Definition SD_ADDRTYPE : N := 16.
Definition SD_ADDRESS : N := 255.
Definition SD_BWTYPE : N := 32.
Definition SD_KEY_METHOD : N := 64.
Definition SD_KEY : N := 1024.
Definition SD_ATTR_NAME : N := 128.
Definition SD_ATTR_VALUE : N := 4096.
Definition SD_MEDIA_TYPE : N := 32.
Definition SD_PROTO : N := 64.
Definition SD_FORMAT : N := 16.
Definition SD_MID : N := 64.
Definition SD_ENCODING : N := 64.
Definition SD_FMTP : N := 1024.
Definition SD_EMAILS : N := 10.
Definition SD_PHONES : N := 10.
Definition SD_BANDWIDTHS : N := 20.
Definition SD_TIMINGS : N := 10.
Definition SD_REPEATS : N := 10.
Definition SD_ZONES : N := 50.
Definition SD_ATTRS : N := 100.
Definition SD_MEDIAS : N := 50.
Definition SD_FORMATS : N := 128.
Definition SD_GROUPS : N := 20.
Definition SD_MIDS : N := 50.
Definition SD_CDSCS : N := 50.
Definition SD_CPARS : N := 100.
Definition SD_OFFSETS : N := 50.
Definition SD_BW_VALUE : N := 10000000.
Definition SD_PAYLOAD : N := 127.
Definition SD_CLOCK : N := 1000000000.

(** sdp.rs:179-202 [validate_string]: CR, LF and NUL are control characters *)
Definition sd_text (mx : N) (s : str) : bool := (blen s <=? mx) && forallb (fun c => negb (is_control c) || (c =? 9)) s.

(** ** Types *)
(** sdp.rs:337-344 [Origin] *)
Record origin := mkOrigin { og_user : str; og_id : str; og_version : str; og_net : str; og_type : str; og_addr : str }.
(** sdp.rs:380-384 [Connection] *)
Record conn := mkConn { cn_net : str; cn_type : str; cn_addr : str }.
(** sdp.rs:455-461 [Bandwidth] *)
Record bandwidth := mkBw { bw_type : str; bw_value : N }.
(** sdp.rs:523-527 [Timing]: start and stop; 538-541 [TimeZone]: time and
    offset; 545-548 [EncryptionKey]: method and key; 556-559 [Attribute]: name
    and value *)
Definition timing := (N * N)%type.
Definition zone := (N * str)%type.
Definition sdp_key := (str * option str)%type.
Definition attribute := (str * option str)%type.
(** sdp.rs:530-535 [RepeatTime] *)
Record repeat_time := mkRepeat { rp_interval : str; rp_duration : str; rp_offsets : list str }.
(** sdp.rs:629-638 [RtcpAttribute]: the address is there as a whole or not at all *)
Record rtcp := mkRtcp { rc_port : N; rc_addr : option (str * str * str) }.
(** sdp.rs:734-783 [GroupSemantics], [MediaGroup]: the semantics is given by
    the text it is printed as *)
Definition group := (str * list str)%type.
(** sdp.rs:837-846 [CapabilityDescription] *)
Record cdsc := mkCdsc { cd_num : N; cd_media : str; cd_transport : str; cd_formats : list str }.
(** sdp.rs:901-933 [CapabilityParameterType], [CapabilityParameter] *)
Inductive cpar_type := CGeneral | CMin | CMax.
Definition cpar := (cpar_type * str)%type.
(** sdp.rs:955-962 [SdpCapabilitySet] *)
Record capset := mkCaps { cs_sqn : N; cs_descs : list cdsc; cs_params : list cpar }.
(** sdp.rs:563-593 [MediaDescription] *)
Record media := mkMedia {
  md_type : str; md_port : N; md_count : option N; md_proto : str; md_fmt : list str; md_title : option str; md_conn : option conn;
  md_bw : list bandwidth; md_key : option sdp_key; md_attrs : list attribute; md_mid : option str; md_rtcp : option rtcp; md_caps : option capset }.
(** sdp.rs:293-333 [SdpSession]: the optional session lines are kept together
    in [body] *)
Record body := mkBody {
  bd_info : option str; bd_uri : option str; bd_emails : list str; bd_phones : list str; bd_conn : option conn; bd_bw : list bandwidth;
  bd_timing : list timing; bd_repeats : list repeat_time; bd_zones : list zone; bd_key : option sdp_key; bd_attrs : list attribute }.
Record session := mkSession {
  ss_version : N; ss_origin : origin; ss_name : str; ss_body : body; ss_groups : list group; ss_caps : option capset; ss_media : list media }.

(** ** Lines *)
Definition bindo {A B} (o : option A) (f : A -> option B) : option B := match o with Some a => f a | None => None end.
Notation "x <- o ;; e" := (bindo o (fun x => e)) (at level 61, o at next level, right associativity).
Definition guard (b : bool) : option unit := if b then Some tt else None.
(** sdp.rs:1333-1337: [str::lines] cuts at LF; the trailing CRs go *)
Definition sd_lines (s : str) : list str :=
  filter (fun l => negb (str_eqb l [])) (map (trim_end_by (N.eqb 13)) (split_on 10 s)).

(** sdp.rs:2457-2479 [parse_origin] *)
Definition p_origin (v : str) : option origin :=
  match split_ws v with
  | [a; b; c; d; e; f] =>
      _ <- guard (sd_text SD_USERNAME a && sd_text SD_SESSION_ID b && sd_text SD_SESSION_VERSION c && sd_text SD_NETTYPE d && sd_text SD_ADDRTYPE e && sd_text SD_ADDRESS f) ;;
      Some (mkOrigin a b c d e f)
  | _ => None
  end.
(** sdp.rs:2481-2497 [parse_connection] *)
Definition p_conn (v : str) : option conn :=
  match split_ws v with
  | [a; b; c] => _ <- guard (sd_text SD_NETTYPE a && sd_text SD_ADDRTYPE b && sd_text SD_ADDRESS c) ;; Some (mkConn a b c)
  | _ => None
  end.
(** sdp.rs:2499-2519 [parse_bandwidth] *)
Definition p_bw (v : str) : option bandwidth :=
  match split_on 58 v with
  | [a; b] => _ <- guard (sd_text SD_BWTYPE a) ;; n <- parse_uint u64_max b ;; _ <- guard (n <=? SD_BW_VALUE) ;; Some (mkBw a n)
  | _ => None
  end.
(** sdp.rs:2521-2538 [parse_timing] *)
Definition p_timing (v : str) : option timing :=
  match split_ws v with
  | [a; b] => x <- parse_uint u64_max a ;; y <- parse_uint u64_max b ;; Some (x, y)
  | _ => None
  end.
(** sdp.rs:2540-2563 [parse_repeat_time] *)
Definition p_repeat (v : str) : option repeat_time :=
  match split_ws v with
  | a :: b :: (_ :: _) as os =>
      _ <- guard (sd_text SD_FORMAT a && sd_text SD_FORMAT b && (llen os <=? SD_OFFSETS) && forallb (sd_text SD_FORMAT) os) ;;
      Some (mkRepeat a b os)
  | _ => None
  end.
(** sdp.rs:2565-2590 [parse_time_zones] *)
Fixpoint p_zone_list (ws : list str) : option (list zone) :=
  match ws with
  | [] => Some []
  | a :: b :: r => n <- parse_uint u64_max a ;; _ <- guard (sd_text SD_FORMAT b) ;; zs <- p_zone_list r ;; Some ((n, b) :: zs)
  | [_] => None
  end.
Definition p_zones (v : str) : option (list zone) := zs <- p_zone_list (split_ws v) ;; _ <- guard (llen zs <=? SD_ZONES) ;; Some zs.
(** sdp.rs:2592-2611 [parse_encryption_key], 2613-2632 [parse_attribute] *)
Definition p_pair (mn mv : N) (v : str) : option (str * option str) :=
  match split_once 58 v with
  | None => _ <- guard (sd_text mn v) ;; Some (v, None)
  | Some (a, b) => _ <- guard (sd_text mn a && sd_text mv b) ;; Some (a, Some b)
  end.
Definition p_key (v : str) : option sdp_key := p_pair SD_KEY_METHOD SD_KEY v.
Definition p_attr (v : str) : option attribute := p_pair SD_ATTR_NAME SD_ATTR_VALUE v.
(** sdp.rs:2636-2676 [parse_media_line]: the type, port, port count, protocol
    and formats; what follows a second slash is ignored *)
Definition p_media (v : str) : option media :=
  match split_ws v with
  | a :: p :: pr :: (_ :: _) as fs =>
      _ <- guard (sd_text SD_MEDIA_TYPE a) ;;
      pc <- match split_on 47 p with
            | [x] => n <- parse_uint u16_max x ;; Some (n, None)
            | x :: y :: _ => n <- parse_uint u16_max x ;; c <- parse_uint u16_max y ;; Some (n, Some c)
            | [] => None
            end ;;
      _ <- guard (sd_text SD_PROTO pr && (llen fs <=? SD_FORMATS) && forallb (sd_text SD_FORMAT) fs) ;;
      Some (mkMedia a (fst pc) (snd pc) pr fs None None [] None [] None None None)
  | _ => None
  end.

(** ** The session part (sdp.rs:1396-1520 [parse_session_level]) *)
Definition sized {A} (mx : N) (l : list A) : option (list A) := _ <- guard (llen l <=? mx) ;; Some l.
Definition empty_body : body := mkBody None None [] [] None [] [] [] [] None [].
Definition with_info (b : body) (x : str) := mkBody (Some x) (bd_uri b) (bd_emails b) (bd_phones b) (bd_conn b) (bd_bw b) (bd_timing b) (bd_repeats b) (bd_zones b) (bd_key b) (bd_attrs b).
Definition with_uri (b : body) (x : str) := mkBody (bd_info b) (Some x) (bd_emails b) (bd_phones b) (bd_conn b) (bd_bw b) (bd_timing b) (bd_repeats b) (bd_zones b) (bd_key b) (bd_attrs b).
Definition with_emails (b : body) (x : list str) := mkBody (bd_info b) (bd_uri b) x (bd_phones b) (bd_conn b) (bd_bw b) (bd_timing b) (bd_repeats b) (bd_zones b) (bd_key b) (bd_attrs b).
Definition with_phones (b : body) (x : list str) := mkBody (bd_info b) (bd_uri b) (bd_emails b) x (bd_conn b) (bd_bw b) (bd_timing b) (bd_repeats b) (bd_zones b) (bd_key b) (bd_attrs b).
Definition with_conn (b : body) (x : conn) := mkBody (bd_info b) (bd_uri b) (bd_emails b) (bd_phones b) (Some x) (bd_bw b) (bd_timing b) (bd_repeats b) (bd_zones b) (bd_key b) (bd_attrs b).
Definition with_bw (b : body) (x : list bandwidth) := mkBody (bd_info b) (bd_uri b) (bd_emails b) (bd_phones b) (bd_conn b) x (bd_timing b) (bd_repeats b) (bd_zones b) (bd_key b) (bd_attrs b).
Definition with_timing (b : body) (x : list timing) := mkBody (bd_info b) (bd_uri b) (bd_emails b) (bd_phones b) (bd_conn b) (bd_bw b) x (bd_repeats b) (bd_zones b) (bd_key b) (bd_attrs b).
Definition with_repeats (b : body) (x : list repeat_time) := mkBody (bd_info b) (bd_uri b) (bd_emails b) (bd_phones b) (bd_conn b) (bd_bw b) (bd_timing b) x (bd_zones b) (bd_key b) (bd_attrs b).
Definition with_zones (b : body) (x : list zone) := mkBody (bd_info b) (bd_uri b) (bd_emails b) (bd_phones b) (bd_conn b) (bd_bw b) (bd_timing b) (bd_repeats b) x (bd_key b) (bd_attrs b).
Definition with_key (b : body) (x : sdp_key) := mkBody (bd_info b) (bd_uri b) (bd_emails b) (bd_phones b) (bd_conn b) (bd_bw b) (bd_timing b) (bd_repeats b) (bd_zones b) (Some x) (bd_attrs b).
Definition with_attrs (b : body) (x : list attribute) := mkBody (bd_info b) (bd_uri b) (bd_emails b) (bd_phones b) (bd_conn b) (bd_bw b) (bd_timing b) (bd_repeats b) (bd_zones b) (bd_key b) x.
(** one line [c=v]; [after] says that the line before was a t= line or one of
    the r= lines behind it (sdp.rs:1473-1486 reads those in an inner loop) *)
Definition body_line (after : bool) (c : N) (v : str) (b : body) : option (bool * body) :=
  if c =? 105 then _ <- guard (sd_text SD_INFO v) ;; Some (false, with_info b v)
  else if c =? 117 then _ <- guard (sd_text SD_URI v) ;; Some (false, with_uri b v)
  else if c =? 101 then _ <- guard (sd_text SD_EMAIL v) ;; l <- sized SD_EMAILS (bd_emails b ++ [v]) ;; Some (false, with_emails b l)
  else if c =? 112 then _ <- guard (sd_text SD_PHONE v) ;; l <- sized SD_PHONES (bd_phones b ++ [v]) ;; Some (false, with_phones b l)
  else if c =? 99 then x <- p_conn v ;; Some (false, with_conn b x)
  else if c =? 98 then x <- p_bw v ;; l <- sized SD_BANDWIDTHS (bd_bw b ++ [x]) ;; Some (false, with_bw b l)
  else if c =? 116 then x <- p_timing v ;; l <- sized SD_TIMINGS (bd_timing b ++ [x]) ;; Some (true, with_timing b l)
  else if c =? 114 then _ <- guard after ;; x <- p_repeat v ;; l <- sized SD_REPEATS (bd_repeats b ++ [x]) ;; Some (true, with_repeats b l)
  else if c =? 122 then x <- p_zones v ;; Some (false, with_zones b (bd_zones b ++ x))
  else if c =? 107 then x <- p_key v ;; Some (false, with_key b x)
  else if c =? 97 then x <- p_attr v ;; l <- sized SD_ATTRS (bd_attrs b ++ [x]) ;; Some (false, with_attrs b l)
  else Some (false, b).
Fixpoint body_loop (after : bool) (ls : list str) (b : body) : option (body * list str) :=
  match ls with
  | [] => Some (b, [])
  | (c :: 61 :: v) :: r => if c =? 109 then Some (b, ls) else ab <- body_line after c v b ;; body_loop (fst ab) r (snd ab)
  | _ => None
  end.

(** ** The media part (sdp.rs:2068-2142 [MediaDescription::parse], 1373-1378) *)
Definition m_title (m : media) (x : str) := mkMedia (md_type m) (md_port m) (md_count m) (md_proto m) (md_fmt m) (Some x) (md_conn m) (md_bw m) (md_key m) (md_attrs m) (md_mid m) (md_rtcp m) (md_caps m).
Definition m_conn (m : media) (x : conn) := mkMedia (md_type m) (md_port m) (md_count m) (md_proto m) (md_fmt m) (md_title m) (Some x) (md_bw m) (md_key m) (md_attrs m) (md_mid m) (md_rtcp m) (md_caps m).
Definition m_bw (m : media) (x : list bandwidth) := mkMedia (md_type m) (md_port m) (md_count m) (md_proto m) (md_fmt m) (md_title m) (md_conn m) x (md_key m) (md_attrs m) (md_mid m) (md_rtcp m) (md_caps m).
Definition m_key (m : media) (x : sdp_key) := mkMedia (md_type m) (md_port m) (md_count m) (md_proto m) (md_fmt m) (md_title m) (md_conn m) (md_bw m) (Some x) (md_attrs m) (md_mid m) (md_rtcp m) (md_caps m).
Definition m_attrs (m : media) (x : list attribute) := mkMedia (md_type m) (md_port m) (md_count m) (md_proto m) (md_fmt m) (md_title m) (md_conn m) (md_bw m) (md_key m) x (md_mid m) (md_rtcp m) (md_caps m).
Definition media_line (c : N) (v : str) (m : media) : option media :=
  if c =? 105 then _ <- guard (sd_text SD_INFO v) ;; Some (m_title m v)
  else if c =? 99 then x <- p_conn v ;; Some (m_conn m x)
  else if c =? 98 then x <- p_bw v ;; l <- sized SD_BANDWIDTHS (md_bw m ++ [x]) ;; Some (m_bw m l)
  else if c =? 107 then x <- p_key v ;; Some (m_key m x)
  else if c =? 97 then x <- p_attr v ;; l <- sized SD_ATTRS (md_attrs m ++ [x]) ;; Some (m_attrs m l)
  else None.
(** the media descriptions that remain when [cur] is being read *)
Fixpoint media_loop (ls : list str) (cur : media) : option (list media) :=
  match ls with
  | [] => Some [cur]
  | (c :: 61 :: v) :: r =>
      if c =? 109 then m <- p_media v ;; ms <- media_loop r m ;; Some (cur :: ms)
      else m <- media_line c v cur ;; media_loop r m
  | _ => None
  end.
Definition media_list (ls : list str) : option (list media) :=
  match ls with
  | [] => Some []
  | (109 :: 61 :: v) :: r => m <- p_media v ;; ms <- media_loop r m ;; sized SD_MEDIAS ms
  | _ => None
  end.

(** ** Attributes with fields of their own *)
(** [to_uppercase] on the words that matter: the ASCII letters, the long s, the
    dotless i and the fi ligature *)
Definition up_c (c : N) : str := if c =? 383 then [83] else if c =? 305 then [73] else if c =? 64257 then [70; 73] else [upper_c c].
(** sdp.rs:755-763 [GroupSemantics::parse] *)
Definition semantics (s : str) : str :=
  let u := flat_map up_c s in
  if str_eqb u (lit "LS") || str_eqb u (lit "FID") || str_eqb u (lit "SRF") then u else s.
(** sdp.rs:791-816 [MediaGroup::parse] *)
Definition p_group (v : str) : option group :=
  match split_ws v with
  | a :: (_ :: _) as ws => _ <- guard (sd_text SD_ATTR_NAME a && (llen ws <=? SD_MIDS) && forallb (sd_text SD_MID) ws) ;; Some (semantics a, ws)
  | _ => None
  end.
(** sdp.rs:853-886 [CapabilityDescription::parse] *)
Definition p_cdsc (v : str) : option cdsc :=
  match split_ws v with
  | a :: b :: c :: (_ :: _) as fs =>
      n <- parse_uint u8_max a ;;
      _ <- guard (negb (n =? 0) && sd_text SD_MEDIA_TYPE b && sd_text SD_PROTO c && (llen fs <=? SD_FORMATS) && forallb (sd_text SD_FORMAT) fs) ;;
      Some (mkCdsc n b c fs)
  | _ => None
  end.
(** sdp.rs:669-694 [RtcpAttribute::parse] *)
Definition p_rtcp (v : str) : option rtcp :=
  match split_ws v with
  | [a] => n <- parse_uint u16_max a ;; Some (mkRtcp n None)
  | [a; b; c; d] => n <- parse_uint u16_max a ;; Some (mkRtcp n (Some (b, c, d)))
  | _ => None
  end.
(** sdp.rs:1523-1545 [extract_groups_and_mids], the session *)
Fixpoint take_groups (l : list attribute) : option (list group * list attribute) :=
  match l with
  | [] => Some ([], [])
  | a :: r =>
      gr <- take_groups r ;;
      if str_eqb (fst a) (lit "group") then v <- snd a ;; g <- p_group v ;; Some (g :: fst gr, snd gr) else Some (fst gr, a :: snd gr)
  end.
(** sdp.rs:1547-1564, a media description; the last [mid] counts *)
Fixpoint take_mid (l : list attribute) : option (option str * list attribute) :=
  match l with
  | [] => Some (None, [])
  | a :: r =>
      mr <- take_mid r ;;
      if str_eqb (fst a) (lit "mid") then v <- snd a ;; Some (match fst mr with Some x => Some x | None => Some v end, snd mr) else Some (fst mr, a :: snd mr)
  end.
(** sdp.rs:1582-1600 [extract_rtcp] *)
Fixpoint take_rtcp (l : list attribute) : option (option rtcp * list attribute) :=
  match l with
  | [] => Some (None, [])
  | a :: r =>
      mr <- take_rtcp r ;;
      if str_eqb (fst a) (lit "rtcp") then v <- snd a ;; x <- p_rtcp v ;; Some (match fst mr with Some x => Some x | None => Some x end, snd mr)
      else Some (fst mr, a :: snd mr)
  end.
(** sdp.rs:1602-1697 [extract_capability_set_from_attributes] *)
Definition cpar_kind (n : str) : option cpar_type :=
  if str_eqb n (lit "cpar") then Some CGeneral else if str_eqb n (lit "cparmin") then Some CMin else if str_eqb n (lit "cparmax") then Some CMax else None.
Fixpoint take_caps (l : list attribute) : option (option N * list cdsc * list cpar * list attribute) :=
  match l with
  | [] => Some (None, [], [], [])
  | a :: r =>
      tr <- take_caps r ;;
      let '(q, ds, ps, rest) := tr in
      if str_eqb (fst a) (lit "sqn") then v <- snd a ;; n <- parse_uint u8_max v ;; Some (match q with Some x => Some x | None => Some n end, ds, ps, rest)
      else if str_eqb (fst a) (lit "cdsc") then v <- snd a ;; d <- p_cdsc v ;; Some (q, d :: ds, ps, rest)
      else match cpar_kind (fst a) with
           | Some k => v <- snd a ;; Some (q, ds, (k, v) :: ps, rest)
           | None => Some (q, ds, ps, a :: rest)
           end
  end.
Definition find_caps (l : list attribute) : option (option capset * list attribute) :=
  tr <- take_caps l ;;
  let '(q, ds, ps, rest) := tr in
  _ <- guard ((llen ds <=? SD_CDSCS) && (llen ps <=? SD_CPARS)) ;;
  match q with
  | Some n => Some (Some (mkCaps n ds ps), rest)
  | None => _ <- guard ((llen ds =? 0) && (llen ps =? 0)) ;; Some (None, rest)
  end.
Definition finish_media (m : media) : option media :=
  mr <- take_mid (md_attrs m) ;;
  cr <- find_caps (snd mr) ;;
  rr <- take_rtcp (snd cr) ;;
  Some (mkMedia (md_type m) (md_port m) (md_count m) (md_proto m) (md_fmt m) (md_title m) (md_conn m) (md_bw m) (md_key m) (snd rr) (fst mr) (fst rr) (fst cr)).
Fixpoint finish_all (l : list media) : option (list media) :=
  match l with [] => Some [] | m :: r => x <- finish_media m ;; xs <- finish_all r ;; Some (x :: xs) end.

(** ** sdp.rs:1332-1394 [SdpSession::parse], 1700-1716 [validate] *)
Definition sdp_parse (s : str) : option session :=
  match sd_lines s with
  | (118 :: 61 :: v) :: (111 :: 61 :: o) :: (115 :: 61 :: n) :: ls =>
      ver <- parse_uint u32_max v ;;
      org <- p_origin o ;;
      _ <- guard (sd_text SD_SESSION_NAME n) ;;
      br <- body_loop false ls empty_body ;;
      ms <- media_list (snd br) ;;
      gr <- take_groups (bd_attrs (fst br)) ;;
      _ <- guard (llen (fst gr) <=? SD_GROUPS) ;;
      cr <- find_caps (snd gr) ;;
      fs <- finish_all ms ;;
      _ <- guard (negb (llen (bd_timing (fst br)) =? 0) && (is_some (bd_conn (fst br)) || forallb (fun m => is_some (md_conn m)) fs)) ;;
      Some (mkSession ver org n (with_attrs (fst br) (snd cr)) (fst gr) (fst cr) fs)
  | _ => None
  end.

(** ** Display (sdp.rs:1994-2063, 2211-2326); every line ends with LF *)
Definition spaced (ws : list str) : str := flat_map (fun w => 32 :: w) ws.
Definition l_origin (o : origin) : str := lit "o=" ++ og_user o ++ spaced [og_id o; og_version o; og_net o; og_type o; og_addr o].
Definition l_conn (c : conn) : str := lit "c=" ++ cn_net c ++ spaced [cn_type c; cn_addr c].
Definition l_bw (b : bandwidth) : str := lit "b=" ++ bw_type b ++ [58] ++ print_N (bw_value b).
Definition l_timing (t : timing) : str := lit "t=" ++ print_N (fst t) ++ spaced [print_N (snd t)].
Definition l_repeat (r : repeat_time) : str := lit "r=" ++ rp_interval r ++ spaced (rp_duration r :: rp_offsets r).
Definition l_zones (zs : list zone) : list str :=
  match flat_map (fun z => [print_N (fst z); snd z]) zs with [] => [] | w :: ws => [lit "z=" ++ w ++ spaced ws] end.
Definition pair_text (p : str * option str) : str := fst p ++ match snd p with Some v => 58 :: v | None => [] end.
Definition l_key (k : sdp_key) : str := lit "k=" ++ pair_text k.
Definition l_attr (a : attribute) : str := lit "a=" ++ pair_text a.
Definition cdsc_text (d : cdsc) : str := print_N (cd_num d) ++ spaced (cd_media d :: cd_transport d :: cd_formats d).
Definition cpar_name (k : cpar_type) : str := match k with CGeneral => lit "cpar" | CMin => lit "cparmin" | CMax => lit "cparmax" end.
Definition caps_attrs (c : option capset) : list attribute :=
  match c with
  | None => []
  | Some c => (lit "sqn", Some (print_N (cs_sqn c))) :: map (fun d => (lit "cdsc", Some (cdsc_text d))) (cs_descs c) ++ map (fun p => (cpar_name (fst p), Some (snd p))) (cs_params c)
  end.
Definition group_attr (g : group) : attribute := (lit "group", Some (fst g ++ spaced (snd g))).
Definition rtcp_text (r : rtcp) : str := print_N (rc_port r) ++ match rc_addr r with Some (a, b, c) => spaced [a; b; c] | None => [] end.
Definition opt_list {A} (o : option A) : list A := match o with Some a => [a] | None => [] end.
Definition media_attrs (m : media) : list attribute :=
  map (fun v => (lit "mid", Some v)) (opt_list (md_mid m)) ++ map (fun r => (lit "rtcp", Some (rtcp_text r))) (opt_list (md_rtcp m))
  ++ caps_attrs (md_caps m) ++ md_attrs m.
Definition media_lines (m : media) : list str :=
  (lit "m=" ++ md_type m ++ spaced ((print_N (md_port m) ++ match md_count m with Some c => 47 :: print_N c | None => [] end) :: md_proto m :: md_fmt m))
  :: map (fun t => lit "i=" ++ t) (opt_list (md_title m)) ++ map l_conn (opt_list (md_conn m)) ++ map l_bw (md_bw m) ++ map l_key (opt_list (md_key m))
  ++ map l_attr (media_attrs m).
Definition body_lines (b : body) (attrs : list attribute) : list str :=
  map (fun t => lit "i=" ++ t) (opt_list (bd_info b)) ++ map (fun t => lit "u=" ++ t) (opt_list (bd_uri b)) ++ map (fun t => lit "e=" ++ t) (bd_emails b)
  ++ map (fun t => lit "p=" ++ t) (bd_phones b) ++ map l_conn (opt_list (bd_conn b)) ++ map l_bw (bd_bw b) ++ map l_timing (bd_timing b)
  ++ map l_repeat (bd_repeats b) ++ l_zones (bd_zones b) ++ map l_key (opt_list (bd_key b)) ++ map l_attr attrs.
Definition session_lines (s : session) : list str :=
  (lit "v=" ++ print_N (ss_version s)) :: l_origin (ss_origin s) :: (lit "s=" ++ ss_name s)
  :: body_lines (ss_body s) (bd_attrs (ss_body s) ++ caps_attrs (ss_caps s) ++ map group_attr (ss_groups s))
  ++ flat_map media_lines (ss_media s).
Definition sdp_print (s : session) : str := flat_map (fun l => l ++ [10]) (session_lines s).
