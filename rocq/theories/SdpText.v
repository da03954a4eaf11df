(** Model of reading and writing session descriptions: crates/sip-sdp/src/parse.rs,
    serialize.rs and the [Display] instances of lib.rs:858-899.
    The combinators of nom 7 (complete versions, over [&str]) are spelled out below: a
    parser returns the rest of the input and a value, or fails.
    Simplifications: the payloads of errors are dropped. *)
From Coq Require Import NArith Bool String List.
Import ListNotations.
From Verif Require Import Base Text Sdp.
Open Scope N_scope.
Open Scope list_scope.

Definition parser (A : Type) := str -> option (str * A).
(** nom: [take_till(p)], which never fails *)
Definition take_till (p : N -> bool) : parser str := fun s => let '(a, b) := span (fun c => negb (p c)) s in Some (b, a).
(** nom: [space1]: blanks and tabs, at least one *)
Definition space_tab (c : N) : bool := (c =? 32) || (c =? 9).
Definition space1 : parser unit := fun s =>
  let '(a, b) := span space_tab s in match a with [] => None | _ => Some (b, tt) end.
(** nom: [map_res(digit1, parse::<uN>)] *)
Definition number (max : N) : parser N := fun s =>
  let '(a, b) := span is_digit s in
  match a with [] => None | _ => match parse_uint max a with Some n => Some (b, n) | None => None end end.
(** nom: [tag] *)
Definition tag {A} (t : str) (v : A) : parser A := fun s => match strip_prefix t s with Some r => Some (r, v) | None => None end.
(** nom: sequencing; [alt] *)
Definition bind {A B} (p : parser A) (f : A -> parser B) : parser B := fun s => match p s with Some (r, a) => f a r | None => None end.
Definition pure {A} (a : A) : parser A := fun s => Some (s, a).
Definition orelse {A} (p q : parser A) : parser A := fun s => match p s with Some x => Some x | None => q s end.
Definition pmap {A B} (f : A -> B) (p : parser A) : parser B := bind p (fun a => pure (f a)).
Notation "x <- p ;; q" := (bind p (fun x => q)) (at level 61, p at next level, right associativity).
(** nom: [terminated(p, space1)] *)
Definition then_space {A} (p : parser A) : parser A := a <- p ;; _ <- space1 ;; pure a.
(** nom: [line_ending] under [opt] *)
Definition skip_eol (s : str) : str :=
  match strip_prefix [10] s with
  | Some r => r
  | None => match strip_prefix [13; 10] s with Some r => r | None => s end
  end.

Definition eol (c : N) : bool := (c =? 13) || (c =? 10).
Definition to_eol : parser str := take_till eol.
Definition word : parser str := take_till (fun c => (c =? 32) || (c =? 13) || (c =? 10)).

(** parse.rs:127-157 [SdpLine]; a media block is a [media] without maps *)
Inductive sdp_line :=
| LVersion (v : N) | LOrigin (o : origin) | LName (s : str) | LInfo (s : str) | LUri (s : str) | LEmail (s : str) | LPhone (s : str)
| LConn (c : connection) | LBandwidth (b : bandwidth) | LTime (a b : N) | LRepeat (r : repeat_time) | LZone (l : list time_zone)
| LKey (s : str) | LAttr (a : attribute) | LMedia (m : media).

(** parse.rs:462-470 *)
Definition nettype : parser unit := tag (lit "IN") tt.
Definition addrtype : parser addr_type := orelse (tag (lit "IP4") IP4) (tag (lit "IP6") IP6).
(** parse.rs:190-192 *)
Definition v_line : parser sdp_line := _ <- tag (lit "v=") tt ;; pmap LVersion (number u8_max).
(** parse.rs:195-218 *)
Definition o_line : parser sdp_line :=
  let field := take_till (N.eqb 32) in
  _ <- tag (lit "o=") tt ;; u <- then_space field ;; i <- then_space field ;; v <- then_space field ;;
  _ <- then_space nettype ;; t <- then_space addrtype ;; a <- to_eol ;; pure (LOrigin (mkOrigin u i v t (trim a))).
(** parse.rs:221-271, 357-364: s= i= u= e= p= k= *)
Definition text_line (t : str) (f : str -> sdp_line) : parser sdp_line := _ <- tag t tt ;; pmap (fun x => f (trim x)) to_eol.
(** parse.rs:274-290 *)
Definition c_line : parser sdp_line :=
  _ <- tag (lit "c=") tt ;; _ <- then_space nettype ;; t <- then_space addrtype ;; a <- to_eol ;; pure (LConn (mkConnection t (trim a))).
(** parse.rs:293-307 *)
Definition b_line : parser sdp_line :=
  _ <- tag (lit "b=") tt ;; t <- take_till (N.eqb 58) ;; _ <- tag [58] tt ;; n <- number u32_max ;; pure (LBandwidth (mkBandwidth t n)).
(** parse.rs:310-325 *)
Definition t_line : parser sdp_line :=
  _ <- tag (lit "t=") tt ;; a <- then_space (number u64_max) ;; b <- number u64_max ;; pure (LTime a b).
(** parse.rs:328-345 *)
Definition r_line : parser sdp_line :=
  _ <- tag (lit "r=") tt ;; pmap (fun s => let l := split_ws s in LRepeat (mkRepeat (nth 0 l []) (nth 1 l []) (skipn 2 l))) to_eol.
(** parse.rs:348-373: pairs of words; a single last word gets an empty offset *)
Fixpoint zones (l : list str) : list time_zone :=
  match l with
  | [] => []
  | [x] => [mkZone x []]
  | x :: y :: r => mkZone x y :: zones r
  end.
Definition z_line : parser sdp_line := _ <- tag (lit "z=") tt ;; pmap (fun s => LZone (zones (split_ws s))) to_eol.
(** parse.rs:387-420 *)
Definition a_line : parser sdp_line :=
  _ <- tag (lit "a=") tt ;;
  pmap LAttr (orelse (n <- take_till (fun c => (c =? 58) || eol c) ;; _ <- tag [58] tt ;; v <- to_eol ;; pure (AVal n (trim_end v)))
                     (pmap (fun s => AProp (trim s)) to_eol)).
(** parse.rs:453-467 *)
Definition media_type_of (s : str) : media_type :=
  if str_eqb s (lit "audio") then MAudio else if str_eqb s (lit "video") then MVideo else if str_eqb s (lit "text") then MText
  else if str_eqb s (lit "application") then MApplication else if str_eqb s (lit "message") then MMessage else MOther s.
(** parse.rs:470-482 *)
Definition port : parser (N * option N) :=
  p <- number u16_max ;; orelse (_ <- tag [47] tt ;; n <- number u16_max ;; pure (p, Some n)) (pure (p, None)).
(** parse.rs:485-506 *)
Definition proto : parser protocol :=
  orelse (tag (lit "UDP/TLS/RTP/SAVPF") PUdpTlsRtpSavpf)
  (orelse (tag (lit "TCP/TLS/RTP/SAVPF") PTcpTlsRtpSavpf)
  (orelse (tag (lit "RTP/SAVPF") PRtpSavpf)
  (orelse (tag (lit "RTP/SAVP") PRtpSavp)
  (orelse (tag (lit "RTP/AVP") PRtpAvp)
  (orelse (tag (lit "UDP") PUdp)
  (orelse (tag (lit "TCP") PTcp)
          (pmap POther word))))))).
(** nom: [separated_list0(space1, word)]; the first word is always read, each further one
    after blanks; [fuel] bounds the rounds, each of which consumes a blank *)
Fixpoint more_words (fuel : nat) (s : str) : str * list str :=
  match fuel with
  | O => (s, [])
  | S k => match space1 s with
           | None => (s, [])
           | Some (r, _) => match word r with
                            | None => (s, [])
                            | Some (r', w) => let '(r2, l) := more_words k r' in (r2, w :: l)
                            end
           end
  end.
Definition words : parser (list str) := w <- word ;; fun s => let '(r, l) := more_words (length s) s in Some (r, w :: l).
(** parse.rs:423-450 *)
Definition m_line : parser sdp_line :=
  _ <- tag (lit "m=") tt ;; t <- then_space word ;; p <- then_space port ;; pr <- then_space proto ;; l <- words ;;
  pure (LMedia (mkMedia (media_type_of t) (fst p) (snd p) pr l None None [] None [] [])).
(** parse.rs:166-187 [parse_line] *)
Definition p_line : parser sdp_line :=
  orelse v_line (orelse o_line (orelse (text_line (lit "s=") LName) (orelse (text_line (lit "i=") LInfo) (orelse (text_line (lit "u=") LUri)
  (orelse (text_line (lit "e=") LEmail) (orelse (text_line (lit "p=") LPhone) (orelse c_line (orelse b_line (orelse t_line (orelse r_line
  (orelse z_line (orelse (text_line (lit "k=") LKey) (orelse a_line m_line))))))))))))).
(** parse.rs:160-163 [parse_sdp_lines]: nom's [many0]; each round consumes at least the
    two characters of a tag *)
Fixpoint p_lines (fuel : nat) (s : str) : str * list sdp_line :=
  match fuel with
  | O => (s, [])
  | S k => match p_line s with
           | None => (s, [])
           | Some (r, l) => let '(r2, ls) := p_lines k (skip_eol r) in (r2, l :: ls)
           end
  end.

(** ** From lines to a description (parse.rs:508-690) *)
Inductive sdp_error := ELimit | EFailed | EFormat | EMissing | EVersion.
Record limits := mkLimits { max_bytes : N; max_lines : N; max_line_length : N; max_attrs : N }.
(** parse.rs:74-83 *)
Definition default_limits : limits := mkLimits (128 * 1024) 2048 4096 500.
Record building := mkBuilding { b_version : option N; b_origin : option origin; b_name : option str; b_info : option str; b_uri : option str;
  b_email : option str; b_phone : option str; b_conn : option connection; b_bw : list bandwidth; b_times : list time_desc;
  b_time : option time_desc; b_zones : list time_zone; b_key : option str; b_attrs : list attribute; b_media : list media; b_cur : option media }.
Definition building0 : building := mkBuilding None None None None None None None None [] [] None [] None [] [] None.
Definition m_title (x : option str) (m : media) : media :=
  mkMedia (md_type m) (md_port m) (md_ports m) (md_proto m) (md_formats m) x (md_conn m) (md_bw m) (md_key m) (md_attrs m) (md_maps m).
Definition m_conn (x : option connection) (m : media) : media :=
  mkMedia (md_type m) (md_port m) (md_ports m) (md_proto m) (md_formats m) (md_title m) x (md_bw m) (md_key m) (md_attrs m) (md_maps m).
Definition m_bw (x : list bandwidth) (m : media) : media :=
  mkMedia (md_type m) (md_port m) (md_ports m) (md_proto m) (md_formats m) (md_title m) (md_conn m) x (md_key m) (md_attrs m) (md_maps m).
Definition m_key (x : option str) (m : media) : media :=
  mkMedia (md_type m) (md_port m) (md_ports m) (md_proto m) (md_formats m) (md_title m) (md_conn m) (md_bw m) x (md_attrs m) (md_maps m).
Definition m_maps (x : list (N * rtpmap)) (m : media) : media :=
  mkMedia (md_type m) (md_port m) (md_ports m) (md_proto m) (md_formats m) (md_title m) (md_conn m) (md_bw m) (md_key m) (md_attrs m) x.
Definition set_cur (b : building) (m : media) : building :=
  mkBuilding (b_version b) (b_origin b) (b_name b) (b_info b) (b_uri b) (b_email b) (b_phone b) (b_conn b) (b_bw b) (b_times b) (b_time b)
    (b_zones b) (b_key b) (b_attrs b) (b_media b) (Some m).
Definition opt_list {A} (x : option A) : list A := match x with Some a => [a] | None => [] end.
Definition is_nil {A} (l : list A) : bool := match l with [] => true | _ => false end.
(** parse.rs:534-632: one line *)
Definition b_step (lim : limits) (b : building) (l : sdp_line) : result building sdp_error :=
  let '(mkBuilding v o n i u e p c w ts t z k a ms cur) := b in
  match l with
  | LVersion x => Ok (mkBuilding (Some x) o n i u e p c w ts t z k a ms cur)
  | LOrigin x => Ok (mkBuilding v (Some x) n i u e p c w ts t z k a ms cur)
  | LName x => Ok (mkBuilding v o (Some x) i u e p c w ts t z k a ms cur)
  | LInfo x => match cur with
               | Some m => Ok (set_cur b (m_title (Some x) m))
               | None => Ok (mkBuilding v o n (Some x) u e p c w ts t z k a ms cur)
               end
  | LUri x => Ok (mkBuilding v o n i (Some x) e p c w ts t z k a ms cur)
  | LEmail x => Ok (mkBuilding v o n i u (Some x) p c w ts t z k a ms cur)
  | LPhone x => Ok (mkBuilding v o n i u e (Some x) c w ts t z k a ms cur)
  | LConn x => match cur with
               | Some m => Ok (set_cur b (m_conn (Some x) m))
               | None => Ok (mkBuilding v o n i u e p (Some x) w ts t z k a ms cur)
               end
  | LBandwidth x => match cur with
                    | Some m => Ok (set_cur b (m_bw (md_bw m ++ [x]) m))
                    | None => Ok (mkBuilding v o n i u e p c (w ++ [x]) ts t z k a ms cur)
                    end
  | LTime x y => Ok (mkBuilding v o n i u e p c w (ts ++ opt_list t) (Some (mkTime x y [])) z k a ms cur)
  | LRepeat r =>
      (* 693-703 [normalize_repeat] *)
      if is_nil (rp_interval r) || is_nil (rp_duration r) then Err EFormat
      else match t with
           | Some d => Ok (mkBuilding v o n i u e p c w ts (Some (mkTime (tm_start d) (tm_stop d) (tm_repeats d ++ [r]))) z k a ms cur)
           | None => Err EFormat
           end
  | LZone l =>
      (* 705-725 [normalize_time_zones] *)
      if is_nil l || existsb (fun x => is_nil (tz_time x) || is_nil (tz_offset x)) l then Err EFormat
      else Ok (mkBuilding v o n i u e p c w ts t (z ++ l) k a ms cur)
  | LKey x => match cur with
              | Some m => Ok (set_cur b (m_key (Some x) m))
              | None => Ok (mkBuilding v o n i u e p c w ts t z (Some x) a ms cur)
              end
  | LAttr x => match cur with
               | Some m => if max_attrs lim <=? llen (md_attrs m) then Err ELimit else Ok (set_cur b (with_attrs m (md_attrs m ++ [x])))
               | None => if max_attrs lim <=? llen a then Err ELimit else Ok (mkBuilding v o n i u e p c w ts t z k (a ++ [x]) ms cur)
               end
  | LMedia m => Ok (mkBuilding v o n i u e p c w ts t z k a (ms ++ opt_list cur) (Some m))
  end.
Fixpoint b_run (lim : limits) (b : building) (l : list sdp_line) : result building sdp_error :=
  match l with
  | [] => Ok b
  | x :: r => match b_step lim b x with Ok b' => b_run lim b' r | Err e => Err e end
  end.
(** parse.rs:727-768 [validate_media_formats] *)
Definition valid_media (m : media) : bool :=
  negb (match md_type m with MOther n => is_nil n | _ => false end)
  && negb (is_nil (md_formats m)) && negb (existsb is_nil (md_formats m))
  && (negb (is_rtp (md_proto m)) || forallb (fun f => is_some (payload_type f)) (md_formats m)).
(** parse.rs:657-670: the maps, from the attributes *)
Definition maps_of (l : list attribute) : list (N * rtpmap) :=
  fold_left (fun acc a => match a with
    | AVal n v => if str_eqb n (lit "rtpmap") then match parse_rtpmap v with Some x => insert N.eqb (rm_pt x) x acc | None => acc end else acc
    | AProp _ => acc end) l [].
Fixpoint b_medias (l : list media) : result (list media) sdp_error :=
  match l with
  | [] => Ok []
  | m :: r => if valid_media m then match b_medias r with Ok x => Ok (m_maps (maps_of (md_attrs m)) m :: x) | Err e => Err e end else Err EFormat
  end.
(** parse.rs:634-690 *)
Definition b_finish (b : building) : result sdp sdp_error :=
  let ms := b_media b ++ opt_list (b_cur b) in
  let ts := b_times b ++ opt_list (b_time b) in
  match b_version b with
  | None => Err EMissing
  | Some v =>
      if negb (v =? 0) then Err EVersion
      else match b_origin b, b_name b with
           | Some o, Some n =>
               if is_nil ts then Err EMissing
               else match b_medias ms with
                    | Ok l => Ok (mkSdp v o n (b_info b) (b_uri b) (b_email b) (b_phone b) (b_conn b) (b_bw b) ts (b_zones b) (b_key b) (b_attrs b) l)
                    | Err e => Err e
                    end
           | _, _ => Err EMissing
           end
  end.
(** [str::lines]: at line feeds, without a carriage return before one; the empty piece
    after a last line feed is not a line *)
Fixpoint str_lines_aux (cur : str) (s : str) : list str :=
  match s with
  | [] => match cur with [] => [] | _ => [rev cur] end
  | c :: r => if c =? 10 then (match cur with 13 :: x => rev x | _ => rev cur end) :: str_lines_aux [] r
              else str_lines_aux (c :: cur) r
  end.
Definition str_lines (s : str) : list str := str_lines_aux [] s.
(** parse.rs:85-110: the limits on the text *)
Definition within (lim : limits) (s : str) : bool :=
  let l := filter (fun x => negb (is_nil x)) (str_lines s) in
  (blen s <=? max_bytes lim) && (llen l <=? max_lines lim) && forallb (fun x => blen x <=? max_line_length lim) l.
(** parse.rs:85-125 [parse_sdp_with_limits]; 56-58 [parse_sdp] *)
Definition parse_with (lim : limits) (s : str) : result sdp sdp_error :=
  if negb (within lim s) then Err ELimit
  else let '(r, l) := p_lines (S (length s)) s in
       if negb (is_nil (trim r)) then Err EFailed
       else match b_run lim building0 l with Ok b => b_finish b | Err e => Err e end.
Definition parse_sdp (s : str) : result sdp sdp_error := parse_with default_limits s.

(** ** Writing (serialize.rs) *)
Definition crlf : str := [13; 10].
(** lib.rs:858-899 *)
Definition media_type_text (t : media_type) : str :=
  match t with MAudio => lit "audio" | MVideo => lit "video" | MText => lit "text" | MApplication => lit "application" | MMessage => lit "message" | MOther n => n end.
Definition proto_text (p : protocol) : str :=
  match p with
  | PRtpAvp => lit "RTP/AVP" | PRtpSavp => lit "RTP/SAVP" | PRtpSavpf => lit "RTP/SAVPF" | PUdpTlsRtpSavpf => lit "UDP/TLS/RTP/SAVPF"
  | PTcpTlsRtpSavpf => lit "TCP/TLS/RTP/SAVPF" | PUdp => lit "UDP" | PTcp => lit "TCP" | POther n => n
  end.
Definition addr_type_text (t : addr_type) : str := match t with IP4 => lit "IP4" | IP6 => lit "IP6" end.
Definition opt_line {A} (f : A -> str) (x : option A) : str := match x with Some a => f a | None => [] end.
Definition text_of (t : str) (v : str) : str := t ++ v ++ crlf.
Definition conn_text (c : connection) : str := lit "c=IN " ++ addr_type_text (cx_type c) ++ 32 :: cx_addr c ++ crlf.
Definition bw_text (b : bandwidth) : str := lit "b=" ++ bw_type b ++ 58 :: print_N (bw_value b) ++ crlf.
Definition repeat_text (r : repeat_time) : str :=
  lit "r=" ++ rp_interval r ++ 32 :: rp_duration r ++ flat_map (fun o => 32 :: o) (rp_offsets r) ++ crlf.
Definition time_text (t : time_desc) : str :=
  lit "t=" ++ print_N (tm_start t) ++ 32 :: print_N (tm_stop t) ++ crlf ++ flat_map repeat_text (tm_repeats t).
Definition zone_text (z : time_zone) : str := tz_time z ++ 32 :: tz_offset z.
(** serialize.rs:163-175 *)
Definition attr_text (a : attribute) : str :=
  match a with AProp n => lit "a=" ++ n ++ crlf | AVal n v => lit "a=" ++ n ++ 58 :: v ++ crlf end.
(** serialize.rs:109-160 *)
Definition media_text (m : media) : str :=
  lit "m=" ++ media_type_text (md_type m) ++ 32 :: print_N (md_port m) ++ match md_ports m with Some n => 47 :: print_N n | None => [] end
  ++ 32 :: proto_text (md_proto m) ++ (match md_formats m with [] => lit " 0" | l => flat_map (fun f => 32 :: f) l end) ++ crlf
  ++ opt_line (text_of (lit "i=")) (md_title m) ++ opt_line conn_text (md_conn m) ++ flat_map bw_text (md_bw m)
  ++ opt_line (text_of (lit "k=")) (md_key m) ++ flat_map attr_text (md_attrs m).
(** serialize.rs:11-106 *)
Definition serialize (s : sdp) : str :=
  lit "v=" ++ print_N (sd_version s) ++ crlf
  ++ (let o := sd_origin s in
      lit "o=" ++ og_user o ++ 32 :: og_id o ++ 32 :: og_version o ++ lit " IN " ++ addr_type_text (og_type o) ++ 32 :: og_addr o ++ crlf)
  ++ text_of (lit "s=") (sd_name s)
  ++ opt_line (text_of (lit "i=")) (sd_info s) ++ opt_line (text_of (lit "u=")) (sd_uri s)
  ++ opt_line (text_of (lit "e=")) (sd_email s) ++ opt_line (text_of (lit "p=")) (sd_phone s)
  ++ opt_line conn_text (sd_conn s) ++ flat_map bw_text (sd_bw s)
  ++ (match sd_times s with [] => lit "t=0 0" ++ crlf | l => flat_map time_text l end)
  ++ (match sd_zones s with [] => [] | l => lit "z=" ++ join [32] (map zone_text l) ++ crlf end)
  ++ opt_line (text_of (lit "k=")) (sd_key s) ++ flat_map attr_text (sd_attrs s) ++ flat_map media_text (sd_media s).
