(** Model of media profiles and the answers made from them:
    crates/sip-sdp/src/profiles.rs.
    Simplifications: the session identifier, taken from the clock, is an argument; a
    failed [expect] and an addition that overflows are [Panics] (arithmetic is checked in
    builds with overflow checks; without them the port wraps). *)
From Coq Require Import NArith Bool String List.
Import ListNotations.
From Verif Require Import Base Text Msg Sdp.
Open Scope N_scope.
Open Scope list_scope.

(** profiles.rs:25-34 [MediaProfileBuilder]; a codec is its payload type, name and rate *)
Record codec := mkCodec { c_pt : N; c_name : str; c_rate : N }.
Record profile := mkProfile { pf_audio : list codec; pf_video : list codec; pf_events : bool; pf_dir : str; pf_has_video : bool; pf_mux : bool }.
(** 38-61 [audio_only], [audio_video] *)
Definition audio_only : profile := mkProfile [mkCodec 0 (lit "PCMU") 8000; mkCodec 8 (lit "PCMA") 8000] [] true (lit "sendrecv") false true.
Definition audio_video : profile := mkProfile [mkCodec 0 (lit "PCMU") 8000; mkCodec 8 (lit "PCMA") 8000] [mkCodec 96 (lit "H264") 90000; mkCodec 97 (lit "VP8") 90000] true (lit "sendrecv") true true.
(** 63-82 [add_audio_codec], [add_video_codec], [telephone_event] *)
Definition add_audio (p : profile) (c : codec) : profile := mkProfile (pf_audio p ++ [c]) (pf_video p) (pf_events p) (pf_dir p) (pf_has_video p) (pf_mux p).
Definition add_video (p : profile) (c : codec) : profile := mkProfile (pf_audio p) (pf_video p ++ [c]) (pf_events p) (pf_dir p) true (pf_mux p).
Definition set_events (p : profile) (b : bool) : profile := mkProfile (pf_audio p) (pf_video p) b (pf_dir p) (pf_has_video p) (pf_mux p).
Definition set_video (p : profile) : profile := mkProfile (pf_audio p) (pf_video p) (pf_events p) (pf_dir p) true (pf_mux p).

(** lib.rs:516-547 [audio], [video] *)
Definition media_new (t : media_type) (port : N) : media := mkMedia t port None PRtpAvp [] None None [] None [] [].
(** lib.rs:550-563 [add_format] *)
Definition add_format (pt : N) (m : media) : option media :=
  if valid_pt pt && (llen (md_formats m) <? MAX_FORMATS)
  then Some (mkMedia (md_type m) (md_port m) (md_ports m) (md_proto m) (md_formats m ++ [print_N pt]) (md_title m) (md_conn m) (md_bw m) (md_key m) (md_attrs m) (md_maps m))
  else None.
(** lib.rs:668-685 [add_attribute] *)
Definition add_attribute (n v : str) (m : media) : option media :=
  if valid_field n MAX_ATTRIBUTE_NAME_LENGTH && valid_field v MAX_ATTRIBUTE_VALUE_LENGTH && (llen (md_attrs m) <? MAX_ATTRIBUTES)
  then Some (with_attrs m (md_attrs m ++ [AVal n v])) else None.
(** profiles.rs:111-117, 141-147: the codecs of a section *)
Fixpoint add_codecs (l : list codec) (m : media) : option media :=
  match l with
  | [] => Some m
  | c :: r =>
      match add_format (c_pt c) m with
      | Some m1 => match add_rtpmap (c_pt c) (c_name c) (c_rate c) None m1 with Some m2 => add_codecs r m2 | None => None end
      | None => None
      end
  end.
(** 118-126 *)
Definition add_events (m : media) : option media :=
  match add_format 101 m with
  | Some m1 => match add_rtpmap 101 (lit "telephone-event") 8000 None m1 with Some m2 => add_attribute (lit "fmtp") (lit "101 0-16") m2 | None => None end
  | None => None
  end.
Definition add_mux (b : bool) (m : media) : option media := if b then add_property (lit "rtcp-mux") m else Some m.
(** 108-130: the audio section; 133-153: the video section *)
Definition audio_section (p : profile) (port : N) : option media :=
  match add_property (pf_dir p) (media_new MAudio port) with
  | Some m => match add_codecs (pf_audio p) m with
              | Some m1 => match (if pf_events p then add_events m1 else Some m1) with Some m2 => add_mux (pf_mux p) m2 | None => None end
              | None => None
              end
  | None => None
  end.
Definition video_section (p : profile) (port : N) : option media :=
  match add_property (pf_dir p) (media_new MVideo port) with
  | Some m => match add_codecs (pf_video p) m with Some m1 => add_mux (pf_mux p) m1 | None => None end
  | None => None
  end.
(** 90-157 [build]; the second port behind the audio port is computed whether or not a
    video port is given (132), and with overflow checks on a result past 65535 panics *)
Definition session (o : origin) (c : connection) (ms : list media) : sdp := mkSdp 0 o (lit "siphon") None None None None (Some c) [] [mkTime 0 0 []] [] None [] ms.
Definition build (p : profile) (id user addr : str) (aport : N) (vport : option N) : outcome sdp :=
  match origin_new user id addr, connection_new addr, audio_section p aport with
  | Some o, Some c, Some a =>
      if pf_has_video p then
        let port := match vport with Some v => v | None => aport + 2 end in
        if u16_max <? aport + 2 then Panics
        else match video_section p port with Some v => Ret (session o c [a; v]) | None => Panics end
      else Ret (session o c [a])
  | _, _, _ => Panics
  end.

(** 312-379 [negotiate_answer]; 381-388 [parse_payload_type] reads what [payload_type] reads *)
Definition wants (l : list codec) (pt : N) : bool := existsb (fun c => c_pt c =? pt) l.
Definition pick_audio (mine : profile) (m : media) (b : profile) (f : str) : profile :=
  match payload_type f with
  | None => b
  | Some pt =>
      let b1 := if wants (pf_audio mine) pt then match lookup N.eqb pt (md_maps m) with Some r => add_audio b (mkCodec pt (rm_name r) (rm_rate r)) | None => b end else b in
      if (pt =? 101) && pf_events mine then set_events b1 true else b1
  end.
Definition pick_video (mine : profile) (m : media) (b : profile) (f : str) : profile :=
  match payload_type f with
  | None => b
  | Some pt => if wants (pf_video mine) pt then match lookup N.eqb pt (md_maps m) with Some r => add_video b (mkCodec pt (rm_name r) (rm_rate r)) | None => b end else b
  end.
Definition is_nil {A} (l : list A) : bool := match l with [] => true | _ => false end.
Definition pick_media (mine : profile) (b : profile) (m : media) : profile :=
  match md_type m with
  | MAudio => fold_left (pick_audio mine m) (md_formats m) b
  | MVideo => if pf_has_video mine || negb (is_nil (pf_video mine)) then fold_left (pick_video mine m) (md_formats m) (set_video b) else b
  | _ => b
  end.
Definition picked (offer : sdp) (mine : profile) : profile := fold_left (pick_media mine) (sd_media offer) (mkProfile [] [] false (lit "sendrecv") false (pf_mux mine)).
Definition profile_answer (offer : sdp) (mine : profile) (id user addr : str) (aport : N) (vport : option N) : outcome sdp := build (picked offer mine) id user addr aport vport.

(** 206-300 [create_audio_only], [create_audio_video]: the sections, built step by step *)
Definition bind {A B} (o : option A) (f : A -> option B) : option B := match o with Some a => f a | None => None end.
Definition std_audio (port : N) : option media :=
  bind (bind (bind (bind (bind (bind (bind (add_format 0 (media_new MAudio port)) (add_format 8)) (add_format 101)) (add_rtpmap 0 (lit "PCMU") 8000 None))
    (add_rtpmap 8 (lit "PCMA") 8000 None)) (add_rtpmap 101 (lit "telephone-event") 8000 None)) (add_attribute (lit "fmtp") (lit "101 0-16"))) (add_property (lit "sendrecv")).
Definition std_video (port : N) : option media :=
  bind (bind (bind (bind (bind (bind (bind (bind (add_format 96 (media_new MVideo port)) (add_format 97)) (add_rtpmap 96 (lit "H264") 90000 None)) (add_rtpmap 97 (lit "VP8") 90000 None))
    (add_attribute (lit "rtcp-fb") (lit "96 nack"))) (add_attribute (lit "rtcp-fb") (lit "96 nack pli"))) (add_attribute (lit "rtcp-fb") (lit "97 nack")))
    (add_attribute (lit "rtcp-fb") (lit "97 nack pli"))) (add_property (lit "sendrecv")).
(** 14-22 [SdpProfile] *)
Inductive sdp_profile := AudioOnly | AudioVideo | Custom.
Definition named_session (n : str) (o : origin) (c : connection) (ms : list media) : sdp := mkSdp 0 o n None None None None (Some c) [] [mkTime 0 0 []] [] None [] ms.
(** 186-203 [create_from_profile]; here too the second port behind the audio port is always
    computed (199) *)
Definition create (p : sdp_profile) (id user addr : str) (aport : N) (vport : option N) : outcome sdp :=
  match p with
  | AudioOnly | Custom =>
      match origin_new user id addr, connection_new addr, std_audio aport with
      | Some o, Some c, Some a => Ret (named_session (lit "VoIP Audio Call") o c [a])
      | _, _, _ => Panics
      end
  | AudioVideo =>
      let port := match vport with Some v => v | None => aport + 2 end in
      if u16_max <? aport + 2 then Panics
      else match origin_new user id addr, connection_new addr, std_audio aport, std_video port with
           | Some o, Some c, Some a, Some v => Ret (named_session (lit "Audio/Video Conference") o c [a; v])
           | _, _, _, _ => Panics
           end
  end.
