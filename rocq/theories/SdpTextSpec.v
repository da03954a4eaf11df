(** What a session description must look like to survive being written and read again.
    Nothing here mentions the reader: only the characters a field may contain. *)
From Coq Require Import NArith Bool String List.
Import ListNotations.
From Verif Require Import Base Sdp SdpText.
Open Scope N_scope.
Open Scope list_scope.

(** on one line, and neither beginning nor ending with white space *)
Definition one_line (s : str) : Prop := forall c, In c s -> c <> 13 /\ c <> 10.
Definition tidy (s : str) : Prop := one_line s /\ trim s = s.
Definition if_any {A} (P : A -> Prop) (x : option A) : Prop := match x with Some a => P a | None => True end.
(** not empty, and without white space *)
Definition is_word (s : str) : Prop := s <> [] /\ forall c, In c s -> is_ws c = false.
(** not empty, without blanks or line ends, and not beginning with a tab *)
Definition is_token (s : str) : Prop := s <> [] /\ hd 0 s <> 9 /\ forall c, In c s -> c <> 32 /\ c <> 13 /\ c <> 10.

Definition good_origin (o : origin) : Prop :=
  (forall c, In c (og_user o) -> c <> 32)
  /\ (og_id o <> [] /\ hd 0 (og_id o) <> 9 /\ forall c, In c (og_id o) -> c <> 32)
  /\ (og_version o <> [] /\ hd 0 (og_version o) <> 9 /\ forall c, In c (og_version o) -> c <> 32)
  /\ tidy (og_addr o).
Definition good_conn (c : connection) : Prop := tidy (cx_addr c).
Definition good_bw (b : bandwidth) : Prop := (forall c, In c (bw_type b) -> c <> 58) /\ bw_value b <= u32_max.
Definition good_repeat (r : repeat_time) : Prop :=
  is_word (rp_interval r) /\ is_word (rp_duration r) /\ forall o, In o (rp_offsets r) -> is_word o.
Definition good_time (t : time_desc) : Prop :=
  tm_start t <= u64_max /\ tm_stop t <= u64_max /\ forall r, In r (tm_repeats t) -> good_repeat r.
Definition good_zone (z : time_zone) : Prop := is_word (tz_time z) /\ is_word (tz_offset z).
Definition good_attr (a : attribute) : Prop :=
  match a with
  | AProp n => tidy n /\ ~ In 58 n
  | AVal n v => one_line n /\ ~ In 58 n /\ one_line v /\ trim_end v = v
  end.
Definition good_type (t : media_type) : Prop :=
  match t with
  | MOther n => n <> [] /\ (forall c, In c n -> c <> 32 /\ c <> 13 /\ c <> 10)
                /\ n <> lit "audio" /\ n <> lit "video" /\ n <> lit "text" /\ n <> lit "application" /\ n <> lit "message"
  | _ => True
  end.
(** the reader takes these for the beginning of a protocol it knows *)
Definition known_protocols : list str :=
  [lit "UDP/TLS/RTP/SAVPF"; lit "TCP/TLS/RTP/SAVPF"; lit "RTP/SAVPF"; lit "RTP/SAVP"; lit "RTP/AVP"; lit "UDP"; lit "TCP"].
Definition good_proto (p : protocol) : Prop :=
  match p with
  | POther n => is_token n /\ forall k, In k known_protocols -> ~ exists r, n = k ++ r
  | _ => True
  end.
Definition good_media (lim : limits) (m : media) : Prop :=
  good_type (md_type m) /\ md_port m <= u16_max /\ if_any (fun n => n <= u16_max) (md_ports m) /\ good_proto (md_proto m)
  /\ md_formats m <> [] /\ (forall f, In f (md_formats m) -> is_token f)
  /\ (is_rtp (md_proto m) = true -> forall f, In f (md_formats m) -> payload_type f <> None)
  /\ if_any tidy (md_title m) /\ if_any good_conn (md_conn m) /\ (forall b, In b (md_bw m) -> good_bw b)
  /\ if_any tidy (md_key m) /\ (forall a, In a (md_attrs m) -> good_attr a) /\ llen (md_attrs m) <= max_attrs lim
  /\ md_maps m = maps_of (md_attrs m).
Definition good_sdp (lim : limits) (s : sdp) : Prop :=
  sd_version s = 0 /\ good_origin (sd_origin s) /\ tidy (sd_name s) /\ if_any tidy (sd_info s) /\ if_any tidy (sd_uri s)
  /\ if_any tidy (sd_email s) /\ if_any tidy (sd_phone s) /\ if_any good_conn (sd_conn s) /\ (forall b, In b (sd_bw s) -> good_bw b)
  /\ sd_times s <> [] /\ (forall t, In t (sd_times s) -> good_time t) /\ (forall z, In z (sd_zones s) -> good_zone z)
  /\ if_any tidy (sd_key s) /\ (forall a, In a (sd_attrs s) -> good_attr a) /\ llen (sd_attrs s) <= max_attrs lim
  /\ (forall m, In m (sd_media s) -> good_media lim m).
