(** Answers made from a profile (specification only). *)
From Coq Require Import NArith Bool String List.
Import ListNotations.
From Verif Require Import Base Msg Sdp Profile.
Open Scope N_scope.
Open Scope list_scope.

(** a format is a payload type *)
Definition format_is (f : str) (pt : N) : Prop := parse_uint u16_max f = Some pt /\ pt <= 127.
(** a codec offered in a section of this kind, under a number that is in my list *)
Definition shared (offer : sdp) (kind : media_type) (mine : list codec) (c : codec) : Prop :=
  exists m f r, In m (sd_media offer) /\ md_type m = kind /\ In f (md_formats m) /\ format_is f (c_pt c) /\ lookup N.eqb (c_pt c) (md_maps m) = Some r
    /\ rm_name r = c_name c /\ rm_rate r = c_rate c /\ exists d, In d mine /\ c_pt d = c_pt c.
(** telephone events offered and wanted *)
Definition events_shared (offer : sdp) (mine : profile) : Prop := pf_events mine = true /\ exists m f, In m (sd_media offer) /\ md_type m = MAudio /\ In f (md_formats m) /\ format_is f 101.
(** video offered, and the profile has any *)
Definition video_shared (offer : sdp) (mine : profile) : Prop := (pf_has_video mine = true \/ pf_video mine <> []) /\ exists m, In m (sd_media offer) /\ md_type m = MVideo.
(** a section lists exactly these codecs, and events or not *)
Definition lists (m : media) (codecs : codec -> Prop) (events : Prop) : Prop :=
  (forall f, In f (md_formats m) <-> (exists c, codecs c /\ f = print_N (c_pt c)) \/ (events /\ f = lit "101"))
  /\ forall pt x, lookup N.eqb pt (md_maps m) = Some x -> codecs (mkCodec pt (rm_name x) (rm_rate x)) \/ (events /\ pt = 101 /\ rm_name x = lit "telephone-event" /\ rm_rate x = 8000).
(** texts and numbers the builders take *)
Definition field (mx : N) (s : str) : Prop := s <> [] /\ blen s <= mx /\ forall c, In c s -> is_control c = false.
Definition good_codec (c : codec) : Prop := field 64 (c_name c) /\ 1000 <= c_rate c <= 1000000000.
(** the attributes of a section besides its rtpmaps *)
Definition not_map (a : attribute) : Prop := forall v, a <> AVal (lit "rtpmap") v.
Definition marks (m : media) (mux : bool) (events : Prop) : Prop :=
  forall a, not_map a -> (In a (md_attrs m) <-> a = AProp (lit "sendrecv") \/ (mux = true /\ a = AProp (lit "rtcp-mux")) \/ (events /\ a = AVal (lit "fmtp") (lit "101 0-16"))).
