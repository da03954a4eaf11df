(** Vocabulary for the properties of negotiated answers (C63-C65, C107). *)
From Coq Require Import NArith Bool String List.
Import ListNotations.
From Verif Require Import Base Sdp.
Open Scope N_scope.
Open Scope list_scope.

(** a text of 1 to [max] bytes without control characters *)
Definition fits (v : str) (max : N) : Prop := v <> [] /\ blen v <= max /\ forall c, In c v -> is_control c = false.
(** the address family an address is written in: only IPv6 addresses have colons *)
Definition family_of (addr : str) (t : addr_type) : Prop := (t = IP6 <-> In 58 addr) /\ (t = IP4 <-> ~ In 58 addr).
(** directions of a media line; the default is sendrecv *)
Definition sends (d : direction) : Prop := d = DSendRecv \/ d = DSendOnly.
Definition receives (d : direction) : Prop := d = DSendRecv \/ d = DRecvOnly.
Definition dir_of (m : media) : direction :=
  match extract_direction (md_attrs m) with Some d => d | None => DSendRecv end.

Definition same_codec (a b : rtpmap) : Prop :=
  lower (rm_name a) = lower (rm_name b) /\ rm_rate a = rm_rate b /\ rm_params a = rm_params b.
(** the line lists the payload type *)
Definition lists_pt (m : media) (pt : N) : Prop := exists f, In f (md_formats m) /\ payload_type f = Some pt.
(** a format of the offered line [om] that the local line [lm] supports: for RTP, a
    payload type below 96 that is listed on both sides, or one from 96 whose codec
    is listed locally, perhaps under another number; else a format listed on both sides *)
Definition is_common (om lm : media) (f : str) : Prop :=
  if is_rtp (md_proto om) then
    exists pt, payload_type f = Some pt
    /\ ((pt < 96 /\ lists_pt lm pt)
        \/ (96 <= pt /\ exists o l, lookup N.eqb pt (md_maps om) = Some o /\ In l (map snd (md_maps lm))
            /\ lists_pt lm (rm_pt l) /\ same_codec o l))
  else In f (md_formats lm).
(** the local line for a type: the first one of that type *)
Definition local_line (caps : sdp) (t : media_type) (lm : media) : Prop :=
  exists before after, sd_media caps = before ++ lm :: after /\ md_type lm = t /\ forall m, In m before -> md_type m <> t.
Definition acceptable (caps : sdp) (om : media) : Prop :=
  exists lm, local_line caps (md_type om) lm /\ md_proto om = md_proto lm /\ exists f, In f (md_formats om) /\ is_common om lm f.
(** the offered line number [i] is the first acceptable one of its type *)
Definition first_acceptable (caps : sdp) (l : list media) (i : nat) : Prop :=
  exists om, nth_error l i = Some om /\ acceptable caps om
  /\ forall j oj, (j < i)%nat -> nth_error l j = Some oj -> md_type oj = md_type om -> ~ acceptable caps oj.
(** [l'] is [l] without the elements that do not satisfy [P] *)
Inductive picked {A} (P : A -> Prop) : list A -> list A -> Prop :=
| picked_nil : picked P [] []
| picked_keep : forall x l l', P x -> picked P l l' -> picked P (x :: l) (x :: l')
| picked_skip : forall x l l', ~ P x -> picked P l l' -> picked P (x :: l) l'.
(** the map of rtpmaps is keyed by their payload types, as the builder and the parser
    make it *)
Definition maps_ok (m : media) : Prop := forall pt x, lookup N.eqb pt (md_maps m) = Some x -> rm_pt x = pt.
(** the a=rtpmap lines for a payload type *)
Definition rtpmap_lines (pt : N) (m : media) : list attribute := filter (pt_attr (lit "rtpmap") pt) (md_attrs m).

(** direction [d] of an answer to an offered direction [o] by a side whose own setting is
    [l]: it sends just when the offerer receives and it is willing to send, and conversely *)
Definition agreed (o l d : direction) : Prop :=
  (sends d <-> receives o /\ sends l) /\ (receives d <-> sends o /\ receives l).
(** the pairs for which the code gives up on the whole session *)
Definition given_up (o l : direction) : Prop :=
  (o = DInactive /\ l <> DInactive) \/ (o <> DInactive /\ l = DInactive)
  \/ (o = DSendOnly /\ l = DRecvOnly) \/ (o = DRecvOnly /\ l = DSendOnly).
(** both only send, or both only receive *)
Definition same_way (o l : direction) : Prop := o = l /\ (o = DSendOnly \/ o = DRecvOnly).
