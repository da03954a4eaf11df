(** What an answer should be (specification only). *)
From Coq Require Import NArith Bool String List.
Import ListNotations.
From Verif Require Import Base SdpCore OfferAnswer.
Open Scope N_scope.
Open Scope list_scope.

(** the formats that mean a codec without an rtpmap line (RFC 3551) *)
Definition well_known : list (str * (N * str)) :=
  [(lit "0", (0, lit "PCMU")); (lit "3", (3, lit "GSM")); (lit "4", (4, lit "G723")); (lit "8", (8, lit "PCMA")); (lit "9", (9, lit "G722")); (lit "18", (18, lit "G729"))].
(** the last rtpmap line for the format [f] says [r] *)
Definition mapped (m : media) (f : str) (r : rtpmap) : Prop :=
  exists a v b, md_attrs m = a ++ (lit "rtpmap", Some v) :: b /\ p_rtpmap v = Some r /\ print_N (rt_pt r) = f
  /\ forall w q, In (lit "rtpmap", Some w) b -> p_rtpmap w = Some q -> print_N (rt_pt q) <> f.
Definition unmapped (m : media) (f : str) : Prop := forall w q, In (lit "rtpmap", Some w) (md_attrs m) -> p_rtpmap w = Some q -> print_N (rt_pt q) <> f.
(** in the stream [m] the format [f] means [r] *)
Definition offers (m : media) (f : str) (r : rtpmap) : Prop :=
  mapped m f r \/ (unmapped m f /\ In f (md_fmt m) /\ exists n name, In (f, (n, name)) well_known /\ r = mkRtp n name 8000 None).
(** the codec [c] is the one that [r] names; no channel count means one *)
Definition fits (c : codec) (r : rtpmap) : Prop :=
  lower (co_name c) = lower (rt_name r) /\ co_rate c = rt_rate r
  /\ match rt_params r with
     | None => co_channels c = None \/ co_channels c = Some 1
     | Some p => exists n, co_channels c = Some n /\ parse_uint u16_max p = Some n
     end.
(** the codecs for this kind of stream *)
Definition codecs_for (o : answer_options) (m : media) (c : codec) : Prop :=
  (md_type m = lit "audio" /\ In c (ao_audio o)) \/ (md_type m = lit "video" /\ In c (ao_video o)).
Definition common (o : answer_options) (m : media) (f : str) (r : rtpmap) : Prop := offers m f r /\ exists c, codecs_for o m c /\ fits c r.
(** the stream at index [k] is answered *)
Definition taken (o : answer_options) (k : nat) (m : media) : Prop := ~ In k (ao_reject o) /\ exists f r, common o m f r.
Definition trues (l : list bool) : N := N.of_nat (List.length (filter (fun b => b) l)).
(** any order of the entries of a map *)
Definition any_order (ords : nat -> order) : Prop := forall k l, NoDup (map fst l) -> forall p, In p (ords k l) <-> In p l.
Definition keeps_unique (ords : nat -> order) : Prop := forall k l, NoDup (map fst l) -> NoDup (map fst (ords k l)).
(** what the other side may then do *)
Definition wanted (o : answer_options) (m : media) : direction :=
  match ao_override o with
  | Some d => d
  | None => match media_dir m with SendOnly => RecvOnly | RecvOnly => SendOnly | d => d end
  end.
(** the first fmtp line for the format [f] has the value [v] *)
Definition first_fmtp (m : media) (f v : str) : Prop :=
  exists a b p, md_attrs m = a ++ (lit "fmtp", Some v) :: b /\ p_fmtp v = Some (f, p) /\ forall w q, In (lit "fmtp", Some w) a -> p_fmtp w <> Some (f, q).
(** the stream [x] answers [m] *)
Definition answers (o : answer_options) (m x : media) : Prop :=
  md_fmt x <> [] /\ NoDup (md_fmt x) /\ (forall f, In f (md_fmt x) <-> exists r, common o m f r)
  /\ (forall f r, offers x f r <-> common o m f r)
  /\ (forall v, In (lit "fmtp", Some v) (md_attrs x) <-> exists f, In f (md_fmt x) /\ first_fmtp m f v)
  /\ media_dir x = wanted o m /\ md_rtcp x = md_rtcp m.
(** the stream [x] declines [m] *)
Definition declines (m x : media) : Prop := md_port x = 0 /\ md_fmt x = md_fmt m /\ md_attrs x = [] /\ md_rtcp x = None.

(** ** Directions *)
Definition sends (d : direction) : bool := match d with SendRecv | SendOnly => true | _ => false end.
Definition receives (d : direction) : bool := match d with SendRecv | RecvOnly => true | _ => false end.
(** an attribute that states a direction *)
Definition directs (a : attribute) : bool :=
  match snd a with None => existsb (str_eqb (fst a)) [lit "sendrecv"; lit "sendonly"; lit "recvonly"; lit "inactive"] | Some _ => false end.
(** the same stream with the direction [d], given by its last attribute *)
Definition directed (m : media) (d : direction) : media :=
  mkMedia (md_type m) (md_port m) (md_count m) (md_proto m) (md_fmt m) (md_title m) (md_conn m) (md_bw m) (md_key m)
    (filter (fun a => negb (directs a)) (md_attrs m) ++ [(dir_text d, None)]) (md_mid m) (md_rtcp m) (md_caps m).

(** ** Preconditions *)
Definition psends (d : pdir) : bool := match d with PSend | PBoth => true | _ => false end.
Definition precvs (d : pdir) : bool := match d with PRecv | PBoth => true | _ => false end.
(** [c] is all that [d] asks for *)
Definition covers (c d : pdir) : Prop := (psends d = true -> psends c = true) /\ (precvs d = true -> precvs c = true).
Definition currents (m : media) : list curr := read_all (lit "curr") p_curr (md_attrs m).
Definition desired (m : media) : list des := read_all (lit "des") p_des (md_attrs m).
Definition confirms (m : media) : list curr := read_all (lit "conf") p_curr (md_attrs m).
(** seen from the other side *)
Definition other_status (s : status) : status := match s with Local => Remote | Remote => Local | E2E => E2E end.
Definition other_pdir (d : pdir) : pdir := match d with PSend => PRecv | PRecv => PSend | d => d end.
Definition current_reply (o : answer_options) (c r : curr) : Prop :=
  cu_type r = lit "qos" /\ cu_status r = other_status (cu_status c)
  /\ cu_dir r = match cu_status r with Local => match ao_local o with Some d => d | None => PNone end | Remote => match ao_remote o with Some d => d | None => PNone end | E2E => other_pdir (cu_dir c) end.
Definition desired_reply (o : answer_options) (d r : des) : Prop :=
  de_type r = lit "qos" /\ de_status r = other_status (de_status d) /\ de_dir r = other_pdir (de_dir d)
  /\ (de_strength r = de_strength d \/ (de_strength d = Optional /\ de_strength r = Mandatory)) /\ (ao_upgrade o = false -> de_strength r = de_strength d)
  /\ (ao_upgrade o = true -> de_strength d = Optional -> de_strength r = Mandatory).
Definition confirm_reply (c r : curr) : Prop := cu_type r = lit "qos" /\ cu_status r = other_status (cu_status c) /\ cu_dir r = other_pdir (cu_dir c).
