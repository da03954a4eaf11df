(** Session descriptions that can be sent (specification only). *)
From Coq Require Import NArith Bool String List.
Import ListNotations.
From Verif Require Import Base SdpCore.
Open Scope N_scope.
Open Scope list_scope.

(** at most [mx] bytes and no control character but tab *)
Definition text_ok (mx : N) (s : str) : Prop := blen s <= mx /\ forall c, In c s -> is_control c = true -> c = 9.
(** such a text without blanks, not empty *)
Definition word_ok (mx : N) (s : str) : Prop := s <> [] /\ (forall c, In c s -> is_ws c = false) /\ text_ok mx s.
Definition opt_ok {A} (P : A -> Prop) (o : option A) : Prop := forall a, o = Some a -> P a.
Definition at_most {A} (n : nat) (l : list A) : Prop := (List.length l <= n)%nat.

Definition sound_origin (o : origin) : Prop :=
  word_ok 255 (og_user o) /\ word_ok 64 (og_id o) /\ word_ok 64 (og_version o) /\ word_ok 16 (og_net o) /\ word_ok 16 (og_type o) /\ word_ok 255 (og_addr o).
Definition sound_conn (c : conn) : Prop := word_ok 16 (cn_net c) /\ word_ok 16 (cn_type c) /\ word_ok 255 (cn_addr c).
Definition sound_bw (b : bandwidth) : Prop := text_ok 32 (bw_type b) /\ ~ In 58 (bw_type b) /\ bw_value b <= 10000000.
Definition sound_timing (t : timing) : Prop := fst t <= u64_max /\ snd t <= u64_max.
Definition sound_repeat (r : repeat_time) : Prop :=
  word_ok 16 (rp_interval r) /\ word_ok 16 (rp_duration r) /\ rp_offsets r <> [] /\ at_most 50 (rp_offsets r) /\ Forall (word_ok 16) (rp_offsets r).
Definition sound_zone (z : zone) : Prop := fst z <= u64_max /\ word_ok 16 (snd z).
Definition sound_key (k : sdp_key) : Prop := text_ok 64 (fst k) /\ ~ In 58 (fst k) /\ opt_ok (text_ok 1024) (snd k).
Definition sound_attr (a : attribute) : Prop := text_ok 128 (fst a) /\ ~ In 58 (fst a) /\ opt_ok (text_ok 4096) (snd a).
(** the attributes that have fields of their own *)
Definition cap_names : list str := [lit "sqn"; lit "cdsc"; lit "cpar"; lit "cparmin"; lit "cparmax"].
Definition sound_cdsc (d : cdsc) : Prop :=
  1 <= cd_num d <= 255 /\ word_ok 32 (cd_media d) /\ word_ok 64 (cd_transport d) /\ cd_formats d <> [] /\ at_most 128 (cd_formats d) /\ Forall (word_ok 16) (cd_formats d).
Definition sound_caps (c : capset) : Prop :=
  cs_sqn c <= 255 /\ at_most 50 (cs_descs c) /\ Forall sound_cdsc (cs_descs c) /\ at_most 100 (cs_params c) /\ Forall (fun p => text_ok 4096 (snd p)) (cs_params c).
Definition sound_rtcp (r : rtcp) : Prop :=
  rc_port r <= 65535 /\ forall a b c, rc_addr r = Some (a, b, c) -> word_ok 4096 a /\ word_ok 4096 b /\ word_ok 4096 c /\ blen (print_N (rc_port r)) + blen a + blen b + blen c + 3 <= 4096.
(** the known kinds of groups are in capitals *)
Definition sound_group (g : group) : Prop :=
  word_ok 128 (fst g) /\ semantics (fst g) = fst g /\ snd g <> [] /\ at_most 50 (snd g) /\ Forall (word_ok 64) (snd g).
(** the attribute lines that a capability set takes *)
Definition cap_lines (c : option capset) : nat := match c with Some c => 1 + List.length (cs_descs c) + List.length (cs_params c) | None => 0 end.
Definition one_if {A} (o : option A) : nat := match o with Some _ => 1 | None => 0 end.
Definition sound_media (m : media) : Prop :=
  word_ok 32 (md_type m) /\ md_port m <= 65535 /\ opt_ok (fun c => c <= 65535) (md_count m) /\ word_ok 64 (md_proto m)
  /\ md_fmt m <> [] /\ at_most 128 (md_fmt m) /\ Forall (word_ok 16) (md_fmt m)
  /\ opt_ok (text_ok 2048) (md_title m) /\ opt_ok sound_conn (md_conn m) /\ at_most 20 (md_bw m) /\ Forall sound_bw (md_bw m) /\ opt_ok sound_key (md_key m)
  /\ Forall sound_attr (md_attrs m) /\ (forall a, In a (md_attrs m) -> ~ In (fst a) (lit "mid" :: lit "rtcp" :: cap_names))
  /\ opt_ok (text_ok 4096) (md_mid m) /\ opt_ok sound_rtcp (md_rtcp m) /\ opt_ok sound_caps (md_caps m)
  /\ (one_if (md_mid m) + one_if (md_rtcp m) + cap_lines (md_caps m) + List.length (md_attrs m) <= 100)%nat.
Definition sound_session (s : session) : Prop :=
  ss_version s <= u32_max /\ sound_origin (ss_origin s) /\ text_ok 1024 (ss_name s)
  /\ opt_ok (text_ok 2048) (bd_info (ss_body s)) /\ opt_ok (text_ok 2048) (bd_uri (ss_body s))
  /\ at_most 10 (bd_emails (ss_body s)) /\ Forall (text_ok 320) (bd_emails (ss_body s))
  /\ at_most 10 (bd_phones (ss_body s)) /\ Forall (text_ok 32) (bd_phones (ss_body s))
  /\ opt_ok sound_conn (bd_conn (ss_body s)) /\ at_most 20 (bd_bw (ss_body s)) /\ Forall sound_bw (bd_bw (ss_body s))
  /\ bd_timing (ss_body s) <> [] /\ at_most 10 (bd_timing (ss_body s)) /\ Forall sound_timing (bd_timing (ss_body s))
  /\ at_most 10 (bd_repeats (ss_body s)) /\ Forall sound_repeat (bd_repeats (ss_body s))
  /\ Forall sound_zone (bd_zones (ss_body s)) /\ opt_ok sound_key (bd_key (ss_body s))
  /\ Forall sound_attr (bd_attrs (ss_body s)) /\ (forall a, In a (bd_attrs (ss_body s)) -> ~ In (fst a) (lit "group" :: cap_names))
  /\ at_most 20 (ss_groups s) /\ Forall sound_group (ss_groups s) /\ opt_ok sound_caps (ss_caps s)
  /\ (List.length (bd_attrs (ss_body s)) + cap_lines (ss_caps s) + List.length (ss_groups s) <= 100)%nat
  /\ at_most 50 (ss_media s) /\ Forall sound_media (ss_media s)
  /\ (bd_conn (ss_body s) <> None \/ Forall (fun m => md_conn m <> None) (ss_media s)).

(** ** The order of the lines *)
(** the letters of a list are in the order of [letters] *)
Inductive in_order : list N -> list N -> Prop :=
| order_nil : forall letters, in_order letters []
| order_same : forall c letters l, in_order (c :: letters) l -> in_order (c :: letters) (c :: l)
| order_skip : forall c letters l, in_order letters l -> in_order (c :: letters) l.
Definition letter (l : str) : N := hd 0 l.
