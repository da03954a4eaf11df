(** ICE candidates: what a candidate line says (specification only). *)
From Coq Require Import NArith Bool String List.
Import ListNotations.
From Verif Require Import Base Sdp Ice.
Open Scope N_scope.
Open Scope list_scope.

(** one word without white space *)
Definition word (s : str) : Prop := s <> [] /\ forall c, In c s -> is_ws c = false.
(** the words of a line, however they are set apart *)
Definition blanks (s : str) : Prop := forall c, In c s -> is_ws c = true.
Inductive words : str -> list str -> Prop :=
| w_none : forall s, blanks s -> words s []
| w_last : forall b w, blanks b -> word w -> words (b ++ w) [w]
| w_more : forall b w x s l, blanks b -> word w -> is_ws x = true -> words s l -> words (b ++ w ++ x :: s) (w :: l).
(** decimal numbers below a bound, perhaps with a plus sign *)
Definition says_number (mx : N) (s : str) (n : N) : Prop := parse_uint mx s = Some n.
(** transports are read without regard to case; types as they stand *)
Definition says_transport (s : str) (t : transport) : Prop :=
  (lower s = lit "udp" /\ t = TUdp) \/ (lower s = lit "tcp" /\ t = TTcp) \/ (lower s <> lit "udp" /\ lower s <> lit "tcp" /\ t = TOther s).
Definition type_words : list (str * kind) := [(lit "host", Host); (lit "srflx", ServerReflexive); (lit "prflx", PeerReflexive); (lit "relay", Relay)].
Definition says_kind (s : str) (k : kind) : Prop := In (s, k) type_words \/ ((forall k', ~ In (s, k') type_words) /\ k = KOther s).
(** the pairs behind the type: the last related address and port count, others are kept
    in order *)
Inductive says_pairs : list str -> option str -> option N -> list (str * str) -> Prop :=
| sp_end : says_pairs [] None None []
| sp_addr : forall l a p e v, says_pairs l a p e -> says_pairs (l ++ [lit "raddr"; v]) (Some v) p e
| sp_port : forall l a p e v n, says_pairs l a p e -> says_number u16_max v n -> says_pairs (l ++ [lit "rport"; v]) a (Some n) e
| sp_ext : forall l a p e k v, says_pairs l a p e -> k <> lit "raddr" -> k <> lit "rport" -> says_pairs (l ++ [k; v]) a p (e ++ [(k, v)]).
(** a line *)
Definition says (v : str) (c : candidate) : Prop :=
  exists comp tr prio port ty rest, words v (k_foundation c :: comp :: tr :: prio :: k_address c :: port :: lit "typ" :: ty :: rest)
    /\ says_number u32_max comp (k_component c) /\ says_transport tr (k_transport c) /\ says_number u32_max prio (k_priority c) /\ says_number u16_max port (k_port c)
    /\ says_kind ty (k_kind c) /\ says_pairs rest (k_raddr c) (k_rport c) (k_ext c).

(** candidates that a line can carry *)
Definition transport_fits (t : transport) : Prop := match t with TOther s => word s /\ lower s <> lit "udp" /\ lower s <> lit "tcp" | _ => True end.
Definition kind_fits (k : kind) : Prop := match k with KOther s => word s /\ forall k', ~ In (s, k') type_words | _ => True end.
Definition fits (c : candidate) : Prop :=
  word (k_foundation c) /\ word (k_address c) /\ k_component c <= u32_max /\ k_priority c <= u32_max /\ k_port c <= u16_max /\ transport_fits (k_transport c) /\ kind_fits (k_kind c)
  /\ (forall a, k_raddr c = Some a -> word a) /\ (forall p, k_rport c = Some p -> p <= u16_max)
  /\ forall k v, In (k, v) (k_ext c) -> word k /\ word v /\ k <> lit "raddr" /\ k <> lit "rport".

(** [x] is [s] without the white space around it *)
Definition bare (s x : str) : Prop := (exists a b, s = a ++ x ++ b /\ blanks a /\ blanks b) /\ (forall c t, x = c :: t -> is_ws c = false) /\ (forall c t, x = t ++ [c] -> is_ws c = false).
(** a fingerprint line and an ssrc line *)
Definition says_print (v : str) (f : fingerprint) : Prop := exists r, v = f_hash f ++ [32] ++ r /\ ~ In 32 (f_hash f) /\ bare r (f_print f).
Definition says_ssrc (v : str) (x : ssrc) : Prop :=
  exists i r t, v = i ++ [32] ++ r /\ says_number u32_max i (s_id x) /\ bare r t /\ ~ In 58 (s_attr x) /\ t = s_attr x ++ match s_value x with Some w => [58] ++ w | None => [] end.
