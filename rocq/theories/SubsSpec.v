(** What a subscription agreed between two user agents is made of, and what a store of
    subscriptions owes its users. *)
From Coq Require Import NArith Bool String List.
Import ListNotations.
From Verif Require Import Base Headers Method Uri Msg Dialog Subs.
Open Scope N_scope.
Open Scope list_scope.

(** the tag of an address: what follows the first "tag=" at the start of a part between
    semicolons *)
Definition tag_part (p t : str) : Prop := exists k, trim p = k ++ t /\ lower k = lit "tag=".
Definition tagged (v t : str) : Prop :=
  exists pre p post, split_on 59 v = pre ++ p :: post /\ tag_part p t /\ forall q u, In q pre -> ~ tag_part q u.

(** a number of seconds that fits in 64 bits *)
Definition seconds (t : str) (n : N) : Prop :=
  n < 2 ^ 64 /\ exists ds, (t = ds \/ t = 43 :: ds) /\ ds <> [] /\ forallb is_digit ds = true /\ digits_value ds = n.
(** the expiry: of the first message that names one, or an hour *)
Definition lifetime (answer asked : option str) (n : N) : Prop :=
  match answer, asked with
  | Some t, _ => seconds t n
  | None, Some t => seconds t n
  | None, None => n = 3600
  end.

(** [s] is what the request and the response say *)
Definition agreed (rq : req) (rs : resp) (local remote : sip_uri) (asked : option str) (s : sub) : Prop :=
  header_of (q_headers rq) (lit "Call-ID") = Some (si_call (s_id s))
  /\ (exists v, header_of (q_headers rq) (lit "From") = Some v /\ tagged v (si_from (s_id s)))
  /\ (exists v, header_of (p_headers rs) (lit "To") = Some v /\ tagged v (si_to (s_id s)))
  /\ header_of (q_headers rq) (lit "Event") = Some (si_event (s_id s))
  /\ extract_contact (p_headers rs) = Some (s_contact s)
  /\ parse_cseq_number (q_headers rq) = Some (s_lcseq s) /\ 1 <= s_lcseq s < 2 ^ 31
  /\ lifetime (header_of (p_headers rs) (lit "Expires")) asked (s_expires s)
  /\ s_state s = Active /\ s_local s = local /\ s_remote s = remote /\ s_rcseq s = 0.

(** nothing in the addresses that the slicing cannot cut *)
Definition plain_addresses (rq : req) (rs : resp) : Prop :=
  (forall v, header_of (q_headers rq) (lit "From") = Some v -> forallb is_ascii v = true)
  /\ forall v, header_of (p_headers rs) (lit "To") = Some v -> forallb is_ascii v = true.

(** the step does nothing to the subscription with this identifier by itself: it is
    neither inserted nor removed by name *)
Definition leaves_alone (i : sub_id) (o : step) : Prop :=
  match o with Insert s => s_id s <> i | Remove j => j <> i | Collect | Drop _ => True end.
