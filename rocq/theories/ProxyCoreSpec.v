(** Vocabulary for the statements about the proxy helpers. *)
From Coq Require Import NArith ZArith Bool String List.
Import ListNotations.
From Verif Require Import Base Headers Method Text Uri Msg AnyUri ProxyFork ProxyCore.
Open Scope N_scope.
Open Scope list_scope.

(** non-empty, no whitespace, no ';' *)
Definition word (s : str) : Prop := s <> [] /\ forall c, In c s -> is_ws c = false /\ c <> 59.

(** the header fields of the request other than those with the name *)
Definition others (n : str) (hs : headers) : headers := filter (fun h => negb (eq_ic (fst h) n)) hs.

(** the fields that tell a loop from a spiral: To, From, Call-ID, the number in
    CSeq, and the Request-URI *)
Definition routing_fields (q : req) : str * str * str * str * str :=
  (get_or_empty (lit "To") (q_headers q), get_or_empty (lit "From") (q_headers q),
   get_or_empty (lit "Call-ID") (q_headers q), cseq_num (q_headers q), uri_text (q_uri q)).
(** no field contains the character U+001F *)
Definition no_separator (q : req) : Prop :=
  let '(a, b, c, d, e) := routing_fields q in forall s, In s [a; b; c; d; e] -> ~ In 31 s.
(** the header is a Via header (long or compact form) *)
Definition via_line (h : header) : Prop := eq_ic (fst h) (lit "Via") = true \/ eq_ic (fst h) (lit "v") = true.
(** its sent-by host, up to the first ':', is [host] (up to case) *)
Definition names_host (v host : str) : Prop :=
  exists sb, via_sent_by v = Some sb /\ sent_by_matches sb host = true.

(** a value of Max-Forwards *)
Definition hop_value (v : str) (n : N) : Prop :=
  all_digits (trim v) = true /\ parse_uint u16_max (trim v) = Some n.
(** this proxy forwards a request: alone the Max-Forwards step, or all of it *)
Definition forwards (q q' : req) : Prop :=
  check_max_forwards q = Some q'
  \/ exists target host transport rr b, prepare_forward q target host transport rr b = Some (Ret q').
(** elements in between keep Max-Forwards or lower it *)
Definition not_raised (q q' : req) : Prop :=
  hget MF (q_headers q') = hget MF (q_headers q)
  \/ exists a b, hget MF (q_headers q) = Some (print_N a) /\ hget MF (q_headers q') = Some (print_N b) /\ b <= a.
(** [k] forwarding steps *)
Inductive hops : nat -> req -> req -> Prop :=
| hops_0 : forall q, hops 0 q q
| hops_S : forall k q q1 q2 q3, hops k q q1 -> not_raised q1 q2 -> forwards q2 q3 -> hops (S k) q q3.
Fixpoint forward_n (k : nat) (q : req) : option req :=
  match k with
  | O => Some q
  | S k' => match check_max_forwards q with Some q' => forward_n k' q' | None => None end
  end.

(** a URI whose text can stand between angle brackets: it parses to itself, and
    has no quote, no '>' and no whitespace around it *)
Definition bracketable (u : uri) : Prop :=
  (exists a, parse_any (uri_text u) = Some a /\ to_uri a = u)
  /\ ~ In 34 (uri_text u) /\ ~ In 62 (uri_text u) /\ trim (uri_text u) = uri_text u
  /\ blen (uri_text u) <= 2046.

(** the chain of proxies adding a Via each *)
Fixpoint via_chain (hops : list (str * str * str)) (q : req) : outcome req :=
  match hops with
  | [] => Ret q
  | (host, transport, b) :: r =>
      match add_via q host transport b with Ret q' => via_chain r q' | Panics => Panics end
  end.
Fixpoint pop_n (k : nat) (r : resp) : resp :=
  match k with O => r | S k' => pop_n k' (prepare_response r) end.
(** the chain of proxies adding a Record-Route each *)
Fixpoint rr_chain (us : list sip_uri) (q : req) : outcome req :=
  match us with
  | [] => Ret q
  | u :: r => match add_record_route q u with Ret q' => rr_chain r q' | Panics => Panics end
  end.

(** cohorts in strictly descending q order *)
Definition descending (l : list (list target)) : Prop :=
  forall a x b y c, l = a ++ x :: b ++ y :: c -> forall s t, In s x -> In t y -> (q_of t < q_of s)%Z.

(** the branch is still waiting for a final response *)
Definition pending (br : branch) : Prop := br_state br = BTrying \/ br_state br = BProceeding.
Definition is_add (o : pop) : bool := match o with PAdd _ _ => true | _ => false end.
