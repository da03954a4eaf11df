(** Vocabulary for the target-resolution theorems: what the answers of the name servers
    ask for, said without the resolver's own functions. *)
From Coq Require Import NArith Bool String List Permutation Sorting.Sorted.
Import ListNotations.
From Verif Require Import Base Text Uri Dns.
Open Scope N_scope.
Open Scope list_scope.

(** [t] is the name [s] without its trailing dots *)
Definition undotted (s t : str) : Prop := (exists k, s = t ++ List.repeat 46 k) /\ forall t', t <> t' ++ [46].
(** the record names a host: not the root, not only dots *)
Definition names_host (r : srv_rr) : bool := existsb (fun c => negb (c =? 46)) (sv_target r).
(** the target a record asks for *)
Definition target_for (t : transport) (r : srv_rr) (x : target) : Prop :=
  undotted (sv_target r) (tg_host x) /\ tg_port x = sv_port r /\ tg_transport x = t /\ tg_priority x = sv_prio r /\ tg_tls x = None.
(** the targets [ts] are those of the answer [l], each exactly once, by priority *)
Definition srv_answer (t : transport) (l : list srv_rr) (ts : list target) : Prop :=
  exists l', Permutation (filter names_host l) l' /\ Forall2 (target_for t) l' ts /\ StronglySorted (fun a b => tg_priority a <= tg_priority b) ts.
(** the name asked for (RFC 3263, RFC 2782) *)
Definition srv_query (t : transport) (sips : bool) (host : str) : str :=
  match t, sips with
  | Udp, false => lit "_sip._udp." ++ host
  | Udp, true => lit "_sips._udp." ++ host
  | Tcp, false | Ws, false => lit "_sip._tcp." ++ host
  | Tcp, true | Ws, true => lit "_sips._tcp." ++ host
  | Tls, _ | Wss, _ => lit "_sips._tcp." ++ host
  | Sctp, false => lit "_sip._sctp." ++ host
  | Sctp, true => lit "_sips._sctp." ++ host
  | TlsSctp, _ => lit "_sips._sctp." ++ host
  end.
(** what one service lookup contributes *)
Definition srv_block (d : dns) (sips : bool) (q : str * transport) (ts : list target) : Prop :=
  match d_srv d (srv_query (snd q) sips (fst q)) with None => ts = [] | Some l => srv_answer (snd q) l ts end.

(** IPv6 and IPv4 addresses, in turn, IPv6 first, each family in its own order *)
Inductive alternating : list ip -> list ip -> list ip -> Prop :=
| alt_nil : alternating [] [] []
| alt_both x y a b r : alternating a b r -> alternating (x :: a) (y :: b) (x :: y :: r)
| alt_six x a r : alternating a [] r -> alternating (x :: a) [] (x :: r)
| alt_four y b r : alternating [] b r -> alternating [] (y :: b) (y :: r).
Definition is_v6 (a : ip) : bool := match a with V6 _ => true | V4 _ => false end.
(** the addresses of [l] as targets *)
Definition address_targets (l : list ip) (port : N) (t : transport) (name : str) (ts : list target) : Prop :=
  exists r, alternating (filter is_v6 l) (filter (fun a => negb (is_v6 a)) l) r /\
            ts = map (fun a => mkTarget (ip_text a) port t 0 (Some name)) r.

(** the numbers below [n] *)
Definition below (n : N) : list N := map N.of_nat (seq 0 (N.to_nat n)).
(** the record points to host [h] (perhaps with dots after it) and port [p] *)
Definition points_to (h : str) (p : N) (r : srv_rr) : bool :=
  str_eqb (firstn (length h) (sv_target r)) h && forallb (N.eqb 46) (skipn (length h) (sv_target r)) && negb (last h 46 =? 46) && (sv_port r =? p).
(** the weight the records for [h] and [p] have together *)
Definition weight_for (h : str) (p : N) (l : list srv_rr) : N :=
  fold_right (fun r a => if points_to h p r then sv_weight r + a else a) 0 l.
Definition weight_sum (l : list srv_rr) : N := fold_right (fun r a => sv_weight r + a) 0 l.
Definition first_is (h : str) (p : N) (o : option (list target)) : bool :=
  match o with Some (x :: _) => str_eqb (tg_host x) h && (tg_port x =? p) | _ => false end.
(** [p] is the smallest priority among the records of [l] that name a host *)
Definition best_priority (p : N) (l : list srv_rr) : Prop :=
  (exists r, In r l /\ names_host r = true /\ sv_prio r = p) /\ forall r, In r l -> names_host r = true -> p <= sv_prio r.
Definition at_priority (p : N) (l : list srv_rr) : list srv_rr := filter (fun r => names_host r && (sv_prio r =? p)) l.

(** the port meant when the URI has none *)
Definition usual_port (u : sip_uri) : N := if u_sips u then 5061 else 5060.
(** the service lookups made when no NAPTR record helps *)
Definition plain_queries (u : sip_uri) : list (str * transport) :=
  if u_sips u then [(u_host u, Tls)]
  else match transport_param u with Some t => [(u_host u, t)] | None => [(u_host u, Tcp); (u_host u, Udp)] end.
(** the NAPTR records the resolver heeds *)
Definition heeded (u : sip_uri) (r : naptr_rr) : bool :=
  match naptr_transport (na_service r) with
  | None => false
  | Some t => (if u_sips u then t_eqb t Tls else match transport_param u with Some w => t_eqb t w | None => true end) && negb (str_eqb (na_repl r) (lit "."))
  end.
Definition before (a b : naptr_rr) : Prop := na_order a < na_order b \/ (na_order a = na_order b /\ na_pref a <= na_pref b).
(** the lookup such a record leads to *)
Definition naptr_query (u : sip_uri) (r : naptr_rr) (q : str * transport) : Prop :=
  naptr_transport (na_service r) = Some (snd q) /\
  (undotted (na_repl r) (fst q) /\ fst q <> [] \/ undotted (na_repl r) [] /\ fst q = u_host u).
(** what becomes of the service lookups [qs]: their targets, one block after the other; the addresses of the host if there are none *)
Definition found (d : dns) (u : sip_uri) (qs : list (str * transport)) (o : option (list target)) : Prop :=
  exists blocks, Forall2 (srv_block d (u_sips u)) qs blocks /\
  match o with
  | Some ts => ts <> [] /\ (length ts <= 100)%nat /\
      (ts = concat blocks \/
       concat blocks = [] /\ exists l, d_ip d (u_host u) = Some l /\ address_targets l (usual_port u) (default_transport u) (u_host u) ts)
  | None => (100 < length (concat blocks))%nat \/
            (concat blocks = [] /\ match d_ip d (u_host u) with None | Some [] => True | Some l => (100 < length l)%nat end)
  end.
