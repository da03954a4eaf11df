(** Finding the targets of a URI: C66, C110, C111, C112. *)
From Coq Require Import Arith NArith Bool String List Permutation Sorting.Sorted Lia ZifyBool ZifyN ZifyNat.
Import ListNotations.
From Verif Require Import AddrProofs TextFacts Base BaseFacts Text Uri Dns DnsSpec DnsProofs.
Open Scope N_scope.
Open Scope list_scope.

(** ** C66: which targets, in which order *)
(** without a NAPTR record to follow: one service lookup per transport, whatever is drawn *)
Theorem C66_srv : forall en d rs u, is_numeric_ip (u_host u) = false -> u_port u = None ->
  en = false \/ d_naptr d (u_host u ++ lit ".") = None \/ (exists a, d_naptr d (u_host u ++ lit ".") = Some a /\ filter (heeded u) a = []) ->
  found d u (plain_queries u) (resolve en d rs u).
Proof.
  intros en d rs u Hn Hp H. pose proof (resolve_host en d rs u Hn Hp) as F. pose proof (naptr_route en d u) as R. destruct (naptrs_of en d u) as [l|]; [|exact F]. exfalso.
  destruct R as (a & nl & -> & D & P & _ & Hnl & _). destruct H as [H|[H|(b & H & H')]]; [discriminate|congruence|]. rewrite D in H. injection H as <-. rewrite H' in P.
  apply Hnl. now apply Permutation_nil in P.
Qed.
Print Assumptions C66_srv.
(** with NAPTR records: by order and preference, one service lookup for each. What is
    missing: the lookup ought to be at the replacement itself (see below). *)
Theorem C66_naptr_partial : forall d rs u a, is_numeric_ip (u_host u) = false -> u_port u = None ->
  d_naptr d (u_host u ++ lit ".") = Some a -> filter (heeded u) a <> [] ->
  exists nl qs, Permutation (filter (heeded u) a) nl /\ StronglySorted before nl /\ Forall2 (naptr_query u) nl qs /\ found d u qs (resolve true d rs u).
Proof.
  intros d rs u a Hn Hp D Hf. pose proof (resolve_host true d rs u Hn Hp) as F. pose proof (naptr_route true d u) as R. destruct (naptrs_of true d u) as [l|].
  - destruct R as (a' & nl & _ & D' & P & S & _ & ->). rewrite D in D'. injection D' as <-. rewrite map_map in F. eexists nl, _. split; [exact P|]. split; [exact S|]. split; [|exact F].
    assert (H : forall r, In r nl -> heeded u r = true). { intros r Hr. apply (Permutation_in r (Permutation_sym P)) in Hr. now apply filter_In in Hr. }
    clear - H. induction nl as [|r nl IH]; cbn [map]; constructor; [apply conv_query, H; now left|apply IH; intros; apply H; now right].
  - exfalso. destruct R as [R|[R|(a' & R & R')]]; [discriminate|congruence|]. rewrite D in R. injection R as <-. contradiction.
Qed.
Print Assumptions C66_naptr_partial.
(** the services of RFC 3263, RFC 4168 and RFC 7118, in any case of letters *)
Definition service_table : list (str * transport) :=
  [(lit "SIP+D2U", Udp); (lit "SIP+D2T", Tcp); (lit "SIPS+D2T", Tls); (lit "SIP+D2W", Ws); (lit "SIPS+D2W", Wss); (lit "SIP+D2S", Sctp); (lit "SIPS+D2S", TlsSctp)].
Theorem C66_services : forall s n t, In (n, t) service_table -> upper s = n -> naptr_transport s = Some t.
Proof. intros s n t H E. unfold naptr_transport. cbv zeta. rewrite E. repeat (destruct H as [H|H]; [injection H as <- <-; reflexivity|]). destruct H. Qed.
Print Assumptions C66_services.
(** an address in the URI is the only target *)
Theorem C66_numeric : forall en d rs u, is_numeric_ip (u_host u) = true ->
  exists x, resolve en d rs u = Some [x] /\ tg_host x = u_host u /\ tg_transport x = default_transport u /\
            (forall p, u_port u = Some p -> tg_port x = p) /\ (u_port u = None -> tg_port x = usual_port u).
Proof.
  intros en d rs u H. unfold resolve. cbv zeta. rewrite H, enforce_spec. cbn [length Nat.ltb Nat.leb]. eexists. split; [reflexivity|]. cbn [unchecked_new tg_host tg_transport tg_port].
  split; [reflexivity|]. split; [reflexivity|]. destruct (u_port u) as [p|]; (split; [intros p0 E|intros E]); try discriminate; [now injection E|reflexivity].
Qed.
Print Assumptions C66_numeric.
(** which hosts are addresses *)
Theorem C66_addresses : forall h, (ipv4_text h \/ ipv6_text h -> is_numeric_ip h = true) /\ (is_numeric_ip h = true -> ipv4_text h \/ forallb addr_char h = true /\ mem 58 h = true).
Proof.
  intros h. unfold is_numeric_ip. split.
  - intros [H|H]; [apply ipv4_ok_spec in H; now rewrite H|apply ipv6_ok_text in H; rewrite H; apply orb_true_r].
  - intros H. apply orb_prop in H as [H|H]; [left; now apply ipv4_ok_spec|right]. split; [now apply ipv6_ok_chars|now apply ipv6_ok_colon].
Qed.
Print Assumptions C66_addresses.
Example C66_address_case : ipv4_text (lit "192.0.2.7") /\ ipv6_text (lit "2001:db8::1:fe80").
Proof.
  split; [exists 192, 0, 2, 7; repeat split; lia|]. right. exists [lit "2001"; lit "db8"], [lit "1"; lit "fe80"]. repeat split; repeat constructor; discriminate || (cbn; lia).
Qed.
(** a port in the URI: the addresses of the host, with that port *)
Theorem C66_port : forall en d rs u p, is_numeric_ip (u_host u) = false -> u_port u = Some p ->
  match resolve en d rs u with
  | Some ts => ts <> [] /\ exists l, d_ip d (u_host u) = Some l /\ address_targets l p (default_transport u) (u_host u) ts
  | None => match d_ip d (u_host u) with None | Some [] => True | Some l => (100 < length l)%nat end
  end.
Proof.
  intros en d rs u p Hn Hp. unfold resolve. cbv zeta. rewrite Hn, Hp. destruct (lookup_a_aaaa d (u_host u)) as [r|] eqn:L.
  - apply lookup_a_spec in L. destruct L as (Hr & l & D & A). rewrite enforce_spec, map_length. pose proof (alternating_length _ _ _ A) as AL. rewrite filter_split_length in AL.
    destruct (100 <? length r)%nat eqn:E.
    + rewrite D. destruct l; [exact I|]. lia.
    + split; [destruct r; [congruence|discriminate]|]. exists l. split; [exact D|]. exists r. split; [exact A|reflexivity].
  - destruct (d_ip d (u_host u)) as [l|] eqn:D; [|exact I]. now rewrite (lookup_a_none d (u_host u) l L D).
Qed.
Print Assumptions C66_port.
(** in particular no record is lost, made up or returned twice when the answer is usable *)
Theorem C66_all : forall d rs u l ts, is_numeric_ip (u_host u) = false -> u_port u = None -> u_sips u = true ->
  d_srv d (lit "_sips._tcp." ++ u_host u) = Some l -> filter names_host l <> [] -> resolve false d rs u = Some ts ->
  exists l', Permutation (filter names_host l) l' /\ Forall2 (target_for Tls) l' ts /\ StronglySorted (fun a b => tg_priority a <= tg_priority b) ts.
Proof.
  intros d rs u l ts Hn Hp Hs D Hl H. pose proof (C66_srv false d rs u Hn Hp (or_introl eq_refl)) as (blocks & B & M). rewrite H in M. unfold plain_queries in B. rewrite Hs in B.
  inversion B as [|q b qs bs B1 B2]; subst. inversion B2; subst. unfold srv_block in B1. cbn [fst snd srv_query] in B1. rewrite D in B1. cbn [concat] in M. rewrite app_nil_r in M.
  destruct M as (_ & _ & [-> | (-> & _)]); [exact B1|]. exfalso. destruct B1 as (l' & P & F & _). inversion F; subst. apply Permutation_sym, Permutation_nil in P. contradiction.
Qed.
Print Assumptions C66_all.

(** a zone with two priorities, dots, the root as a target, and both families of addresses *)
Definition zone : dns := mkDns (fun _ => None)
  (fun n => if str_eqb n (lit "_sips._tcp.example.com") then
     Some [mkSrv 20 0 5061 (lit "c.example.com."); mkSrv 10 60 5061 (lit "a.example.com."); mkSrv 5 1 1 (lit "."); mkSrv 10 20 5062 (lit "b.example.com")] else None)
  (fun n => if str_eqb n (lit "example.com") then Some [V4 (lit "192.0.2.1"); V6 (lit "2001:db8::1"); V4 (lit "192.0.2.2"); V4 (lit "192.0.2.3"); V6 (lit "2001:db8::2")] else None).
Definition uri (s : string) : sip_uri := match parse_uri (lit s) with Some u => u | None => mkUri [] false None [] None [] [] end.
Example C66_case : is_numeric_ip (u_host (uri "sips:bob@example.com")) = false /\
  resolve false zone [70; 5; 0] (uri "sips:bob@example.com") =
  Some [mkTarget (lit "b.example.com") 5062 Tls 10 None; mkTarget (lit "a.example.com") 5061 Tls 10 None; mkTarget (lit "c.example.com") 5061 Tls 20 None].
Proof. split; vm_compute; reflexivity. Qed.
Example C66_case_addresses : map tg_host (match resolve false zone [] (uri "sip:example.com:5070;transport=tcp") with Some l => l | None => [] end) =
  [lit "2001:db8::1"; lit "192.0.2.1"; lit "2001:db8::2"; lit "192.0.2.2"; lit "192.0.2.3"].
Proof. vm_compute. reflexivity. Qed.
Example C66_case_naptr : naptr_transport (lit "sip+d2u") = Some Udp /\ upper (lit "sips+D2t") = lit "SIPS+D2T".
Proof. split; reflexivity. Qed.
Lemma single_block d sips h t r n b : d_srv d (srv_query t sips h) = Some [r] -> names_host r = true -> trim_dots (sv_target r) = n ->
  srv_block d sips (h, t) b -> b = [mkTarget n (sv_port r) t (sv_prio r) None].
Proof.
  intros D N1 T B. unfold srv_block in B. cbn [fst snd] in B. rewrite D in B. destruct B as (l' & P & F & _). cbn [filter] in P. rewrite N1 in P.
  apply Permutation_length_1_inv in P. subst l'. inversion F as [|r' x l1 l2 T' F']; subst. inversion F'; subst. destruct x as [h' p t' pr tls].
  destruct T' as (T1 & T2 & T3 & T4 & T5). cbn [tg_host tg_port tg_transport tg_priority tg_tls] in *. subst. f_equal. f_equal.
  exact (undotted_unique _ _ _ T1 (trim_dots_undotted (sv_target r))).
Qed.
(** NAPTR records are not followed as RFC 3263 has it: the service lookup is made at
    "_sip._tcp." followed by the replacement, which normally begins that way already. So the
    servers that a standard zone announces are not found, and the host's own address is used. *)
Definition naptr_zone : dns := mkDns
  (fun n => if str_eqb n (lit "example.com.") then Some [mkNaptr 50 50 (lit "SIP+D2T") (lit "_sip._tcp.example.com.")] else None)
  (fun n => if str_eqb n (lit "_sip._tcp.example.com") then Some [mkSrv 1 1 5060 (lit "proxy.example.com.")] else None)
  (fun n => if str_eqb n (lit "example.com") then Some [V4 (lit "192.0.2.80")] else None).
Theorem C66_naptr_refuted : exists d u, (forall rs, resolve true d rs u = Some [mkTarget (lit "192.0.2.80") 5060 Udp 0 (Some (lit "example.com"))]) /\
  (forall rs, resolve false d rs u = Some [mkTarget (lit "proxy.example.com") 5060 Tcp 1 None]) /\
  d_naptr d (lit "example.com.") = Some [mkNaptr 50 50 (lit "SIP+D2T") (lit "_sip._tcp.example.com.")].
Proof.
  exists naptr_zone, (uri "sip:example.com"). split; [intros rs; vm_compute; reflexivity|]. split; [|vm_compute; reflexivity].
  intros rs. pose proof (C66_srv false naptr_zone rs (uri "sip:example.com") eq_refl eq_refl (or_introl eq_refl)) as (blocks & B & M).
  change (plain_queries (uri "sip:example.com")) with [(lit "example.com", Tcp); (lit "example.com", Udp)] in B.
  inversion B as [|q b qs bs B1 B2]; subst. inversion B2 as [|q2 b2 qs2 bs2 B3 B4]; subst. inversion B4; subst. cbn [concat] in M. rewrite app_nil_r in M.
  unfold srv_block in B3. change (d_srv naptr_zone (srv_query (snd (lit "example.com", Udp)) _ _)) with (@None (list srv_rr)) in B3. cbv beta iota in B3. subst b2.
  apply (single_block naptr_zone false (lit "example.com") Tcp (mkSrv 1 1 5060 (lit "proxy.example.com.")) (lit "proxy.example.com")) in B1; [|reflexivity|reflexivity|reflexivity].
  subst b. destruct (resolve false naptr_zone rs (uri "sip:example.com")) as [ts|].
  - destruct M as (_ & _ & [-> | (X & _)]); [reflexivity|discriminate].
  - exfalso. destruct M as [X | (X & _)]; [cbn in X; lia|discriminate].
Qed.
Print Assumptions C66_naptr_refuted.
Lemma forall2_len {A B} (R : A -> B -> Prop) l m : Forall2 R l m -> length l = length m.
Proof. induction 1; cbn [length]; congruence. Qed.
(** More than a hundred records, and there is no target at all. *)
Theorem C66_many_refuted : forall rs, exists d u l, d_srv d (lit "_sips._tcp." ++ u_host u) = Some l /\ length (filter names_host l) = 101%nat /\ resolve false d rs u = None.
Proof.
  intros rs. set (l := List.repeat (mkSrv 1 1 5061 (lit "a")) 101). exists (mkDns (fun _ => None) (fun _ => Some l) (fun _ => None)), (uri "sips:example.com"), l.
  split; [reflexivity|]. split; [vm_compute; reflexivity|].
  destruct (C66_srv false (mkDns (fun _ => None) (fun _ => Some l) (fun _ => None)) rs (uri "sips:example.com") eq_refl eq_refl (or_introl eq_refl)) as (blocks & B & M).
  change (plain_queries (uri "sips:example.com")) with [(lit "example.com", Tls)] in B. inversion B as [|q b qs bs B1 B2]; subst. inversion B2; subst. unfold srv_block in B1. cbn [fst snd d_srv] in B1.
  destruct B1 as (l' & P & F & _). assert (EL : length b = 101%nat). { rewrite <- (forall2_len _ _ _ F), <- (Permutation_length P). vm_compute. reflexivity. }
  destruct (resolve _ _ _ _) as [ts|]; [|reflexivity]. cbn [concat] in M. rewrite app_nil_r in M. destruct M as (_ & L & [-> | (-> & _)]); [lia|discriminate].
Qed.
Print Assumptions C66_many_refuted.

(** ** C110: how often each server is tried first *)
(** over all equally likely draws, as often as its weight says *)
Theorem C110_weight : forall d l p h q t sips host rs, d_srv d (srv_query t sips host) = Some l -> best_priority p l -> weight_sum (at_priority p l) <> 0 ->
  length (filter (fun r => first_is h q (fst (lookup_srv d (r :: rs) host t sips))) (below (weight_sum (at_priority p l)))) = N.to_nat (weight_for h q (at_priority p l)).
Proof. exact count_first. Qed.
Print Assumptions C110_weight.
(** and equally often if no record has a weight *)
Theorem C110_equal : forall d l p h q t sips host rs, d_srv d (srv_query t sips host) = Some l -> best_priority p l -> weight_sum (at_priority p l) = 0 ->
  length (filter (fun r => first_is h q (fst (lookup_srv d (r :: rs) host t sips))) (below (llen (at_priority p l)))) = length (filter (points_to h q) (at_priority p l)).
Proof. exact count_first_zero. Qed.
Print Assumptions C110_equal.
(** after the first, the rest of the priority is drawn among the others in the same way *)
Theorem C110_next : forall r rs l, l <> [] ->
  exists l1 x l2, l = l1 ++ x :: l2 /\ fst (select_by_weight (r :: rs) l) = (snd (fst x), snd x) :: fst (select_by_weight rs (l1 ++ l2)).
Proof. intros r rs l H. destruct (select_cons r rs l H) as (l1 & x & l2 & E & _ & S). exists l1, x, l2. split; assumption. Qed.
Print Assumptions C110_next.
Example C110_case : best_priority 10 (match d_srv zone (lit "_sips._tcp.example.com") with Some l => l | None => [] end) /\
  weight_sum (at_priority 10 (match d_srv zone (lit "_sips._tcp.example.com") with Some l => l | None => [] end)) = 80 /\
  weight_for (lit "a.example.com") 5061 (at_priority 10 (match d_srv zone (lit "_sips._tcp.example.com") with Some l => l | None => [] end)) = 60.
Proof.
  split; [|split; vm_compute; reflexivity]. split.
  - exists (mkSrv 10 60 5061 (lit "a.example.com.")). split; [right; left; reflexivity|split; reflexivity].
  - intros r [<-|[<-|[<-|[<-|[]]]]]; cbn; intros; try discriminate; lia.
Qed.
(** RFC 2782 gives records without weight a small chance beside those with one; here they have none *)
Theorem C110_zero_refuted : exists d l h q, d_srv d (srv_query Tls true (lit "example.com")) = Some l /\ best_priority 1 l /\
  In (mkSrv 1 0 q h) l /\ forall rs r, r < weight_sum (at_priority 1 l) -> first_is h q (fst (lookup_srv d (r :: rs) (lit "example.com") Tls true)) = false.
Proof.
  set (l := [mkSrv 1 0 5061 (lit "z"); mkSrv 1 5 5061 (lit "y")]). exists (mkDns (fun _ => None) (fun _ => Some l) (fun _ => None)), l, (lit "z"), 5061.
  assert (B : best_priority 1 l). { split; [exists (mkSrv 1 0 5061 (lit "z")); split; [left; reflexivity|split; reflexivity]|]. intros r [<-|[<-|[]]]; cbn; intros; lia. }
  split; [reflexivity|]. split; [exact B|]. split; [left; reflexivity|]. intros rs r Hr.
  pose proof (C110_weight (mkDns (fun _ => None) (fun _ => Some l) (fun _ => None)) l 1 (lit "z") 5061 Tls true (lit "example.com") rs eq_refl B) as C.
  assert (W : weight_sum (at_priority 1 l) <> 0) by (vm_compute; discriminate). specialize (C W). change (weight_for (lit "z") 5061 (at_priority 1 l)) with 0 in C. cbn [N.to_nat] in C.
  apply length_zero_iff_nil in C. destruct (first_is _ _ _) eqn:E; [|reflexivity]. exfalso.
  assert (In r []); [|contradiction]. rewrite <- C. apply filter_In. split; [now apply below_in|exact E].
Qed.
Print Assumptions C110_zero_refuted.

(** ** C111: the name the certificate is checked against *)
(** the host of the URI, unless the target comes from a service record *)
Theorem C111_partial : forall en d rs u ts, resolve en d rs u = Some ts ->
  is_numeric_ip (u_host u) = true \/ u_port u <> None \/ (forall n, d_srv d n = None) -> Forall (fun x => sni x = u_host u) ts.
Proof.
  intros en d rs u ts H C.
  assert (A : forall l p t n x, address_targets l p t n x -> Forall (fun x => sni x = n) x).
  { intros l p t n x (r & _ & ->). apply Forall_forall. intros y Hy. apply in_map_iff in Hy. destruct Hy as (a & <- & _). reflexivity. }
  destruct (is_numeric_ip (u_host u)) eqn:Hn; [|destruct (u_port u) as [p|] eqn:Hp].
  - unfold resolve in H. cbv zeta in H. rewrite Hn, enforce_spec in H. cbn [length Nat.ltb Nat.leb] in H. injection H as <-. repeat constructor.
  - pose proof (C66_port en d rs u p Hn Hp) as P. rewrite H in P. destruct P as (_ & l & _ & P). exact (A _ _ _ _ _ P).
  - destruct C as [C|[C|C]]; [discriminate|congruence|]. pose proof (resolve_host en d rs u Hn Hp) as (blocks & B & M). rewrite H in M.
    assert (E : concat blocks = []). { clear - B C. induction B as [|q b qs bs B1 B2 IH]; [reflexivity|]. unfold srv_block in B1. rewrite C in B1. subst b. exact IH. }
    destruct M as (N1 & _ & [-> | (_ & l & _ & P)]); [congruence|]. exact (A _ _ _ _ _ P).
Qed.
Print Assumptions C111_partial.
Example C111_case : exists x r, resolve false zone [] (uri "sip:example.com") = Some (x :: r) /\ tg_host x = lit "2001:db8::1" /\ sni x = lit "example.com".
Proof. eexists _, _. split; [vm_compute; reflexivity|]. split; reflexivity. Qed.
(** A service record for a SIPS URI names the host the certificate is checked against, so
    whoever can forge DNS answers chooses the identity (RFC 5922 wants the domain of the URI). *)
Definition forged : dns := mkDns (fun _ => None) (fun n => if str_eqb n (lit "_sips._tcp.bank.example") then Some [mkSrv 0 0 5061 (lit "evil.example.")] else None) (fun _ => None).
Theorem C111_refuted : exists d u x, u_host u = lit "bank.example" /\ u_sips u = true /\ (forall rs, resolve true d rs u = Some [x]) /\ sni x = lit "evil.example".
Proof.
  exists forged, (uri "sips:bank.example"), (mkTarget (lit "evil.example") 5061 Tls 0 None). split; [reflexivity|]. split; [reflexivity|]. split; [|reflexivity].
  intros rs. pose proof (C66_srv true forged rs (uri "sips:bank.example") eq_refl eq_refl (or_intror (or_introl eq_refl))) as (blocks & B & M).
  change (plain_queries (uri "sips:bank.example")) with [(lit "bank.example", Tls)] in B. inversion B as [|q b qs bs B1 B2]; subst. inversion B2; subst. cbn [concat] in M. rewrite app_nil_r in M.
  apply (single_block forged true (lit "bank.example") Tls (mkSrv 0 0 5061 (lit "evil.example.")) (lit "evil.example")) in B1; [|reflexivity|reflexivity|reflexivity].
  subst b. destruct (resolve true forged rs (uri "sips:bank.example")) as [ts|].
  - destruct M as (_ & _ & [-> | (X & _)]); [reflexivity|discriminate].
  - exfalso. destruct M as [X | (X & _)]; [cbn in X; lia|discriminate].
Qed.
Print Assumptions C111_refuted.

(** ** C112: the transport the URI asks for *)
Theorem C112_sips : forall en d rs u ts, u_sips u = true -> resolve en d rs u = Some ts -> Forall (fun x => tg_transport x = Tls) ts.
Proof. intros en d rs u ts Hs. apply resolve_transport. unfold allowed_of. now rewrite Hs. Qed.
Print Assumptions C112_sips.
Definition transport_table : list (str * transport) :=
  [(lit "udp", Udp); (lit "tcp", Tcp); (lit "tls", Tls); (lit "ws", Ws); (lit "wss", Wss); (lit "sctp", Sctp); (lit "tls-sctp", TlsSctp)].
Theorem C112_param : forall en d rs u v w t ts, u_sips u = false -> bget (lit "transport") (u_params u) = Some (Some v) -> In (w, t) transport_table -> lower v = w ->
  resolve en d rs u = Some ts -> Forall (fun x => tg_transport x = t) ts.
Proof.
  intros en d rs u v w t ts Hs Hp Ht Hw. apply resolve_transport. unfold allowed_of. rewrite Hs. unfold transport_param. rewrite Hp. f_equal. unfold transport_of. cbv zeta. rewrite Hw.
  repeat (destruct Ht as [Ht|Ht]; [injection Ht as <- <-; reflexivity|]). destruct Ht.
Qed.
Print Assumptions C112_param.
(** without either: TCP and UDP where services are looked up, UDP otherwise *)
Theorem C112_plain : forall d rs u ts, u_sips u = false -> transport_param u = None -> resolve false d rs u = Some ts ->
  Forall (fun x => tg_transport x = Tcp \/ tg_transport x = Udp) ts /\
  (is_numeric_ip (u_host u) = true \/ u_port u <> None -> Forall (fun x => tg_transport x = Udp) ts).
Proof.
  intros d rs u ts Hs Hp H. assert (Hd : default_transport u = Udp) by (unfold default_transport; now rewrite Hs, Hp).
  assert (A : forall l p n x, address_targets l p (default_transport u) n x -> Forall (fun x => tg_transport x = Udp) x).
  { intros l p n x (r & _ & ->). apply Forall_forall. intros y Hy. apply in_map_iff in Hy. destruct Hy as (a & <- & _). exact Hd. }
  assert (U : Forall (fun x => tg_transport x = Udp) ts -> Forall (fun x => tg_transport x = Tcp \/ tg_transport x = Udp) ts) by (apply Forall_impl; intros; now right).
  destruct (is_numeric_ip (u_host u)) eqn:Hn; [|destruct (u_port u) as [p|] eqn:Ho].
  - assert (F : Forall (fun x => tg_transport x = Udp) ts). { destruct (C66_numeric false d rs u Hn) as (x & E & _ & T & _). rewrite H in E. injection E as ->. constructor; [congruence|constructor]. }
    split; [now apply U|now intros _].
  - pose proof (C66_port false d rs u p Hn Ho) as P. rewrite H in P. destruct P as (_ & l & _ & P). apply A in P. split; [now apply U|now intros _].
  - split; [|intros [X|X]; [discriminate|congruence]]. pose proof (C66_srv false d rs u Hn Ho (or_introl eq_refl)) as (blocks & B & M). rewrite H in M.
    destruct M as (_ & _ & [-> | (_ & l & _ & P)]); [|apply A in P; now apply U].
    unfold plain_queries in B. rewrite Hs, Hp in B. inversion B as [|q b qs bs B1 B2]; subst. inversion B2 as [|q2 b2 qs2 bs2 B3 B4]; subst. inversion B4; subst. cbn [concat]. rewrite app_nil_r.
    apply Forall_app. split; [apply block_transport in B1; eapply Forall_impl; [|exact B1]; now left|apply block_transport in B3; eapply Forall_impl; [|exact B3]; now right].
Qed.
Print Assumptions C112_plain.
Example C112_case : bget (lit "transport") (u_params (uri "sip:example.com;transport=WSS")) = Some (Some (lit "WSS")) /\ lower (lit "WSS") = lit "wss" /\
  exists x r, resolve true zone [] (uri "sip:example.com;transport=WSS") = Some (x :: r) /\ tg_transport x = Wss.
Proof. split; [vm_compute; reflexivity|]. split; [reflexivity|]. eexists _, _. split; [vm_compute; reflexivity|]. reflexivity. Qed.
(** TLS asked for by parameter is tried on the port of UDP and TCP, 5060 *)
Theorem C112_tls_port_refuted : exists d u x, resolve true d [] u = Some [x] /\ u_port u = None /\ tg_transport x = Tls /\ tg_port x = 5060.
Proof. exists zone, (uri "sip:192.0.2.1;transport=tls"). eexists. split; [vm_compute; reflexivity|]. split; [vm_compute; reflexivity|]. split; reflexivity. Qed.
Print Assumptions C112_tls_port_refuted.
(** a secure URI that asks for WebSocket is taken to mean TLS without it (RFC 7118: WSS) *)
Theorem C112_wss_refuted : exists d u x, u_sips u = true /\ bget (lit "transport") (u_params u) = Some (Some (lit "ws")) /\ resolve true d [] u = Some [x] /\ tg_transport x = Tls.
Proof. exists zone, (uri "sips:192.0.2.1:443;transport=ws"). eexists. split; [vm_compute; reflexivity|]. split; [vm_compute; reflexivity|]. split; [vm_compute; reflexivity|]. reflexivity. Qed.
Print Assumptions C112_wss_refuted.
