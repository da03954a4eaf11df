(** Properties of the proxy helpers: C42-C47, C95-C98. *)
From Coq Require Import NArith ZArith Arith Bool String List Lia Permutation Sorted ZifyBool ZifyN ZifyNat.
Import ListNotations.
From Verif Require Import Base BaseFacts Headers HeadersProofs Method Text TextFacts Uri UriProofs Msg AnyUri
  ProxyFork ProxyCore ProxyCoreSpec ProxyCoreProofs.
Open Scope N_scope.
Open Scope list_scope.

(** ** Concrete values for the examples *)
Definition sip (h : string) : sip_uri := mkUri (lit "sip:" ++ lit h) false None (lit h) None [] [].
Definition ex_headers : headers :=
  [(lit "Via", lit "SIP/2.0/UDP a.example;branch=z9hG4bKa1"); (lit "Max-Forwards", lit "70");
   (lit "From", lit "<sip:a@a.example>;tag=1"); (lit "To", lit "<sip:b@b.example>");
   (lit "Call-ID", lit "c1"); (lit "CSeq", lit "7 INVITE")].
Definition ex_q : req := mkReq MInvite (SipU (sip "b.example")) ex_headers [].
Definition ex_hash (_ : str) : str := lit "0123456789abcdef".

(** ** C42 Loop detection *)
(** C42 (partial): a request this proxy forwarded comes back, by whatever way, with
    the Via line the proxy added (possibly under the compact name) and the same
    To, From, Call-ID, CSeq number and Request-URI: it is rejected.  Missing:
    proxies whose host contains ':' (see [C42_port_refuted]). *)
Theorem C42_detected_partial : forall hash16 q host transport q' n v q2,
  (forall s, forallb is_alnum (hash16 s) = true) -> word transport -> word host -> ~ In 58 host ->
  add_via_loop hash16 q host transport = Ret q' ->
  hget (lit "Via") (q_headers q') = Some v -> In (n, v) (q_headers q2) -> via_line (n, v) ->
  routing_fields q2 = routing_fields q' ->
  detect_loop_hashed hash16 q2 host = true.
Proof.
  intros hash16 q host tr q' n v q2 Ha Ht Hh Hc A G Hi Hv R.
  pose proof (routing_push_via _ _ _ A) as Rp. apply push_via_spec in A. destruct A as (-> & _ & _).
  cbn [with_headers q_headers] in G. rewrite hget_cons_same in G by reflexivity. injection G as <-. cbn [snd] in *.
  assert (forallb is_alnum (loop_branch hash16 q host) = true) as Al by (unfold loop_branch; rewrite forallb_app, Ha; reflexivity).
  destruct (alnum_word _ Al) as [W S].
  apply detect_true. exists (n, via_value tr host (loop_branch hash16 q host)). split; [exact Hi|]. split; [exact Hv|]. cbn [snd]. split.
  - exists host. split; [now apply via_sent_by_value|]. unfold sent_by_matches. rewrite split_on_nomem by (apply mem_false; exact Hc).
    apply eq_ic_refl.
  - rewrite via_branch_value by auto. f_equal. apply loop_branch_fields. congruence.
Qed.
Print Assumptions C42_detected_partial.
Lemma word_lit : forall s, forallb (fun c => negb (is_ws c) && negb (c =? 59)) s = true -> s <> [] -> word s.
Proof.
  intros s H N; split; [exact N|]. rewrite forallb_forall in H. intros c Hc. specialize (H c Hc).
  apply andb_prop in H. destruct H as [A B]. split; [now apply negb_true_iff|]. lia.
Qed.
Example C42_detected_ex : exists q', add_via_loop ex_hash ex_q (lit "p.example") (lit "UDP") = Ret q'
  /\ word (lit "UDP") /\ word (lit "p.example") /\ ~ In 58 (lit "p.example")
  /\ detect_loop_hashed ex_hash q' (lit "p.example") = true /\ detect_loop_hashed ex_hash ex_q (lit "p.example") = false.
Proof.
  eexists. split; [vm_compute; reflexivity|]. split; [apply word_lit; [reflexivity|discriminate]|].
  split; [apply word_lit; [reflexivity|discriminate]|]. split; [intros H; apply mem_In in H; discriminate|]. split; reflexivity.
Qed.

(** C42: a spiral is let through.  If every Via line of the request that names this
    proxy was added by it to an earlier request with other fields, and the
    hashes do not collide, the request is accepted. *)
Theorem C42_spiral : forall hash16 earlier q host,
  (forall s, forallb is_alnum (hash16 s) = true) -> word host ->
  (forall h, In h (q_headers q) -> via_line h -> names_host (snd h) host ->
     exists q1 transport, In q1 earlier /\ word transport /\ snd h = via_value transport host (loop_branch hash16 q1 host)) ->
  (forall q1, In q1 earlier -> no_separator q1 /\ routing_fields q1 <> routing_fields q) -> no_separator q ->
  (forall q1, In q1 earlier -> loop_text q1 host <> loop_text q host -> hash16 (loop_text q1 host) <> hash16 (loop_text q host)) ->
  detect_loop_hashed hash16 q host = false.
Proof.
  intros hash16 earlier q host Ha Hh Hl Hd Hn Hc.
  destruct (detect_loop_hashed hash16 q host) eqn:E; [|reflexivity]. exfalso.
  apply detect_true in E. destruct E as (h & Hi & Hv & Hm & Hb).
  destruct (Hl h Hi Hv Hm) as (q1 & tr & Q1 & Wt & Es). rewrite Es in Hb.
  assert (forallb is_alnum (loop_branch hash16 q1 host) = true) as Al by (unfold loop_branch; rewrite forallb_app, Ha; reflexivity).
  destruct (alnum_word _ Al) as [W S]. rewrite via_branch_value in Hb by auto. injection Hb as Hb.
  destruct (Hd q1 Q1) as [N1 D]. apply (Hc q1 Q1).
  - intros L. apply D. now apply (loop_text_inj q1 q host).
  - exact Hb.
Qed.
Print Assumptions C42_spiral.

(** C42 refuted: with a host that contains a colon (a port or an IPv6 address) the
    check never fires *)
Theorem C42_port_refuted : forall hash16 q host, In 58 host -> detect_loop_hashed hash16 q host = false.
Proof.
  intros hash16 q host Hc. destruct (detect_loop_hashed hash16 q host) eqn:E; [|reflexivity]. exfalso.
  apply detect_true in E. destruct E as (h & _ & _ & (sb & _ & M) & _).
  unfold sent_by_matches in M. apply eq_ic_spec in M.
  assert (mem 58 (hd sb (split_on 58 sb)) = false) as N.
  { pose proof (split_on_nonempty 58 sb) as Ne. pose proof (split_on_nomem_parts 58 sb) as P.
    destruct (split_on 58 sb) as [|x l]; [congruence|]. apply P. now left. }
  rewrite <- mem_colon_lower, M, mem_colon_lower in N. apply mem_false in N. auto.
Qed.
Print Assumptions C42_port_refuted.
(** ... although such a Via line is what the proxy adds *)
Example C42_port_ex : exists q', add_via_loop ex_hash ex_q (lit "p.example:5080") (lit "UDP") = Ret q'
  /\ hget (lit "Via") (q_headers q') = Some (lit "SIP/2.0/UDP p.example:5080;branch=z9hG4bK0123456789abcdef;rport").
Proof. eexists. split; vm_compute; reflexivity. Qed.

(** C42 refuted: if the proxy retargets a request and then adds its Via, and the next
    hop sets the old Request-URI again, the loop is not noticed, whatever the
    hash function *)
Theorem C42_retarget_refuted : exists q target host transport,
  forall hash16 q1, (forall s, forallb is_alnum (hash16 s) = true) ->
    add_via_loop hash16 (set_request_uri q target) host transport = Ret q1 ->
    hash16 (loop_text (set_request_uri q target) host) <> hash16 (loop_text q host) ->
    detect_loop_hashed hash16 (with_uri q1 (q_uri q)) host = false.
Proof.
  exists ex_q, (sip "c.example"), (lit "p.example"), (lit "UDP"). intros hash16 q1 Ha A Hn.
  pose proof (routing_push_via _ _ _ A) as Rp. apply push_via_spec in A. destruct A as (-> & _ & _).
  apply (C42_spiral hash16 [set_request_uri ex_q (sip "c.example")]).
  - exact Ha.
  - apply word_lit; [reflexivity|discriminate].
  - intros h Hi Hv Hm. cbn [with_uri with_headers set_request_uri q_headers ex_q ex_headers] in Hi.
    assert (forall sb, sent_by_matches sb (lit "p.example") = true -> sb <> lit "a.example") as X by (intros sb M ->; discriminate).
    destruct Hi as [<- | Hi]; [exists (set_request_uri ex_q (sip "c.example")), (lit "UDP"); split; [now left|];
      split; [apply word_lit; [reflexivity|discriminate]|reflexivity]|].
    exfalso. repeat (destruct Hi as [<- | Hi]); try destruct Hi; try (destruct Hv as [Hv|Hv]; vm_compute in Hv; discriminate).
    destruct Hm as (sb & S & M). vm_compute in S. injection S as <-. vm_compute in M. discriminate.
  - intros q1 [<- | []]. split; [|vm_compute; discriminate].
    unfold no_separator. cbv beta iota delta [routing_fields]. intros s Hs. cbn [In] in Hs.
    repeat (destruct Hs as [<- | Hs]; [intros X; apply mem_In in X; vm_compute in X; discriminate|]). destruct Hs.
  - unfold no_separator. cbv beta iota delta [routing_fields]. intros s Hs. cbn [In] in Hs.
    repeat (destruct Hs as [<- | Hs]; [intros X; apply mem_In in X; vm_compute in X; discriminate|]). destruct Hs.
  - intros q1 [<- | []] _ E. apply Hn. rewrite E. f_equal.
Qed.
Print Assumptions C42_retarget_refuted.

(** C42 refuted: the text that is hashed is ambiguous, since header values may contain
    U+001F: two requests with different To and From headers give the same text *)
Theorem C42_separator_refuted : exists q1 q2 host, good_headers (q_headers q1) /\ good_headers (q_headers q2)
  /\ routing_fields q1 <> routing_fields q2 /\ loop_text q1 host = loop_text q2 host.
Proof.
  exists (mkReq MInvite (OtherU (lit "x:y")) [(lit "To", [97; 31; 98]); (lit "From", [99])] []),
         (mkReq MInvite (OtherU (lit "x:y")) [(lit "To", [97]); (lit "From", [98; 31; 99])] []), (lit "h").
  assert (forall n v, header_new n v = Ok (n, v) -> HeadersProofs.good_header (n, v)) as G by (intros n v H; apply header_new_ok in H; tauto).
  split; [split; [repeat (constructor; [apply G; vm_compute; reflexivity|]); constructor|vm_compute; discriminate]|].
  split; [split; [repeat (constructor; [apply G; vm_compute; reflexivity|]); constructor|vm_compute; discriminate]|].
  split; [vm_compute; discriminate|vm_compute; reflexivity].
Qed.
Print Assumptions C42_separator_refuted.

(** C42: the simple check accepts a request exactly if it has at most 70 Via lines and
    none of them names this proxy *)
Theorem C42_simple : forall q host, detect_loop q host = false <->
  llen (filter is_via (q_headers q)) <= 70 /\ (forall h, In h (q_headers q) -> via_line h -> ~ names_host (snd h) host).
Proof. intros q host. unfold detect_loop. rewrite detect_hops_spec by (unfold MAX_VIA_HOPS; lia). cbn [N.add]. reflexivity. Qed.
Print Assumptions C42_simple.
Example C42_simple_ex : detect_loop ex_q (lit "p.example") = false /\ detect_loop ex_q (lit "A.example") = true.
Proof. split; reflexivity. Qed.

(** ** C43 Max-Forwards *)
(** C43: a step that succeeds lowers Max-Forwards by one, or sets it to 69 if there
    was none; nothing else changes *)
Theorem C43_step : forall q q', check_max_forwards q = Some q' ->
  q_method q' = q_method q /\ q_uri q' = q_uri q /\ q_body q' = q_body q
  /\ others MF (q_headers q') = others MF (q_headers q)
  /\ exists m, hget MF (q_headers q') = Some (print_N m)
     /\ match hget MF (q_headers q) with Some v => hop_value v (m + 1) /\ m + 1 <= 255 | None => m = 69 end.
Proof. exact check_mf_spec. Qed.
Print Assumptions C43_step.
(** C43: a request with Max-Forwards 0 is rejected; so is one whose value is not a
    number up to 255 *)
Theorem C43_rejected : forall q v, hget MF (q_headers q) = Some v ->
  (forall n, hop_value v n -> n = 0 \/ 255 < n) -> check_max_forwards q = None.
Proof.
  intros q v G H. destruct (check_max_forwards q) as [q'|] eqn:E; [|reflexivity]. exfalso.
  destruct (check_mf_spec _ _ E) as (_ & _ & _ & _ & m & _ & X). rewrite G in X. destruct X as [X L]. specialize (H _ X). lia.
Qed.
Print Assumptions C43_rejected.
(** C43: a request is forwarded at most 255 times, at most as often as its
    Max-Forwards says, and at most 70 times if it has none *)
Theorem C43_bound : forall k q q', hops k q q' -> (k <= 255)%nat
  /\ (hget MF (q_headers q) = None -> (k <= 70)%nat)
  /\ (forall v n, hget MF (q_headers q) = Some v -> hop_value v n -> N.of_nat k <= n).
Proof.
  intros k q q' H. destruct k as [|k]; [split; [lia|split; intros; lia]|].
  destruct (hops_bound _ _ _ H ltac:(lia)) as (m & _ & A & B & C). split; [lia|]. split; [intros X; specialize (B X); lia|].
  intros v n X Y. specialize (C v n X Y). lia.
Qed.
Print Assumptions C43_bound.
Lemma forward_exact : forall k q, hget MF (q_headers q) = Some (print_N (N.of_nat k)) -> (k <= 255)%nat ->
  exists q', forward_n k q = Some q' /\ check_max_forwards q' = None.
Proof.
  induction k as [|k IH]; intros q G L.
  - exists q. split; [reflexivity|]. apply (C43_rejected q (print_N 0) G). intros n Hn. apply hop_value_print in Hn. lia.
  - cbn [forward_n].
    assert (exists q1, check_max_forwards q = Some q1 /\ hget MF (q_headers q1) = Some (print_N (N.of_nat k))) as (q1 & E & G1).
    { unfold check_max_forwards, decrement_mf. rewrite G, print_trim.
      assert (all_digits (print_N (N.of_nat (S k))) = true) as -> by apply (print_N_spec (N.of_nat (S k))).
      rewrite parse_uint_print by (unfold u16_max; lia). cbn [negb].
      replace (255 <? N.of_nat (S k)) with false by lia. replace (N.of_nat (S k) =? 0) with false by lia.
      replace (N.of_nat (S k) - 1) with (N.of_nat k) by lia.
      unfold hset_or_push. change (validate_header_name MF) with (@None header_error). cbn iota.
      assert (validate_header_value (print_N (N.of_nat k)) = None) as ->.
      { apply validate_value_ok. pose proof (NumFacts.print_N_blen (N.of_nat k) 3) as Bl.
        assert (forall c, In c (print_N (N.of_nat k)) -> 48 <= c <= 57) as D by (intros c; apply print_N_digits).
        specialize (Bl ltac:(cbn; lia) ltac:(lia)).
        split; [lia|]. split; [intros X; specialize (D _ X); lia|split; intros X; specialize (D _ X); lia]. }
      destruct (set_first_is MF (q_headers q) (print_N (N.of_nat k))) as [hs' F]; [congruence|]. rewrite F.
      eexists. split; [reflexivity|]. cbn. now apply (hget_set_first_same _ _ (q_headers q)). }
    rewrite E. apply IH; [exact G1|lia].
Qed.
(** C43: the bound is met: a request with Max-Forwards k (at most 255) passes exactly
    k steps *)
Theorem C43_exact : forall k q, hget MF (q_headers q) = Some (print_N (N.of_nat k)) -> (k <= 255)%nat ->
  exists q', forward_n k q = Some q' /\ check_max_forwards q' = None.
Proof. exact forward_exact. Qed.
Print Assumptions C43_exact.
Example C43_ex : exists q', prepare_forward ex_q (sip "c.example") (lit "p.example") (lit "UDP") None (lit "z9hG4bKx") = Some (Ret q')
  /\ hops 1 ex_q q' /\ hget MF (q_headers q') = Some (lit "69")
  /\ check_max_forwards (with_headers ex_q [(MF, lit "0")]) = None /\ check_max_forwards (with_headers ex_q [(MF, lit "256")]) = None
  /\ check_max_forwards (with_headers ex_q [(MF, lit "+5")]) = None.
Proof.
  eexists. split; [vm_compute; reflexivity|]. split; [|repeat split; vm_compute; reflexivity].
  eapply hops_S; [apply hops_0|left; reflexivity|]. right.
  exists (sip "c.example"), (lit "p.example"), (lit "UDP"), None, (lit "z9hG4bKx"). vm_compute. reflexivity.
Qed.

(** ** C44 Strict routing *)
(** C44 (partial): the swap at one proxy, any changes on the way that leave the
    Request-URI and the Route lines alone, and the recovery at the proxy the
    request is addressed to give back the original Request-URI and the route
    set without the entry just visited; nothing else changes.  Missing: URIs
    whose text cannot stand between angle brackets (see [C44_refuted]). *)
Theorem C44_partial : forall q q1 q2 is_self,
  llen (q_headers q) <= 200 -> bracketable (q_uri q) ->
  strict_swap q = (true, q1) ->
  q_uri q2 = q_uri q1 -> hget_all ROUTE (q_headers q2) = hget_all ROUTE (q_headers q1) ->
  is_self (q_uri q2) = true ->
  exists hs, strict_recover is_self q2 = (true, mkReq (q_method q2) (q_uri q) hs (q_body q2))
    /\ hget_all ROUTE hs = tl (hget_all ROUTE (q_headers q))
    /\ others ROUTE hs = others ROUTE (q_headers q2)
    /\ others ROUTE (q_headers q1) = others ROUTE (q_headers q).
Proof.
  intros q q1 q2 is_self L B S U R I.
  destruct (swap_spec q q1 L B S) as (Hh & Ne & _ & _).
  assert (hget_all ROUTE (q_headers q1) = tl (hget_all ROUTE (q_headers q)) ++ [lit "<" ++ uri_text (q_uri q) ++ lit ">"]) as E.
  { rewrite Hh. etransitivity; [apply hget_all_app|]. rewrite hget_all_remove_first. f_equal. }
  rewrite E in R. destruct (recover_spec q is_self q2 _ B I R) as (hs & H1 & H2 & H3).
  exists hs. split; [exact H1|]. split; [exact H2|]. split; [exact H3|].
  rewrite Hh. unfold others. rewrite filter_app. cbn [filter]. change (eq_ic (fst (ROUTE, _)) ROUTE) with true. cbn [negb].
  rewrite app_nil_r. apply others_remove_first.
Qed.
Print Assumptions C44_partial.
Definition ex_routed (u : sip_uri) : req :=
  mkReq MInvite (SipU u) [(lit "Via", lit "x"); (lit "Route", lit "<sip:p.example>"); (lit "Route", lit "<sip:z.example;lr>")] [].
Definition bob : sip_uri := mkUri (lit "sip:bob@b.example") false (Some (lit "bob")) (lit "b.example") None [] [].
Example C44_ex : bracketable (SipU bob) /\ exists q1 q2, strict_swap (ex_routed bob) = (true, q1)
  /\ uri_text (q_uri q1) = lit "sip:p.example"
  /\ hget_all ROUTE (q_headers q1) = [lit "<sip:z.example;lr>"; lit "<sip:bob@b.example>"]
  /\ strict_recover (fun _ => true) q1 = (true, q2) /\ q_uri q2 = SipU bob /\ hget_all ROUTE (q_headers q2) = [lit "<sip:z.example;lr>"].
Proof.
  split.
  - split; [exists (ASip bob); split; vm_compute; reflexivity|].
    repeat (split; [intros H; apply mem_In in H; vm_compute in H; discriminate|]). split; [reflexivity|vm_compute; discriminate].
  - do 2 eexists. repeat (split; [vm_compute; reflexivity|]). vm_compute; reflexivity.
Qed.
(** C44 refuted: a Request-URI with a '>' in a parameter value, which the URI parser
    accepts, comes back cut off *)
Theorem C44_refuted : exists u u' q1 q2, parse_uri (u_raw u) = Some u /\ parse_uri (u_raw u') = Some u'
  /\ strict_swap (ex_routed u) = (true, q1) /\ strict_recover (fun _ => true) q1 = (true, q2)
  /\ q_uri q2 = SipU u' /\ u_raw u = lit "sip:bob@b.example;x=a>;y=b" /\ u_raw u' = lit "sip:bob@b.example;x=a".
Proof.
  exists (mkUri (lit "sip:bob@b.example;x=a>;y=b") false (Some (lit "bob")) (lit "b.example") None [(lit "x", Some (lit "a>")); (lit "y", Some (lit "b"))] []),
         (mkUri (lit "sip:bob@b.example;x=a") false (Some (lit "bob")) (lit "b.example") None [(lit "x", Some (lit "a"))] []).
  do 2 eexists. repeat (split; [vm_compute; reflexivity|]). vm_compute; reflexivity.
Qed.
Print Assumptions C44_refuted.

(** ** C45 Via push and pop *)
(** C45 (partial): removing the top Via line undoes the addition of one; the line
    added is the proxy's own; nothing else changes.  Missing: several Via values
    on one line (see [C45_joined_refuted]). *)
Theorem C45_inverse_partial : forall q host transport b q', add_via q host transport b = Ret q' ->
  remove_top_via (q_headers q') = q_headers q
  /\ q_headers q' = (lit "Via", lit "SIP/2.0/" ++ transport ++ lit " " ++ host ++ lit ";branch=" ++ b ++ lit ";rport") :: q_headers q
  /\ q_method q' = q_method q /\ q_uri q' = q_uri q /\ q_body q' = q_body q.
Proof.
  intros q host tr b q' H. apply push_via_spec in H. destruct H as (-> & _ & _).
  split; [reflexivity|]. split; [|auto]. reflexivity.
Qed.
Print Assumptions C45_inverse_partial.
(** C45 (partial): along a chain of proxies: a response whose Via lines are those of
    the request that arrived at the end of the chain is, after each proxy has
    removed its line, a response with the Via lines of the original request;
    other headers, in order, and the rest of the response are untouched *)
Theorem C45_chain_partial : forall chain q q' r, via_chain chain q = Ret q' ->
  hget_all (lit "Via") (p_headers r) = hget_all (lit "Via") (q_headers q') ->
  let r' := pop_n (length chain) r in
  hget_all (lit "Via") (p_headers r') = hget_all (lit "Via") (q_headers q)
  /\ others (lit "Via") (p_headers r') = others (lit "Via") (p_headers r)
  /\ p_code r' = p_code r /\ p_reason r' = p_reason r /\ p_body r' = p_body r.
Proof.
  intros chain q q' r H E. cbv zeta. destruct (via_chain_lines _ _ _ H) as (vs & L & Hv).
  destruct (pop_n_spec (length chain) r) as (A & B & C). split; [|split; [exact B|exact C]].
  change (lit "Via") with VIA in *. rewrite A, E, Hv, <- L. rewrite skipn_app, Nat.sub_diag. cbn. now rewrite skipn_all.
Qed.
Print Assumptions C45_chain_partial.
Example C45_ex : exists q', via_chain [(lit "p.example", lit "UDP", lit "z9hG4bK1"); (lit "q.example", lit "TCP", lit "z9hG4bK2")] ex_q = Ret q'
  /\ hget_all (lit "Via") (q_headers q') =
     [lit "SIP/2.0/TCP q.example;branch=z9hG4bK2;rport"; lit "SIP/2.0/UDP p.example;branch=z9hG4bK1;rport"; lit "SIP/2.0/UDP a.example;branch=z9hG4bKa1"].
Proof. eexists. split; vm_compute; reflexivity. Qed.
(** C45 refuted: when the response carries the Via values on one line, all are removed *)
Theorem C45_joined_refuted : exists r, hget_all (lit "Via") (p_headers r) =
    [lit "SIP/2.0/UDP p.example;branch=z9hG4bK1;rport, SIP/2.0/UDP a.example;branch=z9hG4bKa1"]
  /\ p_headers (prepare_response r) = [].
Proof.
  exists (mkResp 200 (lit "OK") [(lit "Via", lit "SIP/2.0/UDP p.example;branch=z9hG4bK1;rport, SIP/2.0/UDP a.example;branch=z9hG4bKa1")] []).
  split; vm_compute; reflexivity.
Qed.
Print Assumptions C45_joined_refuted.

(** ** C46 Record-Route *)
(** C46 refuted: the entry of this proxy comes after one already present; it should
    come first *)
Theorem C46_refuted : exists q q', hget_all (lit "Record-Route") (q_headers q) = [lit "<sip:p1.example;lr>"]
  /\ add_record_route q (sip "p2.example") = Ret q'
  /\ hget_all (lit "Record-Route") (q_headers q') = [lit "<sip:p1.example;lr>"; lit "<sip:p2.example;lr>"].
Proof.
  exists (with_headers ex_q [(lit "Record-Route", lit "<sip:p1.example;lr>")]). eexists. repeat split; vm_compute; reflexivity.
Qed.
Print Assumptions C46_refuted.
(** C46 (partial): each proxy adds exactly one entry, its own URI with [lr]; the entries
    end up in the order in which the proxies were visited, after those present
    before.  (The order wanted is the reverse.)  Other headers do not change. *)
Theorem C46_entries_partial : forall us q q', rr_chain us q = Ret q' ->
  hget_all (lit "Record-Route") (q_headers q') = hget_all (lit "Record-Route") (q_headers q) ++ map record_route_value us
  /\ others (lit "Record-Route") (q_headers q') = others (lit "Record-Route") (q_headers q)
  /\ q_method q' = q_method q /\ q_uri q' = q_uri q /\ q_body q' = q_body q.
Proof.
  induction us as [|u us IH]; intros q q' H; cbn in H.
  - injection H as <-. rewrite app_nil_r. auto.
  - destruct (add_record_route q u) as [q1|] eqn:E; [|discriminate]. apply add_rr_spec in E. subst q1.
    destruct (IH _ _ H) as (A & B & C). rewrite A, B. cbn [with_headers q_headers q_method q_uri q_body] in *.
    split; [|split; [|exact C]].
    + etransitivity; [apply f_equal2; [apply hget_all_app|reflexivity]|]. rewrite <- app_assoc. reflexivity.
    + unfold others. rewrite filter_app. cbn [filter]. change (eq_ic (fst (lit "Record-Route", record_route_value u)) (lit "Record-Route")) with true.
      cbn [negb]. now rewrite app_nil_r.
Qed.
Print Assumptions C46_entries_partial.
(** C46 (partial): the entry is a loose route to the same host and port, if the proxy
    URI has no '?', '>' or quote, no surrounding space and room for [lr] *)
Theorem C46_lr_partial : forall u, parse_uri (u_raw u) = Some u ->
  starts_with (lit "sip:") (u_raw u) || starts_with (lit "sips:") (u_raw u) = true ->
  ~ In 63 (u_raw u) -> ~ In 34 (u_raw u) -> ~ In 62 (u_raw u) -> trim (u_raw u) = u_raw u ->
  llen (u_params u) < MAX_PARAMS -> blen (u_raw u) + 5 <= 2048 ->
  exists r u', route_parse (record_route_value u) = Some r /\ route_has_lr r = true /\ na_uri r = ASip u'
    /\ u_host u' = u_host u /\ u_port u' = u_port u /\ u_user u' = u_user u /\ u_sips u' = u_sips u.
Proof.
  intros u P Sc Q1 Q2 Q3 T L B.
  assert (Pre : forall s v, parse_uri s = Some v -> starts_with (lit "sip:") s || starts_with (lit "sips:") s = true -> parse_any s = Some (ASip v)).
  { intros s v Pv Sv. unfold parse_any.
    assert (existsb is_control s = false) as -> by (unfold parse_uri in Pv; now destruct (existsb is_control s)).
    assert (starts_with (lit "tel:") s = false) as ->.
    { apply orb_prop in Sv. destruct Sv as [Sv|Sv]; apply starts_with_spec in Sv; destruct Sv as (r & ->); reflexivity. }
    now rewrite Sv, Pv. }
  unfold record_route_value. destruct (uri_has_lr u) eqn:Lr.
  - exists (mkNa None (ASip u) []), u. rewrite (route_parse_brackets (u_raw u) (ASip u)); auto; [|lia].
    split; [reflexivity|]. split; [|auto]. unfold route_has_lr. cbn [na_ps na_uri existsb orb].
    unfold uri_has_lr in Lr. apply existsb_exists in Lr. destruct Lr as ((k, v) & Hi & Hk). cbn [fst] in Hk.
    destruct (parse_uri_inv _ _ P) as ((_ & _ & _ & (Srt & _ & G) & _) & _). rewrite Forall_forall in G. specialize (G _ Hi).
    destruct G as (_ & Lk & _). cbn [fst] in Lk. apply eq_ic_spec in Hk. rewrite Lk in Hk. change (lower (lit "lr")) with (lit "lr") in Hk. subst k.
    destruct (bget (lit "lr") (u_params u)) eqn:E; [reflexivity|]. exfalso. revert E Hi. generalize (lit "lr") (u_params u). clear.
    intros s m. unfold bget. induction m as [|(k, w) m IH]; cbn [lookup]; intros E Hi; [destruct Hi|].
    destruct (str_eqb s k) eqn:Q; [discriminate|]. destruct Hi as [X|Hi]; [injection X as <- <-; rewrite str_eqb_refl in Q; discriminate|auto].
  - destruct (parse_uri_lr (u_raw u) u P) as (u' & P' & Pp & H1 & H2 & H3 & H4); [apply mem_false; exact Q1|exact L|unfold MAX_URI_LENGTH; lia|].
    exists (mkNa None (ASip u') []), u'.
    change (lit "<" ++ u_raw u ++ lit ";lr>") with (lit "<" ++ u_raw u ++ (lit ";lr" ++ lit ">")). rewrite (app_assoc (u_raw u)).
    rewrite (route_parse_brackets (u_raw u ++ lit ";lr") (ASip u')).
    + split; [reflexivity|]. split; [|auto]. unfold route_has_lr. cbn [na_ps na_uri existsb orb]. rewrite Pp, bget_bput. reflexivity.
    + apply Pre; [exact P'|]. apply orb_prop in Sc. destruct Sc as [Sc|Sc]; apply starts_with_spec in Sc; destruct Sc as (r & E); rewrite E, <- app_assoc, starts_with_app;
        [reflexivity|apply orb_true_r].
    + intros H; apply in_app_or in H. destruct H as [H|H]; [auto|]. apply mem_In in H. discriminate.
    + intros H; apply in_app_or in H. destruct H as [H|H]; [auto|]. apply mem_In in H. discriminate.
    + apply trim_edge. apply no_edge_ends; [destruct (u_raw u); [discriminate|discriminate]|discriminate| |reflexivity].
      pose proof (trim_by_no_edge is_ws (u_raw u)) as [Ed _]. fold (trim (u_raw u)) in Ed. rewrite T in Ed. exact Ed.
    + rewrite blen_app. change (blen (lit ";lr")) with 3. lia.
Qed.
Print Assumptions C46_lr_partial.
Example C46_lr_ex : parse_uri (lit "sip:p2.example") = Some (sip "p2.example")
  /\ record_route_value (sip "p2.example") = lit "<sip:p2.example;lr>".
Proof. split; vm_compute; reflexivity. Qed.
(** C46 refuted: with URI headers the [lr] ends up in a header value, and the entry is
    not a loose route *)
Theorem C46_headers_refuted : exists u r, parse_uri (u_raw u) = Some u
  /\ route_parse (record_route_value u) = Some r /\ route_has_lr r = false.
Proof.
  exists (mkUri (lit "sip:p.example?x=y") false None (lit "p.example") None [] [(lit "x", lit "y")]). eexists.
  split; [vm_compute; reflexivity|]. split; vm_compute; reflexivity.
Qed.
Print Assumptions C46_headers_refuted.

(** ** C47 Cohorts by q value *)
(** C47: the cohorts hold the same contacts (NaN read as 0), in strictly descending
    order of q; contacts with equal q share a cohort and keep their order; no
    cohort is empty, and all q values in one are close to that of its first.
    [far] stands for the comparison with the tolerance. *)
Theorem C47_cohorts : forall far, (forall a, far a a = false) -> forall l,
  Permutation (concat (group_by_q far l)) (map fix_nan l)
  /\ descending (group_by_q far l)
  /\ (forall s t, In s (map fix_nan l) -> In t (map fix_nan l) -> q_of s = q_of t ->
        exists g, In g (group_by_q far l) /\ In s g /\ In t g)
  /\ (forall z, filter (fun t => q_of t =? z)%Z (concat (group_by_q far l)) = filter (fun t => q_of t =? z)%Z (map fix_nan l))
  /\ (forall g, In g (group_by_q far l) -> exists f r, g = f :: r /\ forall t, In t g -> far (q_of t) (q_of f) = false).
Proof.
  intros far F l. rewrite (group_by_q_concat far F).
  split; [apply sort_q_perm|]. split; [apply desc_descending, group_by_q_desc, F|].
  split; [|split; [intros z; apply (sort_q_filter far)|apply group_by_q_first, F]].
  intros s t Hs Ht E. apply desc_share; [apply group_by_q_desc, F| | |exact E]; rewrite (group_by_q_concat far F);
    apply (Permutation_in _ (Permutation_sym (sort_q_perm _))); assumption.
Qed.
Print Assumptions C47_cohorts.
Definition ex_far (a b : Z) : bool := (10 <? Z.abs (a - b))%Z.
Definition tg (h : string) (q : Z) : target := mkTarget (sip h) (QVal q).
Example C47_ex : group_by_q ex_far [tg "a" 50; tg "b" 100; tg "c" 50; mkTarget (sip "d") QNaN; tg "e" 100] =
  [[tg "b" 100; tg "e" 100]; [tg "a" 50; tg "c" 50]; [tg "d" 0]] /\ (forall a, ex_far a a = false).
Proof. split; [vm_compute; reflexivity|]. intros a. unfold ex_far. rewrite Z.sub_diag. reflexivity. Qed.
(** C47 refuted in part: the documentation says that the order within a cohort is that
    of the input; contacts whose q values differ by less than the tolerance are
    reordered *)
Theorem C47_tolerance_refuted : exists far l, (forall a, far a a = false)
  /\ group_by_q far l = [[tg "b" 51; tg "a" 50]] /\ l = [tg "a" 50; tg "b" 51].
Proof.
  exists ex_far, [tg "a" 50; tg "b" 51]. split; [intros a; unfold ex_far; rewrite Z.sub_diag; reflexivity|]. split; vm_compute; reflexivity.
Qed.
Print Assumptions C47_tolerance_refuted.

(** ** C95 CANCEL after a 2xx *)
Lemma names_untouched : forall n, In n [lit "From"; lit "To"; lit "Call-ID"; ROUTE] -> untouched n /\ eq_ic (lit "CSeq") n = false.
Proof. intros n H. repeat (destruct H as [<- | H]; [split; [repeat split; reflexivity|reflexivity]|]). destruct H. Qed.
Lemma cseq_untouched : untouched (lit "CSeq").
Proof. repeat split; reflexivity. Qed.
Lemma started_loop : forall q ts host tr rr m ids c sent, start_forking q ts host tr rr m ids = FStarted c sent ->
  llen ts <= 100 /\ hget (lit "Call-ID") (q_headers q) <> None /\ fork_loop q host tr rr ids (fork_targets m ts) (ctx_new q) [] = FStarted c sent.
Proof.
  intros q ts host tr rr m ids c sent H. unfold start_forking in H. destruct (MAX_TARGETS_PER_REQUEST <? llen ts) eqn:L; [discriminate|].
  unfold MAX_TARGETS_PER_REQUEST in L. split; [lia|].
  destruct (hget (lit "Call-ID") (q_headers q)); [|discriminate]. split; [discriminate|].
  destruct (top_via_branch q) as [[v|]|]; [exact H|discriminate|discriminate].
Qed.
Lemma handle_cancels : forall ord host tr tb c b r c' f cancels, handle_response ord host tr tb c b r = Ret (c', Some f, cancels) ->
  process ord c b r = (c', snd (process ord c b r)) /\ forwarded (snd (process ord c b r)) = Some f
  /\ (is_2xx f = true /\ (exists t, cancel_template (cx_req c') host tr tb = Ret t /\ cancels = cancel_requests (ord (cx_branches c')) t)
      \/ is_2xx f = false /\ cancels = []).
Proof.
  intros ord host tr tb c b r c' f cancels H. unfold handle_response in H. destruct (process ord c b r) as [c1 ev] eqn:P.
  destruct (forwarded ev) as [f1|] eqn:F; [|discriminate]. destruct (is_2xx f1) eqn:T.
  - destruct (cancel_template (cx_req c1) host tr tb) as [t|] eqn:E; [|discriminate]. injection H as <- <- <-. cbn [snd].
    split; [reflexivity|]. split; [exact F|]. left. split; [exact T|]. exists t. auto.
  - injection H as <- <- <-. cbn [snd]. split; [reflexivity|]. split; [exact F|]. right. auto.
Qed.
Lemma cseq_of_print : forall n m hs, n <= u32_max -> m <> [] -> forallb (fun c => negb (is_ws c)) m = true ->
  forall q, q_headers q = hs -> hget (lit "CSeq") hs = Some (print_N n ++ 32 :: m) -> invite_cseq q = Some n.
Proof.
  intros n m hs L Nm Wm q <- G. unfold invite_cseq. rewrite G.
  rewrite split_ws_two; [now apply parse_uint_print| |exact Nm| |exact Wm].
  - apply (print_N_spec n).
  - apply forallb_forall. intros c Hc. apply print_N_digits in Hc. apply negb_true_iff. unfold is_ws, in_range. lia.
Qed.

(** C95 (partial): a request was forked; after any responses, errors and timeouts a
    response comes in and the proxy emits CANCELs.  Each is for an INVITE that was
    sent, and matches it: same top Via (so the same branch), Request-URI, From, To,
    Call-ID, Route set, and CSeq number, with the method CANCEL and no body.
    Missing: see the three theorems named _refuted. *)
Theorem C95_match_partial : forall q ts host transport rr m ids c0 sent ord ops tb b r c' f cancels n,
  good_headers (q_headers q) -> hget (lit "CSeq") (q_headers q) = Some (print_N n ++ lit " INVITE") -> n <= u32_max ->
  hget (lit "From") (q_headers q) <> None ->
  word transport -> word host -> word tb -> (forall l, Permutation (ord l) l) ->
  start_forking q ts host transport rr m ids = FStarted c0 sent ->
  forallb (fun o => negb (is_add o)) ops = true ->
  handle_response ord host transport tb (fst (prun ord c0 ops)) b r = Ret (c', Some f, cancels) ->
  forall b' k, In (b', k) cancels -> exists i, In (b', i) sent
    /\ q_method k = MCancel /\ q_body k = [] /\ q_uri k = q_uri i
    /\ hget (lit "Via") (q_headers k) = hget (lit "Via") (q_headers i)
    /\ hget (lit "Via") (q_headers i) = Some (via_value transport host b')
    /\ (forall nm, In nm [lit "From"; lit "To"; lit "Call-ID"] -> hget nm (q_headers k) = hget nm (q_headers i))
    /\ hget_all (lit "Route") (q_headers k) = hget_all (lit "Route") (q_headers i)
    /\ hget (lit "CSeq") (q_headers i) = Some (print_N n ++ lit " INVITE")
    /\ hget (lit "CSeq") (q_headers k) = Some (print_N n ++ lit " CANCEL")
    /\ matches_invite k i = true.
Proof.
  intros q ts host tr rr m ids c0 sent ord ops tb b r c' f cancels n GH GC Ln GF Wt Wh Wb Ord S NA H b' k Hk.
  destruct (started_loop _ _ _ _ _ _ _ _ _ S) as (_ & Hcall & FL).
  destruct (fork_loop_spec _ _ _ _ _ _ _ _ _ _ FL) as (R0 & _ & Sh).
  destruct (shape_run ord ops c0 NA) as [S1 R1].
  destruct (handle_cancels _ _ _ _ _ _ _ _ _ _ H) as (P & _ & [(_ & t & T & ->) | (_ & ->)]); [|destruct Hk].
  destruct (shape_process ord (fst (prun ord c0 ops)) b r) as [S2 R2]. rewrite P in S2, R2. cbn [fst] in S2, R2.
  assert (cx_req c' = q) as Rq by (rewrite R2, R1, R0; reflexivity). rewrite Rq in T.
  unfold cancel_requests in Hk. apply in_map_iff in Hk. destruct Hk as ((b1, br) & E & Hf). cbn [fst snd] in E. injection E as <- <-.
  apply filter_In in Hf. destruct Hf as [Hf _]. apply (Permutation_in _ (Ord _)) in Hf.
  assert (In (b1, br_target br) (shape c0)) as Hs.
  { rewrite <- S1, <- S2. unfold shape. apply in_map_iff. exists (b1, br). auto. }
  destruct (Sh _ _ Hs) as [[] | (i & Hi & Pf)]. exists i. split; [exact Hi|].
  destruct (prepare_forward_spec _ _ _ _ _ _ _ Pf) as (q1 & tail & C & Hh & _ & Mi & Ui & Bi & Vi).
  destruct (cancel_template_spec _ _ _ _ _ T) as (Tm & Tb & Tv & Tn & Tc).
  destruct Wb as [Wb1 Wb2].
  assert (forallb (fun c => negb (is_ws c)) tb = true) as Wb3 by (apply forallb_forall; intros x Hx; apply negb_true_iff; now apply Wb2).
  assert (mem 59 tb = false) as Wb4 by (apply mem_false; intros X; destruct (Wb2 _ X); congruence).
  destruct (prepare_cancel_spec t tr host tb b1 Tv Wt Wh Wb3 Wb4 Vi) as (Km & Kb & Kv & Kn).
  cbn [set_request_uri with_uri q_method q_body q_uri q_headers].
  assert (Gi : forall nm, untouched nm -> hget nm (q_headers i) = hget nm (q_headers q) /\ hget_all nm (q_headers i) = hget_all nm (q_headers q))
    by (intros nm U; exact (forward_untouched _ _ _ _ _ _ _ nm Pf U)).
  assert (Same : forall nm, In nm [lit "From"; lit "To"; lit "Call-ID"; ROUTE] ->
     hget nm (q_headers (prepare_cancel t b1)) = hget nm (q_headers i) /\ hget_all nm (q_headers (prepare_cancel t b1)) = hget_all nm (q_headers i)).
  { intros nm Hn. destruct (names_untouched nm Hn) as [U D]. destruct (Kn nm ltac:(apply U)) as [A1 A2]. destruct (Tn nm U D) as [B1 B2].
    destruct (Gi nm U) as [C1 C2]. rewrite A1, A2, B1, B2, C1, C2. auto. }
  assert (hget (lit "CSeq") (q_headers i) = Some (print_N n ++ lit " INVITE")) as Ci by (destruct (Gi _ cseq_untouched) as [-> _]; exact GC).
  assert (hget (lit "CSeq") (q_headers (prepare_cancel t b1)) = Some (print_N n ++ lit " CANCEL")) as Ck.
  { destruct (Kn (lit "CSeq") eq_refl) as [-> _]. apply Tc; [exact GC| |].
    - apply mem_false. intros X. apply print_N_digits in X. lia.
    - destruct (proj1 (hget_some _ _ _) GC) as (a & nm & z & E & _). destruct GH as [GH _]. rewrite E in GH.
      apply Forall_app in GH. destruct GH as [_ GH]. apply Forall_cons_iff in GH. destruct GH as [(_ & _ & _ & V) _]. now apply validate_value_ok. }
  assert (Vv : hget (lit "Via") (q_headers i) = Some (via_value tr host b1)) by (rewrite Hh; rewrite hget_cons_same; reflexivity).
  split; [congruence|]. split; [congruence|]. split; [congruence|].
  split; [exact (eq_trans Kv (eq_sym Vv))|]. split; [exact Vv|].
  split; [intros nm Hn; apply Same; destruct Hn as [<- | [<- | [<- | []]]]; cbn; auto|].
  split; [apply Same; cbn; auto|]. split; [exact Ci|]. split; [exact Ck|].
  match goal with |- matches_invite ?k i = true =>
    pose proof (cseq_of_print n (lit "CANCEL") (q_headers (prepare_cancel t b1)) Ln ltac:(discriminate) eq_refl k eq_refl Ck) as Ek end.
  unfold matches_invite. rewrite Ek.
  rewrite (cseq_of_print n (lit "INVITE") (q_headers i) Ln ltac:(discriminate) eq_refl i eq_refl Ci). rewrite N.eqb_refl. cbn [andb set_request_uri with_uri q_headers q_uri].
  destruct (Same (lit "Call-ID")) as [-> _]; [cbn; auto|]. destruct (Same (lit "From")) as [-> _]; [cbn; auto|].
  destruct (Gi (lit "Call-ID")) as [-> _]; [apply names_untouched; cbn; auto|]. destruct (Gi (lit "From")) as [-> _]; [apply names_untouched; cbn; auto|].
  destruct (hget (lit "Call-ID") (q_headers q)) as [x|]; [|congruence]. rewrite str_eqb_refl. cbn [andb].
  destruct (hget (lit "From") (q_headers q)) as [y|]; [|congruence]. cbn [with_uri q_uri]. rewrite Ui, str_eqb_refl, andb_true_r.
  unfold opt_eqb. destruct (from_tag y); [apply str_eqb_refl|reflexivity].
Qed.
Print Assumptions C95_match_partial.

Lemma fork_nodup : forall q host tr rr ts ids c sent c' sent', NoDup (keys (cx_branches c)) ->
  fork_loop q host tr rr ids ts c sent = FStarted c' sent' -> NoDup (keys (cx_branches c')).
Proof.
  intros q host tr rr ts; induction ts as [|t ts IH]; intros ids c sent c' sent' N H; cbn in H; [now injection H as <- <-|].
  destruct ids as [|b ids]; [now injection H as <- <-|].
  destruct (prepare_forward q (pt_uri t) host tr rr b) as [[q'|]|]; [|discriminate|exact (IH _ _ _ _ _ N H)].
  destruct (validate_branch_id b); [|discriminate].
  destruct (add_branch c b (pt_uri t)) as [c1|] eqn:A; [|discriminate]. refine (IH _ _ _ _ _ _ H).
  unfold add_branch, add_insert in A. destruct (add_check c); [|discriminate].
  destruct (MAX_BRANCHES_PER_CONTEXT <=? llen (cx_branches c)); [discriminate|]. injection A as <-. cbn [cx_branches set_count set_branches].
  apply (insert_nodup _ str_eqb_spec). exact N.
Qed.
Lemma shape_keys : forall c, keys (cx_branches c) = map fst (shape c).
Proof. intros c; unfold keys, shape. rewrite map_map. reflexivity. Qed.
Lemma NoDup_map_filter : forall A B (g : A -> B) f l, NoDup (map g l) -> NoDup (map g (filter f l)).
Proof.
  intros A B g f l; induction l as [|x l IH]; cbn; intros H; [constructor|]. apply NoDup_cons_iff in H. destruct H as [H1 H2].
  destruct (f x); [|auto]. cbn. constructor; [|auto]. intros X. apply H1. apply in_map_iff in X. destruct X as (y & E & Y).
  apply filter_In in Y. apply in_map_iff. exists y. tauto.
Qed.
(** C95 (partial): when a received 2xx is forwarded, every other branch that has not
    given a final response is sent a CANCEL, exactly one; the branch of the 2xx and
    those that gave a final response before are not *)
Theorem C95_pending_partial : forall q ts host transport rr m ids c0 sent ord ops tb b r c' cancels,
  (forall l, Permutation (ord l) l) ->
  start_forking q ts host transport rr m ids = FStarted c0 sent ->
  forallb (fun o => negb (is_add o)) ops = true -> is_2xx r = true ->
  let c := fst (prun ord c0 ops) in
  handle_response ord host transport tb c b r = Ret (c', Some r, cancels) ->
  NoDup (map fst cancels)
  /\ (forall b' br, In (b', br) (cx_branches c) -> b' <> b -> pending br -> In b' (map fst cancels))
  /\ ~ In b (map fst cancels)
  /\ (forall b' br, In (b', br) (cx_branches c) -> br_state br = BCompleted -> ~ In b' (map fst cancels)).
Proof.
  intros q ts host tr rr m ids c0 sent ord ops tb b r c' cancels Ord S NA T c H.
  destruct (started_loop _ _ _ _ _ _ _ _ _ S) as (_ & _ & FL).
  pose proof (fork_nodup _ _ _ _ _ _ (ctx_new q) _ _ _ (NoDup_nil str) FL) as N0.
  destruct (shape_run ord ops c0 NA) as [S1 _]. fold c in S1.
  destruct (handle_cancels _ _ _ _ _ _ _ _ _ _ H) as (P & F & K).
  destruct (shape_process ord c b r) as [S2 _]. rewrite P in S2. cbn [fst] in S2.
  assert (NoDup (keys (cx_branches c))) as Nc by (rewrite shape_keys, S1, <- shape_keys; exact N0).
  assert (NoDup (keys (cx_branches c'))) as Nc' by (rewrite shape_keys, S2, <- shape_keys; exact Nc).
  destruct K as [(_ & t & _ & ->) | (X & _)]; [|congruence].
  destruct (process_2xx ord c b r c' _ P T F) as [Q1 Q2].
  assert (Fst : map fst (cancel_requests (ord (cx_branches c')) t) = map fst (filter to_cancel (ord (cx_branches c')))).
  { unfold cancel_requests. rewrite map_map. reflexivity. }
  rewrite Fst.
  assert (Inn : forall x, In x (map fst (filter to_cancel (ord (cx_branches c')))) <-> exists br, In (x, br) (cx_branches c') /\ to_cancel (x, br) = true).
  { intros x. rewrite in_map_iff. split.
    - intros ((y, br) & <- & Y). apply filter_In in Y. exists br. destruct Y as [Y1 Y2]. split; [exact (Permutation_in _ (Ord _) Y1)|exact Y2].
    - intros (br & Y1 & Y2). exists (x, br). split; [reflexivity|]. apply filter_In. split; [exact (Permutation_in _ (Permutation_sym (Ord _)) Y1)|exact Y2]. }
  assert (Fun : forall x b1 b2, In (x, b1) (cx_branches c') -> In (x, b2) (cx_branches c') -> b1 = b2).
  { intros x x1 x2 H1 H2. apply (in_lookup _ str_eqb_spec) in H1; [|exact Nc']. apply (in_lookup _ str_eqb_spec) in H2; [|exact Nc']. congruence. }
  split; [|split; [|split]].
  - apply NoDup_map_filter. apply (Permutation_NoDup (Permutation_map fst (Permutation_sym (Ord _))) Nc').
  - intros b' br Hi Hn Hp. apply Inn. destruct (Q1 b' br Hi Hn) as (br' & I' & St).
    + destruct Hp as [E|E]; rewrite E; discriminate.
    + exists br'. split; [exact I'|]. unfold to_cancel. cbn. now rewrite St.
  - intros X. apply Inn in X. destruct X as (br & I' & Tc). unfold to_cancel in Tc. cbn in Tc. rewrite (Q2 b br I' eq_refl) in Tc. discriminate.
  - intros b' br Hi St X. apply Inn in X. destruct X as (br' & I' & Tc). unfold to_cancel in Tc. cbn in Tc.
    (* a completed branch stays completed *)
    assert (In (b', br') (cx_branches c') -> br_state br' = BCompleted) as Z.
    { intros _. revert P. unfold process, record_response.
      assert (is_final r = true) as Fi by (unfold is_2xx, is_final in *; lia).
      assert (is_prov r = false) as Pr by (unfold is_2xx, is_prov in *; lia).
      destruct (lookup str_eqb b (cx_branches c)) as [br0|] eqn:L.
      - rewrite Fi, Pr. destruct (rank_response _ r) as [sel c2] eqn:E.
        assert (cx_branches c2 = upd b (fun x => mkBranch (br_target x) BCompleted (Some r)) (cx_branches c)) as B2.
        { unfold rank_response in E. destruct (select_best _ _); injection E as <- <-; reflexivity. }
        assert (In (b', if str_eqb b b' then mkBranch (br_target br) BCompleted (Some r) else br) (cx_branches c2)) as I2.
        { rewrite B2. unfold upd. apply in_map_iff. exists (b', br). split; [cbn; now destruct (str_eqb b b')|exact Hi]. }
        assert (forall w, In (b', if str_eqb b b' then mkBranch (br_target br) BCompleted (Some r) else br) (cx_branches (cancel_others c2 w))) as I3.
        { intros w. unfold cancel_others. cbn. apply in_map_iff. eexists. split; [|exact I2]. cbn. destruct (str_eqb b' w); [reflexivity|].
          destruct (str_eqb b b'); cbn; [reflexivity|now rewrite St]. }
        intros Pq. assert (In (b', if str_eqb b b' then mkBranch (br_target br) BCompleted (Some r) else br) (cx_branches c')) as I4.
        { apply (f_equal fst) in Pq. cbn [fst] in Pq. destruct (sel && is_2xx r); [cbn in Pq; rewrite <- Pq; apply I3|].
          destruct (sel && is_6xx r); cbn [fst] in Pq; rewrite <- Pq; [apply I3|exact I2]. }
        rewrite (Fun _ _ _ I' I4). destruct (str_eqb b b'); [reflexivity|exact St].
      - intros Pq. apply (f_equal fst) in Pq. cbn [fst] in Pq. rewrite <- Pq in I', Fun. rewrite (Fun _ _ _ I' Hi). exact St. }
    rewrite (Z I') in Tc. discriminate.
Qed.
Print Assumptions C95_pending_partial.

Definition ex_ids : list str := [lit "z9hG4bK1"; lit "z9hG4bK2"; lit "z9hG4bK3"].
Definition ex_ts : list ptarget := [mkPt (sip "x") 1 10; mkPt (sip "y") 0 5; mkPt (sip "z") 0 9].
Definition ex_start (m : fork_mode) : fork_result := start_forking ex_q ex_ts (lit "p") (lit "UDP") None m ex_ids.
Definition started (f : fork_result) : ctx * list (str * req) :=
  match f with FStarted c s => (c, s) | _ => (ctx_new ex_q, []) end.
Definition same (m : list (str * branch)) := m.
Definition rsp (code : N) : resp := mkResp code [] [] [].
(** the branch ids of the CANCELs, and the responses forwarded, for a list of responses *)
Fixpoint drive (c : ctx) (l : list (str * resp)) : list (option N * list str) :=
  match l with
  | [] => []
  | (b, r) :: l' => match handle_response same (lit "p") (lit "UDP") (lit "z9hG4bKt") c b r with
                    | Panics => []
                    | Ret (c', f, k) => (match f with Some x => Some (p_code x) | None => None end, map fst k) :: drive c' l'
                    end
  end.
Example C95_ex : good_headers (q_headers ex_q) /\ ex_start FParallel = FStarted (fst (started (ex_start FParallel))) (snd (started (ex_start FParallel)))
  /\ hget (lit "CSeq") (q_headers ex_q) = Some (print_N 7 ++ lit " INVITE") /\ word (lit "p") /\ word (lit "z9hG4bKt")
  /\ drive (fst (started (ex_start FParallel))) [(lit "z9hG4bK3", rsp 486); (lit "z9hG4bK2", rsp 180); (lit "z9hG4bK1", rsp 200)]
     = [(None, []); (Some 180, []); (Some 200, [lit "z9hG4bK2"])].
Proof.
  assert (forall n v, header_new n v = Ok (n, v) -> HeadersProofs.good_header (n, v)) as G by (intros n v H; apply header_new_ok in H; tauto).
  split; [split; [repeat (constructor; [apply G; vm_compute; reflexivity|]); constructor|vm_compute; discriminate]|].
  split; [vm_compute; reflexivity|]. split; [vm_compute; reflexivity|].
  split; [apply word_lit; [reflexivity|discriminate]|]. split; [apply word_lit; [reflexivity|discriminate]|]. vm_compute; reflexivity.
Qed.
(** C95 refuted: a 6xx is forwarded at once and no CANCEL is sent, though two
    branches are ringing *)
Theorem C95_6xx_refuted : exists c, fst (started (ex_start FParallel)) = c
  /\ drive c [(lit "z9hG4bK1", rsp 180); (lit "z9hG4bK2", rsp 180); (lit "z9hG4bK3", rsp 603)]
     = [(Some 180, []); (Some 180, []); (Some 603, [])].
Proof. eexists. split; [reflexivity|]. vm_compute; reflexivity. Qed.
Print Assumptions C95_6xx_refuted.
(** C95 refuted: a second 2xx makes the proxy CANCEL the remaining branch again *)
Theorem C95_again_refuted : exists c, fst (started (ex_start FParallel)) = c
  /\ drive c [(lit "z9hG4bK1", rsp 200); (lit "z9hG4bK2", rsp 200)]
     = [(Some 200, [lit "z9hG4bK3"; lit "z9hG4bK2"]); (Some 200, [lit "z9hG4bK3"])].
Proof. eexists. split; [reflexivity|]. vm_compute; reflexivity. Qed.
Print Assumptions C95_again_refuted.
(** C95 refuted: a CANCEL must have a single Via line; it carries those of upstream too *)
Theorem C95_vias_refuted : exists c c' f b k rest,
  fst (started (ex_start FParallel)) = c
  /\ handle_response same (lit "p") (lit "UDP") (lit "z9hG4bKt") c (lit "z9hG4bK1") (rsp 200) = Ret (c', f, (b, k) :: rest)
  /\ hget_all (lit "Via") (q_headers k) = [lit "SIP/2.0/UDP p;branch=z9hG4bK3;rport"; lit "SIP/2.0/UDP a.example;branch=z9hG4bKa1"].
Proof. do 6 eexists. split; [reflexivity|]. split; [vm_compute; reflexivity|]. vm_compute; reflexivity. Qed.
Print Assumptions C95_vias_refuted.

(** ** C96 Forking does not panic *)
Lemma top_branch_ascii : forall l, Forall (fun s => forallb is_ascii s = true) l -> top_branch l <> Panics.
Proof.
  induction l as [|s l IH]; intros H; cbn [top_branch]; [discriminate|]. cbv zeta. apply Forall_cons_iff in H. destruct H as [Hs Hl].
  destruct (7 <=? blen (trim s)) eqn:L; [|auto].
  destruct (split_bytes 7 (trim s)) as [[a b]|] eqn:E; [destruct (eq_ic a (lit "branch=")); [discriminate|auto]|].
  exfalso. revert E. apply DialogProofs.split_bytes_total; [|lia]. now apply DialogProofs.trim_forallb.
Qed.
Lemma split_on_forallb : forall f c s, forallb f s = true -> Forall (fun x => forallb f x = true) (split_on c s).
Proof.
  intros f c s; induction s as [|x s IH]; cbn; intros H; [constructor; [reflexivity|constructor]|].
  apply andb_true_iff in H. destruct H as [Hx Hs]. specialize (IH Hs). destruct (x =? c); [constructor; [reflexivity|exact IH]|].
  destruct (split_on c s) as [|y l]; [constructor; [|constructor]; cbn; now rewrite Hx|].
  apply Forall_cons_iff in IH. constructor; [|tauto]. cbn. rewrite Hx. tauto.
Qed.
Lemma add_via_ret : forall q host tr b, validate_header_value (via_value tr host b) = None -> llen (q_headers q) <= 199 -> add_via q host tr b <> Panics.
Proof.
  intros q host tr b V L. unfold add_via, push_via, header_new. change (validate_header_name VIA) with (@None header_error). cbn iota.
  rewrite V. unfold hfrom_vec. rewrite llen_cons. replace (MAX_HEADERS <? 1 + llen (q_headers q)) with false by (unfold MAX_HEADERS; lia). discriminate.
Qed.
Lemma mf_length : forall q q', check_max_forwards q = Some q' -> llen (q_headers q') <= llen (q_headers q) + 1.
Proof.
  intros q q' H. unfold check_max_forwards, decrement_mf in H. destruct (hget MF (q_headers q)) as [v|].
  - destruct (negb _); [discriminate|]. destruct (parse_uint u16_max (trim v)) as [n|]; [|discriminate].
    destruct (255 <? n); [discriminate|]. destruct (n =? 0); [discriminate|].
    destruct (hset_or_push (q_headers q) MF (print_N (n - 1))) as [hs|] eqn:E; [|discriminate]. injection H as <-. cbn [with_headers q_headers].
    apply set_or_push_cases in E. destruct E as [E | [_ ->]].
    + pose proof (set_first_spec MF (print_N (n - 1)) (q_headers q)) as X. rewrite E in X. destruct X as (a & nm & v' & z & E1 & E2).
      destruct E2 as [E2 _]. rewrite E2, E1, !llen_app, !llen_cons. lia.
    + rewrite llen_app, llen_cons, llen_nil. lia.
  - unfold hpush in H. destruct (MAX_HEADERS <=? llen (q_headers q)); [discriminate|].
    destruct (header_new MF (lit "69")); [|discriminate]. injection H as <-. cbn [with_headers q_headers]. rewrite llen_app, llen_cons, llen_nil. lia.
Qed.
(** C96 (partial): starting a fork does not panic on a request with at most 197 header
    lines whose top Via is ASCII, if the Via and Record-Route values the proxy makes
    are valid header values.  Missing: the inputs of the theorems named _refuted. *)
Theorem C96_partial : forall q ts host transport rr m ids,
  llen (q_headers q) <= 197 -> (forall v, hget (lit "Via") (q_headers q) = Some v -> forallb is_ascii v = true) ->
  (forall b, In b ids -> validate_header_value (via_value transport host b) = None) ->
  match rr with Some u => validate_header_value (record_route_value u) = None | None => True end ->
  start_forking q ts host transport rr m ids <> FPanic.
Proof.
  intros q ts host tr rr m ids L A V R. unfold start_forking.
  destruct (MAX_TARGETS_PER_REQUEST <? llen ts); [discriminate|]. destruct (hget (lit "Call-ID") (q_headers q)); [|discriminate].
  assert (top_via_branch q <> Panics) as T.
  { unfold top_via_branch. change VIA with (lit "Via"). destruct (hget (lit "Via") (q_headers q)) as [v|]; [|discriminate].
    apply top_branch_ascii, split_on_forallb, A; reflexivity. }
  destruct (top_via_branch q) as [[x|]|]; [|discriminate|congruence]. clear T x.
  generalize (fork_targets m ts) as l. intros l. revert ids V. generalize (ctx_new q) as c. generalize (@nil (str * req)) as sent.
  induction l as [|t l IH]; intros sent c ids V; cbn; [discriminate|]. destruct ids as [|b ids]; [discriminate|].
  destruct (prepare_forward q (pt_uri t) host tr rr b) as [[q'|]|] eqn:P.
  - destruct (validate_branch_id b); [|discriminate]. destruct (add_branch c b (pt_uri t)); [|discriminate].
    apply IH. intros b' Hb. apply V. now right.
  - exfalso. unfold prepare_forward in P. destruct (check_max_forwards (set_request_uri q (pt_uri t))) as [q1|] eqn:C; [|discriminate].
    apply mf_length in C. cbn [set_request_uri with_uri q_headers] in C.
    pose proof (add_via_ret q1 host tr b (V b (or_introl eq_refl)) ltac:(lia)) as Av.
    destruct (add_via q1 host tr b) as [q2|] eqn:E2; [|congruence]. apply push_via_spec in E2. destruct E2 as (-> & _ & _).
    destruct rr as [u|]; [|discriminate]. injection P as P. unfold add_record_route, hpush in P.
    cbn [with_headers q_headers] in P. rewrite llen_cons in P.
    unfold header_new in P. change (validate_header_name (lit "Record-Route")) with (@None header_error) in P. cbn iota in P. rewrite R in P.
    assert (MAX_HEADERS <=? 1 + llen (q_headers q1) = false) as Lm by (unfold MAX_HEADERS; lia). 
    match type of P with context [MAX_HEADERS <=? ?x] => change x with (1 + llen (q_headers q1)) in P end. rewrite Lm in P. discriminate P.
  - apply IH. intros b' Hb. apply V. now right.
Qed.
Print Assumptions C96_partial.
Example C96_ex : llen (q_headers ex_q) <= 197 /\ forallb is_ascii (lit "SIP/2.0/UDP a.example;branch=z9hG4bKa1") = true
  /\ Forall (fun b => validate_header_value (via_value (lit "UDP") (lit "p") b) = None) ex_ids
  /\ validate_header_value (record_route_value (sip "p")) = None.
Proof. split; [vm_compute; discriminate|]. split; [reflexivity|]. split; [|reflexivity]. repeat constructor. Qed.
(** C96 refuted: a character of two bytes at the sixth place of a Via parameter *)
Theorem C96_via_refuted : exists q, good_headers (q_headers q)
  /\ forall ts host transport rr m ids, llen ts <= 100 -> start_forking q ts host transport rr m ids = FPanic.
Proof.
  exists (mkReq MInvite (SipU bob) [(lit "Via", lit "SIP/2.0/UDP a;abcdef" ++ [233]); (lit "Call-ID", lit "c")] []).
  assert (forall n v, header_new n v = Ok (n, v) -> HeadersProofs.good_header (n, v)) as G by (intros n v H; apply header_new_ok in H; tauto).
  split; [split; [repeat (constructor; [apply G; vm_compute; reflexivity|]); constructor|vm_compute; discriminate]|].
  intros ts host tr rr m ids L. unfold start_forking. replace (MAX_TARGETS_PER_REQUEST <? llen ts) with false by (unfold MAX_TARGETS_PER_REQUEST; lia).
  match goal with |- context [top_via_branch ?q] => let y := eval vm_compute in (top_via_branch q) in change (top_via_branch q) with y end. reflexivity.
Qed.
Print Assumptions C96_via_refuted.
(** C96 refuted: a request with 200 header lines, the most the parser allows *)
Definition full_headers : headers :=
  [(lit "Via", lit "SIP/2.0/UDP a;branch=z9hG4bK1"); (lit "Call-ID", lit "c"); (lit "Max-Forwards", lit "9")] ++ List.repeat (lit "X", lit "y") 197.
Theorem C96_size_refuted : exists q, good_headers (q_headers q)
  /\ forall t host transport rr m b ids, start_forking q [t] host transport rr m (b :: ids) = FPanic.
Proof.
  exists (mkReq MInvite (SipU bob) full_headers []).
  assert (forall n v, header_new n v = Ok (n, v) -> HeadersProofs.good_header (n, v)) as G by (intros n v H; apply header_new_ok in H; tauto).
  split.
  - split; [|vm_compute; discriminate]. cbn [q_headers]. unfold full_headers. apply Forall_app. split.
    + repeat (constructor; [apply G; vm_compute; reflexivity|]). constructor.
    + apply Forall_forall. intros h Hh. apply repeat_spec in Hh. subst h. apply G. vm_compute. reflexivity.
  - intros t host tr rr m b ids. unfold start_forking. cbn [llen length]. change (MAX_TARGETS_PER_REQUEST <? llen [t]) with false. cbn iota.
    change (hget (lit "Call-ID") (q_headers (mkReq MInvite (SipU bob) full_headers []))) with (Some (lit "c")). cbn iota.
    assert (top_via_branch (mkReq MInvite (SipU bob) full_headers []) = Ret (Some (lit "z9hG4bK1"))) as -> by (vm_compute; reflexivity).
    assert (fork_targets m [t] = [t]) as -> by (destruct m; reflexivity). cbn [fork_loop].
    unfold prepare_forward.
    destruct (check_max_forwards (set_request_uri (mkReq MInvite (SipU bob) full_headers []) (pt_uri t))) as [q1|] eqn:C; [|vm_compute in C; discriminate].
    assert (llen (q_headers q1) = 200) as L by (vm_compute in C; injection C as <-; vm_compute; reflexivity).
    unfold add_via, push_via. destruct (header_new VIA (via_value tr host b)); [|reflexivity].
    unfold hfrom_vec. rewrite llen_cons, L. reflexivity.
Qed.
Print Assumptions C96_size_refuted.

(** ** C97 ACK for a 2xx *)
(** C97 refuted: the Request-URI must stay as it is when the next Route entry is a
    loose one; it is replaced by that entry *)
Theorem C97_refuted : exists ack, ack_type ack None = For2xx /\ uri_text (q_uri ack) = lit "sip:bob@b.example"
  /\ hget_all ROUTE (q_headers ack) = [lit "<sip:p2.example;lr>"]
  /\ uri_text (q_uri (prepare_ack ack For2xx)) = lit "sip:p2.example;lr" /\ q_headers (prepare_ack ack For2xx) = [].
Proof.
  exists (mkReq MAck (SipU bob) [(lit "Route", lit "<sip:p2.example;lr>")] []).
  split; [reflexivity|]. split; [reflexivity|]. split; [reflexivity|]. split; vm_compute; reflexivity.
Qed.
Print Assumptions C97_refuted.
Lemma take_route_others : forall hs u hs', take_route hs = Some (u, hs') -> others ROUTE hs' = others ROUTE hs
  /\ exists a v b, hget_all ROUTE hs = a ++ v :: b /\ hget_all ROUTE hs' = a ++ b /\ parse_uri (trim_angles v) = Some u.
Proof.
  induction hs as [|h r IH]; intros u hs' H; cbn [take_route] in H; [discriminate|].
  assert (forall x, take_route r = Some (u, x) -> hs' = h :: x -> others ROUTE hs' = others ROUTE (h :: r)
    /\ exists a v b, hget_all ROUTE (h :: r) = a ++ v :: b /\ hget_all ROUTE hs' = a ++ b /\ parse_uri (trim_angles v) = Some u) as K.
  { intros x E ->. destruct (IH _ _ E) as (A & a & v & b & B1 & B2 & B3). split.
    - unfold others in *. cbn [filter]. destruct (negb (eq_ic (fst h) ROUTE)); now rewrite A.
    - rewrite !hget_all_cons. destruct (eq_ic (fst h) ROUTE); [exists (snd h :: a), v, b|exists a, v, b]; rewrite B1, B2; auto. }
  unfold named in H at 1. destruct (eq_ic (fst h) ROUTE) eqn:N.
  - destruct (parse_uri (trim_angles (snd h))) as [w|] eqn:P.
    + injection H as <- <-. split; [unfold others; cbn [filter]; rewrite N; reflexivity|].
      exists [], (snd h), (hget_all ROUTE r). rewrite hget_all_cons, N. auto.
    + destruct (take_route r) as [[w x]|]; [|discriminate]. injection H as <- <-. now apply (K x).
  - destruct (take_route r) as [[w x]|]; [|discriminate]. injection H as <- <-. now apply (K x).
Qed.
(** C97 (partial): an ACK for a failure response is forwarded unchanged; of an ACK for
    a 2xx only one Route line is removed, and its URI becomes the Request-URI;
    without Route it is unchanged *)
Theorem C97_partial : forall ack k,
  q_method (prepare_ack ack k) = q_method ack /\ q_body (prepare_ack ack k) = q_body ack
  /\ others ROUTE (q_headers (prepare_ack ack k)) = others ROUTE (q_headers ack)
  /\ (prepare_ack ack k = ack \/ (k = For2xx /\ exists a v b u, hget_all ROUTE (q_headers ack) = a ++ v :: b
        /\ hget_all ROUTE (q_headers (prepare_ack ack k)) = a ++ b /\ parse_uri (trim_angles v) = Some u /\ q_uri (prepare_ack ack k) = SipU u)).
Proof.
  intros ack k. unfold prepare_ack. destruct k; [|auto].
  destruct (take_route (q_headers ack)) as [[u hs]|] eqn:E; [|auto].
  destruct (take_route_others _ _ _ E) as (A & a & v & b & B1 & B2 & B3). cbn.
  split; [reflexivity|]. split; [reflexivity|]. split; [exact A|]. right. split; [reflexivity|]. exists a, v, b, u. auto.
Qed.
Print Assumptions C97_partial.
Example C97_ex : prepare_ack (mkReq MAck (SipU bob) [(lit "Route", lit "<sip:p2.example;lr>")] []) Non2xx
   = mkReq MAck (SipU bob) [(lit "Route", lit "<sip:p2.example;lr>")] []
  /\ take_route [(lit "Route", lit "<sip:p2.example>")] = Some (sip "p2.example", []).
Proof. split; vm_compute; reflexivity. Qed.

(** ** C98 Choice of targets *)
Lemma ins_pt_cases : forall t l, exists a b, ins_pt t l = a ++ t :: b /\ l = a ++ b /\ Forall (fun x => pt_before t x = false) a.
Proof.
  intros t l; induction l as [|x l IH]; cbn; [exists [], []; auto|].
  destruct (pt_before t x) eqn:E; [exists [], (x :: l); auto|]. destruct IH as (a & b & E1 & E2 & F).
  exists (x :: a), b. cbn. rewrite E1. subst l. auto.
Qed.
Lemma pt_trans : forall a b c, pt_before a b = true -> pt_before b c = true -> pt_before a c = true.
Proof. intros a b c; unfold pt_before; intros; lia. Qed.
Lemma sort_pt_hd : forall l t r, sort_pt l = t :: r -> exists a b, l = a ++ t :: b
  /\ Forall (fun x => pt_before x t = false) a /\ Forall (fun x => pt_before t x = true) b.
Proof.
  induction l as [|x l IH]; intros t r H; [discriminate|]. cbn in H. change (fold_right ins_pt [] l) with (sort_pt l) in H.
  destruct (sort_pt l) as [|y s] eqn:E.
  - cbn in H. injection H as <- <-. exists [], l. split; [reflexivity|]. split; [constructor|].
    destruct l as [|z l]; [constructor|]. exfalso. cbn in E. destruct (ins_pt_cases z (fold_right ins_pt [] l)) as (a & b & Ei & _). rewrite Ei in E. destruct a; discriminate.
  - cbn in H. destruct (IH y s eq_refl) as (a & b & -> & Fa & Fb). destruct (pt_before x y) eqn:B.
    + injection H as <- <-. exists [], (a ++ y :: b). split; [reflexivity|]. split; [constructor|].
      apply Forall_app. split; [|constructor; [exact B|]].
      * eapply Forall_impl; [|exact Fa]. intros z Hz. cbn in Hz. apply (pt_trans x y z B). unfold pt_before in *. lia.
      * eapply Forall_impl; [|exact Fb]. intros z Hz. exact (pt_trans x y z B Hz).
    + injection H as <- <-. exists (x :: a), b. split; [reflexivity|]. split; [|exact Fb]. constructor; [exact B|exact Fa].
Qed.
Definition better (a b : ptarget) : Prop := pt_prio a < pt_prio b \/ (pt_prio a = pt_prio b /\ (pt_q b < pt_q a)%Z).
Definition no_worse (a b : ptarget) : Prop := ~ better b a.
(** C98: in sequential mode one request is sent at most, to the target with the lowest
    priority number, among those with the highest q, the first among equals *)
Theorem C98_sequential : forall q ts host transport rr ids c sent,
  start_forking q ts host transport rr FSequential ids = FStarted c sent ->
  (length sent <= 1)%nat /\ forall b q', In (b, q') sent -> exists before t after, ts = before ++ t :: after
    /\ q_uri q' = SipU (pt_uri t) /\ (forall x, In x before -> better t x) /\ (forall x, In x after -> no_worse t x).
Proof.
  intros q ts host tr rr ids c sent H. apply started_loop in H. destruct H as (_ & _ & H). cbn [fork_targets] in H.
  destruct (sort_pt ts) as [|t r] eqn:E; cbn [firstn] in H.
  - cbn in H. injection H as <- <-. split; [cbn; lia|intros b q' []].
  - destruct (sort_pt_hd _ _ _ E) as (a & z & Et & Fa & Fz). destruct ids as [|b ids]; cbn [fork_loop] in H; [injection H as <- <-; split; [cbn; lia|intros ? ? []]|].
    destruct (prepare_forward q (pt_uri t) host tr rr b) as [[q1|]|] eqn:P; [|discriminate|injection H as <- <-; split; [cbn; lia|intros ? ? []]].
    destruct (validate_branch_id b); [|discriminate]. destruct (add_branch (ctx_new q) b (pt_uri t)); [|discriminate H].
    injection H as <- <-. split; [cbn; lia|]. intros b' q' [X|[]]. injection X as <- <-. exists a, t, z. split; [exact Et|].
    split; [destruct (prepare_forward_spec _ _ _ _ _ _ _ P) as (? & ? & _ & _ & _ & _ & U & _); exact U|]. rewrite Forall_forall in Fa, Fz. split.
    + intros x Hx. specialize (Fa x Hx). unfold better, pt_before in *. lia.
    + intros x Hx. specialize (Fz x Hx). unfold no_worse, better, pt_before in *. lia.
Qed.
Print Assumptions C98_sequential.
Lemma fork_all : forall q host tr rr ts ids c sent c' sent', length ids = length ts ->
  (llen (cx_branches c) = llen sent) -> (forall b, In b ids -> ~ In b (keys (cx_branches c))) -> NoDup ids ->
  fork_loop q host tr rr ids ts c sent = FStarted c' sent' ->
  llen (cx_branches c') = llen sent'
  /\ (llen sent <= 50 -> llen sent' <= 50)
  /\ ((sent' = sent /\ check_max_forwards q = None) \/ ts = [] /\ sent' = sent \/
      exists new, sent' = sent ++ new /\ map fst new = ids /\ map (fun x => q_uri (snd x)) new = map (fun t => SipU (pt_uri t)) ts).
Proof.
  assert (MfU : forall q t, check_max_forwards (set_request_uri q t) = None -> check_max_forwards q = None).
  { intros q t. unfold check_max_forwards, set_request_uri. cbn [with_uri q_headers]. now destruct (decrement_mf (q_headers q)) as [[? ?]|]. }
  intros q host tr rr ts; induction ts as [|t ts IH]; intros ids c sent c' sent' Le Lc Fr Nd H.
  - cbn in H. injection H as <- <-. split; [exact Lc|]. split; [auto|]. right. left. auto.
  - destruct ids as [|b ids]; [discriminate|]. cbn in H. cbn in Le. injection Le as Le. apply NoDup_cons_iff in Nd. destruct Nd as [Nb Nd].
    destruct (prepare_forward q (pt_uri t) host tr rr b) as [[q1|]|] eqn:P; [|discriminate|].
    + destruct (validate_branch_id b); [|discriminate]. destruct (add_branch c b (pt_uri t)) as [c1|] eqn:A; [|discriminate].
      unfold add_branch, add_insert in A. destruct (add_check c); [|discriminate].
      destruct (MAX_BRANCHES_PER_CONTEXT <=? llen (cx_branches c)) eqn:Mx; [discriminate|]. injection A as <-.
      unfold MAX_BRANCHES_PER_CONTEXT in Mx.
      assert (remove_key str_eqb b (cx_branches c) = cx_branches c) as Rm.
      { apply (remove_key_notin _ str_eqb_spec). apply Fr. now left. }
      match type of H with fork_loop _ _ _ _ _ _ ?c1 ?s1 = _ => set (c2 := c1) in H; set (s2 := s1) in H end.
      assert (llen (cx_branches c2) = llen s2) as Lc2.
      { unfold c2, s2. cbn [cx_branches set_count set_branches]. unfold insert. rewrite Rm, llen_cons, llen_app, llen_cons, llen_nil. lia. }
      assert (forall x, In x ids -> ~ In x (keys (cx_branches c2))) as Fr2.
      { unfold c2. cbn [cx_branches set_count set_branches]. unfold insert. rewrite Rm. intros x Hx. cbn [keys map fst]. intros [E|E].
        - subst x. auto.
        - apply (Fr x); [now right|exact E]. }
      destruct (IH ids c2 s2 c' sent' Le Lc2 Fr2 Nd H) as (L' & B & K). unfold s2 in *.
        split; [exact L'|]. split; [intros _; apply B; rewrite llen_app, llen_cons, llen_nil; lia|].
        right. right. destruct (prepare_forward_spec _ _ _ _ _ _ _ P) as (x & _ & Cx & _ & _ & _ & U & _).
        destruct K as [(_ & K) | [(-> & ->) | (new & -> & K1 & K2)]].
        -- exfalso. assert (check_max_forwards (with_uri q (SipU (pt_uri t))) = None) as X; [|congruence].
           unfold check_max_forwards in *. cbn [with_uri q_headers]. destruct (decrement_mf (q_headers q)) as [[? ?]|]; [discriminate|reflexivity].
        -- exists [(b, q1)]. destruct ids; [|discriminate]. cbn. rewrite U. auto.
        -- exists ((b, q1) :: new). rewrite <- app_assoc. cbn. rewrite K1, K2, U. auto.
    + destruct (IH ids c sent c' sent' Le Lc (fun x Hx => Fr x (or_intror Hx)) Nd H) as (L' & B & K).
      assert (check_max_forwards q = None) as Cn.
      { apply (MfU q (pt_uri t)). unfold prepare_forward in P. destruct (check_max_forwards (set_request_uri q (pt_uri t))); [discriminate|reflexivity]. }
      split; [exact L'|]. split; [exact B|]. left. split; [|exact Cn].
      destruct K as [(-> & _) | [(_ & ->) | (new & -> & K1 & K2)]]; try reflexivity.
      destruct new as [|[nb nq] new]; [now rewrite app_nil_r|]. exfalso. clear - H Cn MfU.
      assert (forall ts ids c sent c' sent', fork_loop q host tr rr ids ts c sent = FStarted c' sent' -> sent' = sent) as Z.
      { clear - Cn. induction ts as [|t ts IH]; intros ids c sent c' sent' H; cbn in H; [now injection H as <- <-|].
        destruct ids as [|b ids]; [now injection H as <- <-|].
        assert (prepare_forward q (pt_uri t) host tr rr b = None) as E.
        { unfold prepare_forward, check_max_forwards, set_request_uri in *. cbn [with_uri q_headers]. destruct (decrement_mf (q_headers q)) as [[? ?]|]; [discriminate|reflexivity]. }
        rewrite E in H. exact (IH _ _ _ _ _ H). }
      apply Z in H. rewrite <- app_nil_r in H. apply app_inv_head in H. discriminate.
Qed.
(** C98 (partial): in parallel mode, with one fresh branch id per target, either every
    target gets one request, in the order given, or the request had no hops left and
    none does.  Missing: 51 to 100 targets (see [C98_parallel_refuted]). *)
Theorem C98_parallel_partial : forall q ts host transport rr ids c sent, length ids = length ts -> NoDup ids ->
  start_forking q ts host transport rr FParallel ids = FStarted c sent ->
  (check_max_forwards q = None /\ sent = [])
  \/ (map fst sent = ids /\ map (fun x => q_uri (snd x)) sent = map (fun t => SipU (pt_uri t)) ts).
Proof.
  intros q ts host tr rr ids c sent Le Nd H. apply started_loop in H. destruct H as (_ & _ & H). cbn [fork_targets] in H.
  destruct (fork_all _ _ _ _ _ _ (ctx_new q) [] _ _ Le eq_refl (fun _ _ X => X) Nd H) as (_ & _ & [(-> & C) | [(-> & ->) | (new & -> & K1 & K2)]]).
  - left. auto.
  - right. destruct ids; [auto|discriminate].
  - right. auto.
Qed.
Print Assumptions C98_parallel_partial.
(** C98 refuted: up to 100 targets are accepted, but with more than 50 forking in
    parallel fails, whatever the request and the targets *)
Theorem C98_parallel_refuted : forall q ts host transport rr ids, length ids = length ts -> NoDup ids ->
  50 < llen ts -> check_max_forwards q <> None ->
  forall c sent, start_forking q ts host transport rr FParallel ids <> FStarted c sent.
Proof.
  intros q ts host tr rr ids Le Nd L Mf c sent H. apply started_loop in H. destruct H as (_ & _ & H). cbn [fork_targets] in H.
  destruct (fork_all _ _ _ _ _ _ (ctx_new q) [] _ _ Le eq_refl (fun _ _ X => X) Nd H) as (_ & B & [(-> & C) | [(-> & _) | (new & -> & K1 & _)]]).
  - congruence.
  - cbn in L. lia.
  - specialize (B ltac:(cbn; lia)). cbn [app] in B. unfold llen in *. rewrite <- Le, <- K1, map_length in L. lia.
Qed.
Print Assumptions C98_parallel_refuted.
Example C98_ex : map (fun x => q_uri (snd x)) (snd (started (ex_start FSequential))) = [SipU (sip "z")]
  /\ map (fun x => q_uri (snd x)) (snd (started (ex_start FParallel))) = [SipU (sip "x"); SipU (sip "y"); SipU (sip "z")]
  /\ check_max_forwards ex_q <> None /\ NoDup ex_ids.
Proof.
  split; [vm_compute; reflexivity|]. split; [vm_compute; reflexivity|]. split; [vm_compute; discriminate|].
  repeat (constructor; [cbn; intros H; repeat (destruct H as [H|H]; [vm_compute in H; discriminate|]); destruct H|]). constructor.
Qed.

(** ** More about C95-C98: what the parts do on every input *)
(** C95: the Via line of a CANCEL carries the branch asked for, whatever was there *)
Theorem C95_branch : forall b v, mem 59 b = false ->
  In (lit "branch=" ++ b) (split_on 59 (rebranch b v)).
Proof.
  intros b v Hb. unfold rebranch. change (lit ";") with [59].
  assert (Forall (fun p => mem 59 p = false) (map trim (split_on 59 v))) as F.
  { apply Forall_forall. intros p Hp. apply in_map_iff in Hp. destruct Hp as (x & <- & Hx).
    apply split_on_nomem_parts in Hx. destruct (trim_by_sub is_ws x) as (a & c & E & _).
    unfold trim. rewrite E in Hx. rewrite !mem_app in Hx. apply orb_false_iff in Hx. destruct Hx as [_ Hx].
    apply orb_false_iff in Hx. apply Hx. }
  assert (mem 59 (lit "branch=" ++ b) = false) as Fb by (rewrite mem_app, Hb; reflexivity).
  generalize dependent (map trim (split_on 59 v)). intros parts F.
  assert (forall ps p, Forall (fun p => mem 59 p = false) ps -> set_branch b ps = Some p ->
    p <> [] /\ Forall (fun p => mem 59 p = false) p /\ In (lit "branch=" ++ b) p) as K.
  { induction ps as [|x r IH]; intros p Fp H; cbn [set_branch] in H; [discriminate|]. inversion Fp; subst.
    destruct (starts_with _ _).
    - injection H as <-. split; [discriminate|]. split; [now constructor|now left].
    - destruct (set_branch b r) as [r'|] eqn:E; [|discriminate]. injection H as <-.
      destruct (IH _ H3 eq_refl) as (_ & A & B). split; [discriminate|]. split; [now constructor|now right]. }
  destruct (set_branch b parts) as [p|] eqn:E.
  - destruct (K _ _ F E) as (A & B & C). rewrite split_on_join; auto.
  - rewrite split_on_join.
    + apply in_or_app. right. now left.
    + destruct parts; discriminate.
    + apply Forall_app. split; [exact F|]. constructor; [exact Fb|constructor].
Qed.
Print Assumptions C95_branch.

(** C97: which ACKs count as answering a 2xx: as the caller says, and otherwise
    exactly those with a Route line *)
Theorem C97_kind : forall ack,
  ack_type ack (Some true) = For2xx /\ ack_type ack (Some false) = Non2xx
  /\ (ack_type ack None = For2xx <-> exists n v, In (n, v) (q_headers ack) /\ eq_ic n (lit "Route") = true).
Proof.
  intro ack. split; [reflexivity|]. split; [reflexivity|]. unfold ack_type. destruct (existsb (named ROUTE) (q_headers ack)) eqn:E.
  - split; [|reflexivity]. intros _. apply existsb_exists in E. destruct E as ((n & v) & Hi & Hn). exists n, v. split; [exact Hi|exact Hn].
  - split; [discriminate|]. intros (n & v & Hi & Hn). enough (existsb (named ROUTE) (q_headers ack) = true) by congruence.
    apply existsb_exists. exists (n, v). split; [exact Hi|exact Hn].
Qed.
Print Assumptions C97_kind.
(** C97: the next hop is the first Route entry if there is one, else the Request-URI *)
Theorem C97_next_hop : forall q,
  (forall before n after s u, q_headers q = before ++ (n, lit "<" ++ s ++ lit ">") :: after -> eq_ic n (lit "Route") = true ->
     (forall h, In h before -> eq_ic (fst h) (lit "Route") = false) ->
     mem 60 s = false -> mem 62 s = false -> parse_uri s = Some u -> next_hop q = Some u)
  /\ ((forall h, In h (q_headers q) -> eq_ic (fst h) (lit "Route") = false) ->
      forall u, q_uri q = SipU u -> next_hop q = Some u).
Proof.
  intro q. split.
  - intros a n b s u E Hn Ha H1 H2 P. unfold next_hop.
    assert (hget ROUTE (q_headers q) = Some (lit "<" ++ s ++ lit ">")) as ->.
    { apply hget_some. exists a, n, b. auto. }
    assert (trim_angles (lit "<" ++ s ++ lit ">") = s) as ->; [|exact P].
    set (p := fun c => (c =? 60) || (c =? 62)).
    assert (no_edge p s) as Ne.
    { apply no_edge_all. apply forallb_forall. intros c Hc. unfold p. destruct (c =? 60) eqn:X.
      - apply N.eqb_eq in X. subst c. apply mem_In in Hc. congruence.
      - destruct (c =? 62) eqn:Y; [|reflexivity]. apply N.eqb_eq in Y. subst c. apply mem_In in Hc. congruence. }
    unfold trim_angles. fold p. unfold trim_by, trim_start_by. change (lit "<" ++ s ++ lit ">") with (60 :: s ++ [62]).
    cbn [drop_while]. change (p 60) with true. cbn iota. destruct Ne as [N1 N2].
    assert (s <> []) as Sn by (intros ->; vm_compute in P; discriminate).
    rewrite drop_while_id by (destruct s; [congruence|exact N1]).
    rewrite trim_end_by_rev, rev_app_distr. cbn [rev app drop_while]. change (p 62) with true. cbn iota.
    rewrite drop_while_id by exact N2. apply rev_involutive.
  - intros H u E. unfold next_hop. destruct (hget ROUTE (q_headers q)) as [v|] eqn:G.
    + apply hget_some in G. destruct G as (a & n & b & E' & Hn & _). assert (eq_ic n (lit "Route") = false) as Hf.
      { apply (H (n, v)). rewrite E'. apply in_or_app. right. now left. }
      unfold ROUTE in Hn. congruence.
    + now rewrite E.
Qed.
Print Assumptions C97_next_hop.
Example C97_next_hop_ex : next_hop (mkReq MAck (SipU (sip "b.example")) [(lit "route", lit "<sip:p2.example;lr>")] [])
  = parse_uri (lit "sip:p2.example;lr") /\ parse_uri (lit "sip:p2.example;lr") <> None.
Proof. split; [vm_compute; reflexivity|vm_compute; discriminate]. Qed.

(** C96: a fork starts only for a request whose top Via line has, as its first branch
    parameter, a branch of the RFC 3261 form *)
Definition is_branch (p b : str) : Prop := exists a, trim p = a ++ b /\ eq_ic a (lit "branch=") = true.
Definition rfc_form (b : str) : Prop :=
  8 <= blen b <= 256 /\ (exists r, b = lit "z9hG4bK" ++ r)
  /\ forall c, In c b -> is_alnum c = true \/ In c (lit "-.!%*_+`'~").
Lemma split_bytes_parts : forall s n a b, split_bytes n s = Some (a, b) -> s = a ++ b.
Proof.
  induction s as [|c s IH]; intros n a b H; cbn [split_bytes] in H.
  - destruct (n =? 0); [|discriminate]. now injection H as <- <-.
  - destruct (n =? 0); [now injection H as <- <-|]. destruct (_ <=? _); [|discriminate].
    destruct (split_bytes _ s) as [[x y]|] eqn:E; [|discriminate]. injection H as <- <-. cbn. f_equal. eauto.
Qed.
Lemma valid_branch_form : forall b, valid_branch b = true -> rfc_form b.
Proof.
  intros b H. unfold valid_branch in H. apply andb_true_iff in H. destruct H as [H C].
  apply andb_true_iff in H. destruct H as [H _]. apply andb_true_iff in H. destruct H as [H P].
  apply andb_true_iff in H. destruct H as [H1 H2]. split; [lia|]. split.
  - apply starts_with_spec in P. exact P.
  - intros c Hc. rewrite forallb_forall in C. specialize (C c Hc). unfold uri_token_char in C.
    apply orb_true_iff in C. destruct C as [C|C]; [now left|right]. now apply mem_In.
Qed.
Lemma is_branch_spec : forall x z, is_branch x z -> 7 <= blen (trim x) /\ forall a w, split_bytes 7 (trim x) = Some (a, w) -> eq_ic a (lit "branch=") = true.
Proof.
  intros x z (a & T & A). assert (forallb is_ascii a = true /\ llen a = 7) as [Aa Al].
  { apply eq_ic_spec in A. split.
    - apply forallb_forall. intros k Hk. assert (In (lower_c k) (lower a)) as Hl by (apply in_map; exact Hk). rewrite A in Hl.
      assert (lower_c k < 128) as Lk.
      { cbn in Hl. repeat (destruct Hl as [Hl|Hl]; [rewrite <- Hl; vm_compute; reflexivity|]). destruct Hl. }
      unfold is_ascii. unfold lower_c in Lk. destruct (is_upper k) eqn:U; [|lia].
      unfold is_upper, in_range in U. lia.
    - apply (f_equal (@List.length N)) in A. unfold lower in A. rewrite !map_length in A. unfold llen. rewrite A. reflexivity. }
  rewrite T. split.
  - rewrite blen_app. assert (blen a = 7) by (rewrite <- Al; apply NumFacts.blen_ascii; exact Aa). lia.
  - intros a' w S. rewrite <- Al in S. rewrite DialogProofs.split_bytes_ascii in S by exact Aa. injection S as <- <-. exact A.
Qed.
Theorem C96_branch : forall q ts host transport rr m ids c sent,
  start_forking q ts host transport rr m ids = FStarted c sent ->
  exists v before p after b, hget (lit "Via") (q_headers q) = Some v /\ split_on 59 v = before ++ p :: after
    /\ is_branch p b /\ rfc_form b /\ forall x y, In x before -> ~ is_branch x y.
Proof.
  intros q ts host tr rr m ids c sent H. unfold start_forking in H.
  destruct (_ <? _); [discriminate|]. destruct (hget (lit "Call-ID") (q_headers q)); [|discriminate].
  destruct (top_via_branch q) as [[b|]|] eqn:E; [|discriminate|discriminate]. clear H.
  unfold top_via_branch in E. destruct (hget VIA (q_headers q)) as [v|] eqn:G; [|discriminate].
  exists v. change (lit "Via") with VIA. rewrite G. 
  generalize dependent (split_on 59 v). intros parts E.
  enough (exists before p after b, parts = before ++ p :: after /\ is_branch p b /\ rfc_form b /\ (forall x y, In x before -> ~ is_branch x y)) as K.
  { destruct K as (x1 & x2 & x3 & x4 & K). exists x1, x2, x3, x4. split; [reflexivity|exact K]. }
  clear G v. induction parts as [|p r IH]; cbn [top_branch] in E; [discriminate|].
  assert (forall q, q = r -> (forall b, ~ is_branch p b) -> top_branch r = Ret (Some b) ->
    exists before p0 after b0, p :: r = before ++ p0 :: after /\ is_branch p0 b0 /\ rfc_form b0
      /\ (forall x y, In x before -> ~ is_branch x y)) as K.
  { intros _ _ Np Er. destruct (IH Er) as (a & p0 & z & b0 & -> & B1 & B2 & B3). exists (p :: a), p0, z, b0.
    split; [reflexivity|]. split; [exact B1|]. split; [exact B2|]. intros x y [<-|Hx]; [apply Np|now apply B3]. }
  cbv zeta in E. destruct (7 <=? blen (trim p)) eqn:L.
  - destruct (split_bytes 7 (trim p)) as [[a w]|] eqn:S; [|discriminate].
    destruct (eq_ic a (lit "branch=")) eqn:Q.
    + destruct (valid_branch w) eqn:V; [|discriminate]. exists [], p, r, w. split; [reflexivity|].
      split; [exists a; split; [eapply split_bytes_parts; exact S|exact Q]|]. split; [now apply valid_branch_form|intros x y []].
    + apply (K r eq_refl); [|exact E]. intros z Hz. destruct (is_branch_spec _ _ Hz) as [_ Z]. specialize (Z _ _ S). congruence.
  - apply (K r eq_refl); [|exact E]. intros z Hz. destruct (is_branch_spec _ _ Hz) as [Z _]. lia.
Qed.
Print Assumptions C96_branch.

(** C98: every branch of a started fork has an id of at most 128 bytes without
    control characters *)
Theorem C98_ids : forall q ts host transport rr m ids c sent,
  start_forking q ts host transport rr m ids = FStarted c sent ->
  forall b q', In (b, q') sent -> In b ids /\ blen b <= 128 /\ forall ch, In ch b -> 32 <= ch /\ (ch < 127 \/ 160 <= ch).
Proof.
  intros q ts host tr rr m ids c sent H. apply started_loop in H. destruct H as (_ & _ & H).
  assert (forall us is c0 s0, fork_loop q host tr rr is us c0 s0 = FStarted c sent ->
    (forall b, In b is -> In b ids) ->
    (forall b q', In (b, q') s0 -> In b ids /\ blen b <= 128 /\ forall ch, In ch b -> 32 <= ch /\ (ch < 127 \/ 160 <= ch)) ->
    forall b q', In (b, q') sent -> In b ids /\ blen b <= 128 /\ forall ch, In ch b -> 32 <= ch /\ (ch < 127 \/ 160 <= ch)) as K.
  { induction us as [|t us IH]; intros is c0 s0 F I0 S0; cbn [fork_loop] in F.
    - injection F as <- <-. exact S0.
    - destruct is as [|i is]; [injection F as <- <-; exact S0|].
      assert (forall b, In b is -> In b ids) as I1 by (intros b Hb; apply I0; now right).
      destruct (prepare_forward _ _ _ _ _ _) as [[q1|]|]; [|discriminate|now apply (IH is c0 s0)].
      destruct (validate_branch_id i) eqn:V; [|discriminate]. destruct (add_branch _ _ _) as [c1|]; [|discriminate].
      apply (IH is c1 (s0 ++ [(i, q1)]) F I1). intros b q' Hb. apply in_app_or in Hb. destruct Hb as [Hb|[Hb|[]]]; [now apply (S0 b q')|].
      injection Hb as <- <-. split; [apply I0; now left|]. unfold validate_branch_id, MAX_BRANCH_ID_LENGTH in V.
      apply andb_true_iff in V. destruct V as [V1 V2]. split; [lia|]. intros ch Hc. apply negb_true_iff in V2.
      rewrite existsb_false in V2. rewrite forallb_forall in V2. specialize (V2 ch Hc). apply negb_true_iff in V2. unfold is_control, in_range in V2. lia. }
  intros b q' Hb. eapply (K _ _ _ _ H); [auto|intros ? ? []|exact Hb].
Qed.
Print Assumptions C98_ids.

(** C44: the swap happens exactly when the top Route entry is readable and carries no
    "lr", neither in its URI nor behind the closing bracket *)
Definition loose (r : name_addr) : Prop :=
  (exists k v, In (k, v) (na_ps r) /\ eq_ic k (lit "lr") = true)
  \/ exists u v, na_uri r = ASip u /\ bget (lit "lr") (u_params u) = Some v.
Theorem C44_when : forall q, fst (strict_swap q) = true <->
  exists before n v after r, q_headers q = before ++ (n, v) :: after /\ eq_ic n (lit "Route") = true
    /\ (forall h, In h before -> eq_ic (fst h) (lit "Route") = false)
    /\ route_parse (trim v) = Some r /\ ~ loose r.
Proof.
  intro q. assert (forall r, route_has_lr r = true <-> loose r) as HL.
  { intro r. unfold route_has_lr, loose. rewrite orb_true_iff, existsb_exists. split.
    - intros [((k & v) & Hi & He) | H]; [left; eauto|right]. destruct (na_uri r) as [u| |]; try discriminate.
      destruct (bget (lit "lr") (u_params u)) as [v|] eqn:E; [|discriminate]. eauto.
    - intros [(k & v & Hi & He) | (u & v & E & B)]; [left; exists (k, v); auto|right]. now rewrite E, B. }
  unfold strict_swap. split.
  - destruct (find (named ROUTE) (q_headers q)) as [[n v]|] eqn:F; [|discriminate].
    assert (hget ROUTE (q_headers q) = Some v) as G by (unfold hget, name_eq; unfold named in F; rewrite F; reflexivity).
    apply hget_some in G. destruct G as (a & n' & b & E & Hn & Ha). cbn [snd].
    destruct (route_parse (trim v)) as [r|] eqn:P; [|discriminate]. destruct (route_has_lr r) eqn:L; [discriminate|]. intros _.
    exists a, n', v, b, r. split; [exact E|]. split; [exact Hn|]. split; [exact Ha|]. split; [exact P|].
    rewrite <- HL. congruence.
  - intros (a & n & v & b & r & E & Hn & Ha & P & L).
    assert (find (named ROUTE) (q_headers q) = Some (n, v)) as ->.
    { rewrite E. apply find_skip; [|exact Hn]. apply Forall_forall. exact Ha. }
    cbn [snd]. rewrite P. destruct (route_has_lr r) eqn:X; [|reflexivity]. exfalso. now apply L, HL.
Qed.
Print Assumptions C44_when.
Example C44_when_ex : exists r1 r2, route_parse (lit "<sip:p1.example>;lr") = Some r1 /\ loose r1
  /\ route_parse (lit "<sip:p1.example>") = Some r2 /\ ~ loose r2.
Proof.
  do 2 eexists. split; [vm_compute; reflexivity|]. split; [left; exists (lit "lr"), None; split; [now left|vm_compute; reflexivity]|].
  split; [vm_compute; reflexivity|]. intros [(k & v & [] & _) | (u & v & E & B)]. injection E as <-. vm_compute in B. discriminate.
Qed.

(** C44: the other routine for requests addressed to one of the proxy's own URIs: the
    last Route line becomes the Request-URI and is taken away, and nothing else
    changes; a request addressed elsewhere is not touched *)
Theorem C44_preprocess : forall q ours ru, q_uri q = SipU ru ->
  ((forall u, In u ours -> u_raw u <> u_raw ru) -> process_route_set q ours = Some (q, None))
  /\ (forall o before n v after u, In o ours -> u_raw o = u_raw ru -> q_headers q = before ++ (n, v) :: after ->
        eq_ic n (lit "Route") = true -> (forall h, In h after -> eq_ic (fst h) (lit "Route") = false) ->
        parse_uri (trim_angles v) = Some u ->
        process_route_set q ours = Some (mkReq (q_method q) (SipU u) (before ++ after) (q_body q), Some u)).
Proof.
  intros q ours ru E. unfold process_route_set. rewrite E. split.
  - intro H. replace (existsb _ ours) with false; [reflexivity|]. symmetry. apply not_true_is_false. intro X.
    apply existsb_exists in X. destruct X as (u & Hu & Q). apply str_eqb_spec in Q. now apply (H u).
  - intros o a n v b u Ho Eo Eh Hn Ha P. replace (existsb _ ours) with true.
    + destruct (remove_last_split ROUTE a (n, v) b) as [F R]; [now apply Forall_forall|exact Hn|].
      assert (find (named ROUTE) (rev (q_headers q)) = Some (n, v)) as -> by (rewrite Eh; exact F).
      assert (remove_last ROUTE (q_headers q) = a ++ b) as -> by (rewrite Eh; exact R).
      cbn [snd]. now rewrite P.
    + symmetry. apply existsb_exists. exists o. split; [exact Ho|]. rewrite Eo. apply str_eqb_refl.
Qed.
Print Assumptions C44_preprocess.

(** C98: without forking at most one copy is sent, to the first target *)
Theorem C98_none : forall q ts host transport rr ids c sent,
  start_forking q ts host transport rr FNone ids = FStarted c sent ->
  sent = [] \/ exists b q' t r, sent = [(b, q')] /\ ts = t :: r /\ q_uri q' = SipU (pt_uri t).
Proof.
  intros q ts host tr rr ids c sent H. apply started_loop in H. destruct H as (_ & _ & H). cbn [fork_targets] in H.
  destruct ts as [|t r]; cbn [firstn] in H; [injection H as <- <-; now left|].
  destruct ids as [|b ids]; cbn [fork_loop] in H; [injection H as <- <-; now left|].
  destruct (prepare_forward q (pt_uri t) host tr rr b) as [[q1|]|] eqn:P; [|discriminate|injection H as <- <-; now left].
  destruct (validate_branch_id b); [|discriminate]. destruct (add_branch (ctx_new q) b (pt_uri t)); [|discriminate H].
  injection H as <- <-. right. exists b, q1, t, r. split; [reflexivity|]. split; [reflexivity|].
  destruct (prepare_forward_spec _ _ _ _ _ _ _ P) as (? & ? & _ & _ & _ & _ & U & _). exact U.
Qed.
Print Assumptions C98_none.
