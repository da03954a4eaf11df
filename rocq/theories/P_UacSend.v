(** Properties C127 to C134: what the integrated client sends. *)
From Coq Require Import Arith NArith Bool String List Lia ZifyBool ZifyN ZifyNat.
Import ListNotations.
From Verif Require Import Base BaseFacts NumFacts Headers HeadersProofs Method Text TextFacts Uri Msg Message AnyUri Dialog Auth AuthProofs P_Auth Uac UacSend UacSpec UacProofs UacReads UacRegister UacAuth P_Uac P_UacAuth UacSendProofs.
Open Scope N_scope.
Open Scope list_scope.

(** ** C127: a request inside a dialog is numbered and routed by the dialog *)
Theorem C127_prepared : forall d q d' q' hop, UacSend.prepare d q = (d', Ret (q', hop)) ->
  d' = mkD (d_id d) (d_state d) (d_target d) (d_routes d) (N.min 4294967295 (d_lcseq d + 1)) (d_rcseq d) (d_ack d) (d_luri d) (d_ruri d) (d_secure d) (d_expires d) (d_refresher d) (d_uac d)
  /\ q_method q' = q_method q /\ q_body q' = q_body q
  /\ once q' "CSeq" (print_N (N.min 4294967295 (d_lcseq d + 1)) ++ lit " " ++ method_str (q_method q))
  /\ (forall n, eq_ic (lit "CSeq") n = false -> eq_ic (lit "Route") n = false -> hget_all n (q_headers q') = hget_all n (q_headers q))
  /\ exists uri, q_uri q' = SipU uri /\ routed (d_target d) (d_routes d) uri (hget_all (lit "Route") (q_headers q')) hop.
Proof. exact prepare_inv. Qed.
Print Assumptions C127_prepared.
(** the numbers of the requests sent in a dialog, one after the other *)
Fixpoint prepare_all (d : dialog) (qs : list req) : dialog * list (outcome (req * sip_uri)) :=
  match qs with
  | [] => (d, [])
  | q :: r => let '(d1, o) := UacSend.prepare d q in let '(d2, os) := prepare_all d1 r in (d2, o :: os)
  end.
Theorem C127_numbered : forall qs d i q hop, d_lcseq d + llen qs <= 4294967295 -> nth_error (snd (prepare_all d qs)) i = Some (Ret (q, hop)) ->
  once q "CSeq" (print_N (d_lcseq d + 1 + N.of_nat i) ++ lit " " ++ method_str (q_method q)).
Proof.
  induction qs as [|x qs IH]; intros d i q hop L H; [destruct i; discriminate|]. rewrite llen_cons in L. cbn [prepare_all] in H. destruct (UacSend.prepare d x) as [d1 o] eqn:E. destruct (prepare_all d1 qs) as [d2 os] eqn:Ea. cbn [snd] in H.
  destruct i as [|i]; cbn [nth_error] in H.
  - injection H as ->. apply prepare_inv in E as (_ & M & _ & C & _). rewrite M. replace (d_lcseq d + 1 + N.of_nat 0) with (N.min 4294967295 (d_lcseq d + 1)) by lia. exact C.
  - assert (D : d_lcseq d1 = d_lcseq d + 1). { unfold UacSend.prepare, next_local_cseq, u32_max in E. destruct (routing d) as [[a b] c]. apply pair_equal_spec in E as [<- _]. unfold set_lcseq. cbn [d_lcseq]. lia. }
    specialize (IH d1 i q hop). rewrite Ea in IH. cbn [snd] in IH. replace (d_lcseq d + 1 + N.of_nat (S i)) with (d_lcseq d1 + 1 + N.of_nat i) by lia. apply IH; [lia|exact H].
Qed.
Print Assumptions C127_numbered.
(** a loose and a strict route *)
Definition loose_route : sip_uri := at_uri "sip:p1.example;lr".
Definition strict_route : sip_uri := at_uri "sip:p2.example".
Definition via_proxies (rs : list sip_uri) : dialog :=
  mkD (mkId (lit "c9@localhost") (lit "lt") (lit "rt")) Confirmed robert_here rs 1 0 None alice robert false None None true.
Definition bye1 : req := match snd (perform client1 fresh1 (CBye dialog1)) with Ret (Some q) => q | _ => mkReq MBye (SipU robert) [] [] end.
Example C127_example : exists q1 q2 q3 d1 d2 d3,
  UacSend.prepare (via_proxies [loose_route; strict_route]) bye1 = (d1, Ret (q1, loose_route)) /\ q_uri q1 = SipU robert_here
  /\ UacSend.prepare (via_proxies [strict_route; loose_route]) bye1 = (d2, Ret (q2, strict_route)) /\ q_uri q2 = SipU strict_route
  /\ UacSend.prepare (via_proxies []) bye1 = (d3, Ret (q3, robert_here)).
Proof. do 6 eexists. split; [vm_compute; reflexivity|]. split; [reflexivity|]. split; [vm_compute; reflexivity|]. split; [reflexivity|]. vm_compute. reflexivity. Qed.

(** ** C128: ACK *)
Theorem C128_error : forall u f invite rs q, ack_error u f invite rs = Ret q ->
  acknowledges (ua_agent u) invite rs None q /\ q_uri q = q_uri invite
  /\ hget_all (lit "Route") (q_headers q) = hget_all (lit "Route") (q_headers invite)
  /\ (hget_all (lit "Via") (q_headers invite) <> [] -> copies "Via" (q_headers invite) q).
Proof. exact ack_error_good. Qed.
Print Assumptions C128_error.
Theorem C128_ok : forall u f f2 d invite rs sdp q, ack_ok u f f2 d invite rs sdp = Ret q ->
  acknowledges (ua_agent u) invite rs sdp q
  /\ (exists uri hop, q_uri q = SipU uri /\ routed (d_target d) (d_routes d) uri (hget_all (lit "Route") (q_headers q)) hop)
  /\ (forall base before b0 after vs, hget_all (lit "Via") (q_headers invite) = via_with base before b0 after :: vs ->
        trim base = base -> ~ In 59 base -> piece (lit "branch=" ++ b0) -> Forall piece (before ++ after) ->
        (forall p, In p (before ++ after) -> is_branch p = false) ->
        once q "Via" (via_with base before (lit "z9hG4bK" ++ fr_branch f2) after)).
Proof.
  intros u f f2 d invite rs sdp q H. destruct (ack_ok_good u f f2 d invite rs sdp q H) as (A & B & C). split; [exact A|]. split; [exact B|].
  intros base before b0 after vs E T1 T2 (_ & T3 & T4) P Nb. specialize (C _ _ E). apply Forall_app in P as [P1 P2]. rewrite branch_swapped in C; try assumption. intros X. apply T4. apply in_or_app. now right.
Qed.
Print Assumptions C128_ok.
Definition answer_to (invite : req) (code : N) : resp :=
  mkResp code (lit "OK") (map (fun n => (lit n, match hget (lit n) (q_headers invite) with Some v => v | None => [] end)) ["Via"; "From"; "Call-ID"; "CSeq"]%string
    ++ [(lit "To", lit "<sip:robert@b.example>;tag=rt")]) [].
Example C128_example : exists q1 q2, ack_error client1 fresh2 invite1 (answer_to invite1 486) = Ret q1
  /\ ack_ok client1 fresh2 fresh2 (via_proxies [loose_route]) invite1 (answer_to invite1 200) (Some (lit "v=0")) = Ret q2.
Proof. do 2 eexists. split; vm_compute; reflexivity. Qed.
(** the credentials of the INVITE are not repeated in the ACK of a 2xx
    (RFC 3261 13.2.2.4 and 22.1 ask for them) *)
Theorem C128_credentials_refuted : exists u f f2 d invite rs q v, ack_ok u f f2 d invite rs None = Ret q
  /\ once invite "Authorization" v /\ never q "Authorization".
Proof.
  exists client1, fresh2, fresh2, dialog1, (answered ex_client fresh2 invite1 (refusal (snd (challenge ex_auth (lit "n1") 10 false)))), (answer_to invite1 200).
  do 2 eexists. split; [vm_compute; reflexivity|]. split; [vm_compute; reflexivity|]. vm_compute. reflexivity.
Qed.
Print Assumptions C128_credentials_refuted.

(** ** C129: CANCEL *)
Theorem C129_cancel : forall invite q, cancel_of invite = Ret q -> spelled ["Via"; "From"; "To"; "Call-ID"; "Route"; "CSeq"]%string (q_headers invite) ->
  method_str (q_method q) = lit "CANCEL" /\ q_uri q = q_uri invite /\ q_body q = []
  /\ (forall k, In k ["Via"; "From"; "To"; "Call-ID"; "Route"]%string -> hget_all (lit k) (q_headers q) = hget_all (lit k) (q_headers invite))
  /\ (forall n m, once invite "CSeq" (print_N n ++ lit " " ++ m) -> once q "CSeq" (print_N n ++ lit " CANCEL"))
  /\ once q "Max-Forwards" (lit "70") /\ once q "Content-Length" (lit "0")
  /\ (forall n v, In (n, v) (q_headers q) -> In n (map lit ["Via"; "From"; "To"; "Call-ID"; "Route"; "CSeq"; "Max-Forwards"; "Content-Length"]%string)).
Proof.
  intros invite q H Sp. apply cancel_inv in H. subst q. unfold once. cbn [q_method q_uri q_headers q_body].
  assert (N : forall n, existsb (fun k => eq_ic (lit k) n) ["Via"; "From"; "To"; "Call-ID"; "Route"; "CSeq"]%string = false -> hget_all n (cancel_lines (q_headers invite)) = []).
  { intros n Hn. pose proof (cancel_names (q_headers invite)) as C. induction (cancel_lines (q_headers invite)) as [|[a v] l IH]; [reflexivity|]. rewrite get_no.
    - apply IH. intros x y Hx. apply (C x y). now right.
    - specialize (C a v (or_introl eq_refl)). cbn [existsb] in Hn. repeat (apply orb_false_elim in Hn as [? Hn]). cbn [map In] in C. intuition (subst a; assumption). }
  split; [reflexivity|]. split; [reflexivity|]. split; [reflexivity|]. split; [|split; [|split; [|split]]].
  - intros k Hk. unfold max_forwards, zero_length, ln. rewrite get_all_app, cancel_get; [|exact Hk|intros a b c Ha Hc; apply (Sp a b c Ha); cbn [In] in *; tauto].
    rewrite !get_no by (cbn [In] in Hk; intuition (subst k; reflexivity)). apply app_nil_r.
  - intros n m Hc. unfold max_forwards, zero_length, ln. rewrite get_all_app, !get_no by reflexivity. rewrite get_all_nil, app_nil_r. apply (cancel_cseq (q_headers invite) m); [|exact Hc]. intros a b c Ha Hk. apply (Sp a b c Ha). cbn [In] in *. tauto.
  - rewrite get_all_app, N by reflexivity. unfold max_forwards, zero_length, ln. repeat read_step. reflexivity.
  - rewrite get_all_app, N by reflexivity. unfold max_forwards, zero_length, ln. repeat read_step. reflexivity.
  - intros n v Hn. apply in_app_or in Hn as [Hn|Hn]; [apply cancel_names in Hn; cbn [map In] in *; tauto|]. unfold max_forwards, zero_length, ln in Hn. cbn [map In] in *. intuition congruence.
Qed.
Print Assumptions C129_cancel.
Example C129_example : spelled ["Via"; "From"; "To"; "Call-ID"; "Route"; "CSeq"]%string (q_headers invite1) /\ exists q, cancel_of invite1 = Ret q.
Proof.
  split; [|eexists; vm_compute; reflexivity]. intros n v k Hn Hk E. cbn in Hn. cbn [In] in Hk.
  repeat (destruct Hn as [[= <- <-]|Hn]; [repeat (destruct Hk as [<-|Hk]; [vm_compute in E; (discriminate E || reflexivity)|]); destruct Hk|]). destruct Hn.
Qed.

(** ** C130: nobody who shares a dialog uses a number twice *)
Theorem C130_unique : forall c0 tag l, Forall quiet l -> c0 + llen l <= 4294967295 ->
  NoDup (w_wire (acts (mkWorld (mkShared c0 tag) [] []) l)) /\ forall n, In n (w_wire (acts (mkWorld (mkShared c0 tag) [] []) l)) -> c0 < n.
Proof.
  intros c0 tag l Q L. assert (I : world_inv c0 (acts (mkWorld (mkShared c0 tag) [] []) l)).
  { apply world_run; [exact Q| |exact L]. unfold world_inv. cbn. split; [lia|]. split; [constructor|]. split; [constructor|]. split; intros ? ? || intros ? ? ?; contradiction. }
  destruct I as (_ & _ & I3 & I4 & _). split; [revert I3; clear; induction (pending _) as [|x l0 IH]; intros D; [exact D|inversion D; auto]|]. intros n Hn. assert (X := I4 n (in_or_app _ _ _ (or_intror Hn))). lia.
Qed.
Print Assumptions C130_unique.
(** two refreshes and the owner's requests, interleaved *)
Example C130_example : w_wire (acts (mkWorld (mkShared 7 0) [] []) [AReserve 1; AOwnerSend; AReserve 2; ARefreshSend 2; ARefreshSend 1; AOwnerSend; ACommit 1 5; ACommit 2 6; AOwnerSend]) = [12; 11; 8; 10; 9].
Proof. vm_compute. reflexivity. Qed.
(** a challenged refresh and a repeated BYE do use numbers twice *)
Theorem C130_challenged_refuted : ~ NoDup (w_wire (acts (mkWorld (mkShared 7 0) [] []) [AReserve 1; ARefreshSend 1; AChallenged 1; ACommit 1 0; AOwnerSend])).
Proof. intros H. vm_compute in H. inversion H as [|? ? N _]. apply N. now left. Qed.
Print Assumptions C130_challenged_refuted.
Theorem C130_bye_refuted : ~ NoDup (w_wire (acts (mkWorld (mkShared 7 0) [] []) [AOwnerBye; AOwnerSend])).
Proof. intros H. vm_compute in H. inversion H as [|? ? N _]. apply N. now left. Qed.
Print Assumptions C130_bye_refuted.

(** ** C131: when session refreshes stop *)
Theorem C131_timer : forall mx l i s, mx <= 4294967295 -> nth_error (timer_run mx 0 l) i = Some s ->
  (exists t, nth_error l i = Some t /\ s = match t with
     | RefreshOk => Healthy | RefreshFailed true => Stopped_gone
     | RefreshFailed false => let k := failures (rev (firstn (S i) l)) in if N.max 1 mx <=? k then Stopped_exhausted k else Failing k end)
  /\ (stopped s = true -> nth_error (timer_run mx 0 l) (S i) = None)
  /\ (stopped s = false -> (S i < List.length l)%nat -> nth_error (timer_run mx 0 l) (S i) <> None).
Proof.
  intros mx l i s Hm H. destruct (timer_good mx l 0 [] Hm eq_refl ltac:(lia) i s H) as ((t & T1 & T2) & J). split; [|exact J]. exists t. split; [exact T1|]. rewrite app_nil_r in T2. exact T2.
Qed.
Print Assumptions C131_timer.
Theorem C131_starts : forall mx t l, timer_run mx 0 (t :: l) <> [].
Proof. intros mx [|[]] l; cbn [timer_run]; cbv zeta; try discriminate. match goal with |- context [if ?b then _ else _] => destruct b end; discriminate. Qed.
Print Assumptions C131_starts.
Example C131_example : timer_run 3 0 [RefreshFailed false; RefreshFailed false; RefreshOk; RefreshFailed false; RefreshFailed false; RefreshFailed false; RefreshOk]
  = [Failing 1; Failing 2; Healthy; Failing 1; Failing 2; Stopped_exhausted 3].
Proof. vm_compute. reflexivity. Qed.

(** ** C132: how often a challenged request is repeated *)
Theorem C132_invite : forall on mx rs, invite_sends on mx rs = 1 + (if on then N.min mx (challenges rs) else 0).
Proof. intros [] mx rs; unfold invite_sends; [rewrite retries_eq|]; lia. Qed.
Print Assumptions C132_invite.
Theorem C132_other_partial : forall on mx rs, non_invite_sends on mx rs = 1 + (if on then N.min (N.max 1 mx) (challenges rs) else 0).
Proof.
  intros on mx [|c rs]; unfold non_invite_sends; [destruct on; cbn [challenges]; lia|]. cbn [challenges]. unfold challenged. destruct on; [rewrite andb_true_r|rewrite andb_false_r; lia].
  destruct ((c =? 401) || (c =? 407)); [rewrite retries_eq|]; lia.
Qed.
Print Assumptions C132_other_partial.
(** with a limit of no retries at all, there still is one *)
Theorem C132_zero_refuted : exists rs, non_invite_sends true 0 rs > 1 + 0.
Proof. exists [401; 200]. vm_compute. reflexivity. Qed.
Print Assumptions C132_zero_refuted.
Example C132_example : invite_sends true 2 [401; 407; 401; 401] = 3 /\ invite_sends true 2 [401; 200] = 2 /\ invite_sends false 2 [401] = 1.
Proof. repeat split. Qed.

(** ** C133: requests follow the Service-Route learned at registration *)
Theorem C133_routes : forall old rs q q' groups, p_code rs = 200 ->
  hget_all (lit "Service-Route") (p_headers rs) = map (fun g => listed (map bracketed g)) groups ->
  Forall (fun g => g <> [] /\ Forall proxy_uri g) groups -> groups <> [] -> llen (concat groups) <= 50 ->
  apply_service_route (stored_routes old rs) q = Ret q' ->
  q_method q' = q_method q /\ q_uri q' = q_uri q /\ q_body q' = q_body q
  /\ hget_all (lit "Route") (q_headers q') = map bracketed (concat groups) ++ hget_all (lit "Route") (q_headers q)
  /\ forall n, eq_ic (lit "Route") n = false -> hget_all n (q_headers q') = hget_all n (q_headers q).
Proof.
  intros old rs q q' groups Hc Hs F Hn Hl H. unfold stored_routes, parse_service_route in H. rewrite Hc in H. cbn [N.eqb Pos.eqb negb] in H. rewrite Hs, values_read in H by assumption.
  assert (L : MAX_ROUTES <? llen (map as_entry (concat groups)) = false) by (unfold llen in *; rewrite map_length; unfold MAX_ROUTES; lia). rewrite L in H.
  assert (X : map as_entry (concat groups) <> []). { destruct groups as [|g gs]; [easy|]. inversion F as [|? ? [G _] _]; subst. destruct g; [easy|]. discriminate. }
  destruct (map as_entry (concat groups)) as [|e es] eqn:Ee; [easy|]. apply apply_inv in H. rewrite <- Ee, map_map in H. exact H.
Qed.
Print Assumptions C133_routes.
(** a registration that names no route clears them, one that fails keeps them *)
Theorem C133_cleared : forall old rs, (p_code rs = 200 -> hget_all (lit "Service-Route") (p_headers rs) = [] -> stored_routes old rs = None)
  /\ (p_code rs <> 200 -> stored_routes old rs = old) /\ forall q, apply_service_route None q = Ret q.
Proof.
  intros old rs. split; [|split; [|reflexivity]].
  - intros Hc Hs. unfold stored_routes, parse_service_route. rewrite Hc, Hs. reflexivity.
  - intros Hc. unfold stored_routes. apply N.eqb_neq in Hc. now rewrite Hc.
Qed.
Print Assumptions C133_cleared.
Definition registered_ok : resp := mkResp 200 (lit "OK") [(lit "Service-Route", lit "<sip:p1.example;lr>, <sip:p2.example>"); (lit "Service-Route", lit "<sip:p1.example;lr>")] [].
Example C133_example : Forall (fun g => g <> [] /\ Forall proxy_uri g) [[loose_route; strict_route]; [loose_route]]
  /\ hget_all (lit "Service-Route") (p_headers registered_ok) = map (fun g => listed (map bracketed g)) [[loose_route; strict_route]; [loose_route]]
  /\ exists q, apply_service_route (stored_routes None registered_ok) invite1 = Ret q.
Proof.
  assert (P : proxy_uri loose_route /\ proxy_uri strict_route).
  { split; (split; [|split; [reflexivity|intros X; vm_compute in X; repeat (destruct X as [X|X]; [discriminate X|]); exact X]]); (split; [vm_compute; reflexivity|]);
      intros c X; vm_compute in X; repeat (destruct X as [<-|X]; [repeat split; discriminate|]); destruct X. }
  destruct P as [P1 P2]. split; [constructor; [split; [discriminate|]|constructor; [split; [discriminate|]|]]; auto|]. split; [vm_compute; reflexivity|]. eexists. vm_compute. reflexivity.
Qed.

(** ** C134: filling in the local address keeps the transaction *)
Theorem C134_via : forall f transport addr q pre b post, once q "Via" (pre ++ lit "branch=" ++ b ++ post) ->
  ~ In 61 pre -> branch_token b -> (post = [] \/ exists p, post = 59 :: p) -> ~ In 61 post ->
  plain_text 64 transport -> plain_text 128 addr -> plain_text 256 b ->
  let q' := fill_via f transport addr q in
  once q' "Via" (lit "SIP/2.0/" ++ transport ++ lit " " ++ addr ++ lit ";branch=" ++ b ++ lit ";rport")
  /\ q_method q' = q_method q /\ q_uri q' = q_uri q /\ q_body q' = q_body q
  /\ forall n, eq_ic (lit "Via") n = false -> hget_all n (q_headers q') = hget_all n (q_headers q).
Proof.
  intros f transport addr q pre b post Hv H1 H2 H3 H4 P1 P2 P3 q'. subst q'. unfold fill_via. rewrite (get_head _ _ _ _ Hv). rewrite branch_found by assumption. cbv zeta.
  destruct (set_once "Via" (lit "SIP/2.0/" ++ transport ++ lit " " ++ addr ++ lit ";branch=" ++ b ++ lit ";rport") q _ Hv) as (hs & S1 & S2 & S3); [reflexivity| |].
  - apply clean_value.
    + rewrite !blen_app. destruct P1 as [P1 _], P2 as [P2 _], P3 as [P3 _]. change (blen (lit "SIP/2.0/")) with 8. change (blen (lit " ")) with 1. change (blen (lit ";branch=")) with 8. change (blen (lit ";rport")) with 6. lia.
    + rewrite !clean_app. apply plain_clean in P1, P2, P3. destruct P1 as [_ ->], P2 as [_ ->], P3 as [_ ->]. reflexivity.
  - rewrite S1. unfold once. cbn [q_method q_uri q_body q_headers]. repeat split; assumption.
Qed.
Print Assumptions C134_via.
(** the user and the parameters of the Contact stay, its address becomes ours *)
Theorem C134_contact_partial : forall addr q user host ps,
  once q "Contact" (lit "<sip:" ++ user ++ lit "@" ++ host ++ lit ">" ++ ps) ->
  user <> [] -> ~ In 64 user -> ~ In 62 user -> ~ In 62 host -> (ps = [] \/ exists p, ps = 59 :: p) ->
  plain_text 2048 user -> plain_text 128 addr -> plain_text 2048 ps ->
  once (fill_contact addr q) "Contact" (lit "<sip:" ++ user ++ lit "@" ++ addr ++ lit ">" ++ ps).
Proof.
  intros addr q user host ps Hc Hn H64 H62 Hh Hp P1 P2 P3. unfold fill_contact. rewrite (get_head _ _ _ _ Hc).
  assert (E : filled_contact addr (lit "<sip:" ++ user ++ lit "@" ++ host ++ lit ">" ++ ps) = Some (lit "<sip:" ++ user ++ lit "@" ++ addr ++ lit ">" ++ ps)).
  { unfold filled_contact. assert (F : find_sub (lit "sip:") (lit "<sip:" ++ user ++ lit "@" ++ host ++ lit ">" ++ ps) = Some (lit "<", user ++ lit "@" ++ host ++ lit ">" ++ ps)) by reflexivity. rewrite F.
    change (user ++ lit "@" ++ host ++ lit ">" ++ ps) with (user ++ 64 :: (host ++ lit ">" ++ ps)). rewrite split_once_app by now apply mem_false. cbv zeta.
    set (a := lit "<sip:" ++ user ++ 64 :: host). assert (Ha : ~ In 62 a). { unfold a. rewrite !in_app_iff. cbn [In]. intros [X|[X|[X|X]]]; try contradiction; try discriminate X. cbn in X. repeat (destruct X as [X|X]; [discriminate X|]). exact X. }
    assert (Ea : lit "<sip:" ++ user ++ 64 :: (host ++ lit ">" ++ ps) = a ++ lit ">" ++ ps) by (unfold a; rewrite <- !app_assoc; reflexivity). rewrite Ea. destruct user as [|u0 user]; [easy|]. destruct Hp as [-> | (p & ->)].
    - rewrite app_nil_r, find_close_none by exact Ha. now rewrite !app_nil_r.
    - change (lit ">" ++ 59 :: p) with (lit ">;" ++ p). rewrite find_close by exact Ha. rewrite <- !app_assoc. reflexivity. }
  rewrite E. destruct (set_once "Contact" (lit "<sip:" ++ user ++ lit "@" ++ addr ++ lit ">" ++ ps) q _ Hc) as (hs & S1 & S2 & _); [reflexivity| |].
  - apply clean_value.
    + rewrite !blen_app. destruct P1 as [P1 _], P2 as [P2 _], P3 as [P3 _]. change (blen (lit "<sip:")) with 5. change (blen (lit "@")) with 1. change (blen (lit ">")) with 1. lia.
    + rewrite !clean_app. apply plain_clean in P1, P2, P3. destruct P1 as [_ ->], P2 as [_ ->], P3 as [_ ->]. reflexivity.
  - rewrite S1. unfold once. exact S2.
Qed.
Print Assumptions C134_contact_partial.
(** the parameters of the URI itself are lost: a client reachable over TCP
    registers an address for UDP *)
Theorem C134_contact_refuted : exists addr q, once q "Contact" (lit "<sip:alice@192.0.2.7:5060;transport=tcp>") /\ once (fill_contact addr q) "Contact" (lit "<sip:alice@198.51.100.4:5060>").
Proof. exists (lit "198.51.100.4:5060"), (mkReq MRegister (SipU alice) [(lit "Contact", lit "<sip:alice@192.0.2.7:5060;transport=tcp>")] []). split; vm_compute; reflexivity. Qed.
Print Assumptions C134_contact_refuted.
Example C134_example : once invite1 "Via" (lit "SIP/2.0/UDP placeholder;" ++ lit "branch=" ++ lit "z9hG4bKb1" ++ []) /\ branch_token (lit "z9hG4bKb1")
  /\ once invite1 "Contact" (lit "<sip:" ++ lit "alice" ++ lit "@" ++ lit "192.0.2.7:5060" ++ lit ">" ++ []).
Proof.
  split; [vm_compute; reflexivity|]. split; [|vm_compute; reflexivity]. split; [discriminate|]. intros c H. cbn in H. repeat (destruct H as [<-|H]; [repeat split; discriminate|]). destruct H.
Qed.

(** ** C123, continued: the number used by an answered challenge is used again by
    the next REGISTER *)
Theorem C123_answered_refuted : exists u f1 f2 f3 r rs u1 u2 q1 q2 q3 cl v,
  perform u f1 (CRegister r 60) = (u1, Ret (Some q1)) /\ answer toy ex_client f2 (lit "c0") q1 rs = (cl, Ret (Some q2))
  /\ perform u1 f3 (CRegister r 60) = (u2, Ret (Some q3)) /\ once q2 "CSeq" v /\ once q3 "CSeq" v
  /\ hget_all (lit "Call-ID") (q_headers q2) = hget_all (lit "Call-ID") (q_headers q3).
Proof.
  exists client1, fresh1, fresh2, fresh2, robert, (refusal (snd (challenge ex_auth (lit "n1") 10 false))). do 7 eexists.
  split; [vm_compute; reflexivity|]. split; [vm_compute; reflexivity|]. split; [vm_compute; reflexivity|]. split; [vm_compute; reflexivity|]. split; vm_compute; reflexivity.
Qed.
Print Assumptions C123_answered_refuted.
