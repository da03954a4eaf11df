(** Property theorems for dialogs (C21-C27, C80, C81). *)
From Coq Require Import Arith NArith Bool String List Lia ZifyBool ZifyN ZifyNat Sorted.
Import ListNotations.
From Verif Require Import Base BaseFacts Headers Method Text TextFacts Uri UriProofs Msg Dialog DialogSpec DialogProofs.
Open Scope N_scope.
Open Scope list_scope.

(** ** C21: the CSeq numbers of accepted requests.  Over any history of a
    dialog the numbers of the requests other than ACK that it accepts strictly
    increase, each is between 1 and 2^31-1, and each is at most 1000 above the
    one before. *)
Theorem C21_increasing : forall d ops,
  StronglySorted N.lt (accepted d ops)
  /\ (d_rcseq d <> 0 -> Forall (fun n => d_rcseq d < n) (accepted d ops))
  /\ Forall (fun n => 1 <= n <= 2147483647) (accepted d ops)
  /\ forall l1 a b l2, accepted d ops = l1 ++ a :: b :: l2 -> b <= a + 1000.
Proof.
  intros d ops. pose proof (accepted_chain ops d) as H. revert H. generalize (accepted d ops) (d_rcseq d). clear d ops.
  assert (G : forall l p, chain p l -> StronglySorted N.lt l /\ Forall (fun n => 1 <= n <= 2147483647) l
              /\ forall l1 a b l2, l = l1 ++ a :: b :: l2 -> b <= a + 1000).
  { induction l as [|n l IH]; intros p H; [repeat split; try constructor; intros [|? ?]; discriminate|]. cbn [chain] in H.
    destruct H as (Hn & M & J & H). destruct (IH n H) as (A & B & C). unfold MAX_CSEQ_VALUE in M. repeat split.
    - constructor; [assumption|]. now apply chain_gt.
    - constructor; [lia|assumption].
    - intros l1 a b l2 E. destruct l1 as [|x l1].
      + cbn in E. injection E as <- E. subst l. cbn [chain] in H. unfold MAX_CSEQ_JUMP in H. lia.
      + cbn in E. injection E as _ E. now apply (C l1 a b l2). }
  intros l p H. destruct (G l p H) as (A & B & C). split; [assumption|]. split; [|split; assumption].
  intros Hp. now apply chain_gt.
Qed.
Print Assumptions C21_increasing.
(** And requests that continue the sequence are accepted: a request other than
    ACK whose number is above the last accepted one by at most 1000 and within
    range is accepted, whatever else it carries. *)
Theorem C21_accepts : forall d r n, ~ is_ack r -> parse_cseq_number (q_headers r) = Some n ->
  1 <= n <= 2147483647 -> (d_rcseq d = 0 \/ d_rcseq d < n <= d_rcseq d + 1000) ->
  exists d', update_from_request d r = (d', None) /\ d_rcseq d' = n.
Proof.
  intros d r n A P R J. unfold update_from_request. rewrite P. replace (n =? 0) with false by lia.
  unfold is_ack in A. destruct (str_eqb _ _) eqn:X; [apply str_eqb_spec in X; contradiction|].
  unfold validate_cseq, MAX_CSEQ_VALUE. replace (n =? 0) with false by lia. replace (2147483647 <? n) with false by lia.
  assert (E : (if 0 <? d_rcseq d then match validate_cseq_increment (d_rcseq d) n with Some e => Err e | None => Ok (set_rcseq d n) end
               else Ok (set_rcseq d n)) = Ok (set_rcseq d n)).
  { destruct (0 <? d_rcseq d) eqn:Z; [|reflexivity]. unfold validate_cseq_increment, MAX_CSEQ_JUMP.
    replace (n <=? d_rcseq d) with false by lia. replace (1000 <? n - d_rcseq d) with false by lia. reflexivity. }
  rewrite E. eexists. split; [reflexivity|]. destruct (extract_contact _); reflexivity.
Qed.
Print Assumptions C21_accepts.

(** A concrete dialog for the examples: alice calls bob through two proxies. *)
Definition u_of (s : str) : sip_uri := match parse_uri s with Some u => u | None => mkUri [] false None [] None [] [] end.
Definition ex_a : sip_uri := u_of (lit "sip:alice@a.example").
Definition ex_b : sip_uri := u_of (lit "sip:bob@b.example").
Definition ex_p1 : sip_uri := u_of (lit "sip:p1.example;lr").
Definition ex_p2 : sip_uri := u_of (lit "sip:p2.example;lr").
Definition ex_rr : list (list sip_uri) := [[ex_p2; ex_p1]].
Definition ex_hdr (from to : str) (cseq : str) (extra : headers) : headers :=
  [(lit "Call-ID", lit "c1@h"); (lit "From", from); (lit "To", to); (lit "CSeq", cseq)] ++ extra.
Definition ex_from : str := lit "<sip:alice@a.example>;tag=aa".
Definition ex_to : str := lit "<sip:bob@b.example;x=1>;tag=bb".
Definition ex_inv : req := mkReq MInvite (SipU ex_b)
  (ex_hdr ex_from (lit "<sip:bob@b.example>") (lit "1 INVITE") [(lit "Record-Route", route_value [ex_p2; ex_p1]); (lit "Contact", lit "<sip:alice@1.2.3.4>")]) [].
Definition ex_rsp (code : N) : resp := mkResp code (lit "x")
  (ex_hdr ex_from ex_to (lit "1 INVITE") [(lit "Record-Route", route_value [ex_p2; ex_p1]); (lit "Contact", lit "<sip:bob@5.6.7.8>")]) [].
Definition ex_d0 : dialog := mkD (mkId [] [] []) Terminated ex_a [] 0 0 None ex_a ex_a false None None true.
Definition ex_of (o : outcome (option dialog)) : dialog := match o with Ret (Some d) => d | _ => ex_d0 end.
Definition ex_uac : dialog := ex_of (new_uac ex_inv (ex_rsp 180) ex_a ex_b).
Definition ex_uas : dialog := ex_of (new_uas ex_inv (ex_rsp 180) ex_b ex_a).
Definition ex_req (m : method) (cseq : str) : req := mkReq m (SipU ex_b) (ex_hdr ex_from ex_to cseq []) [].
Example C21_example :
  accepted ex_uas [ORequest (ex_req MBye (lit "2 BYE")); ORequest (ex_req MInfo (lit "2 INFO"));
                   ORequest (ex_req MAck (lit "2 ACK")); ORequest (ex_req MInfo (lit "9 INFO"));
                   ORequest (ex_req MInfo (lit "2000 INFO"))] = [2; 9]
  /\ d_rcseq ex_uas = 1.
Proof. split; vm_compute; reflexivity. Qed.

(** ** C22: a rejected operation changes nothing *)
Theorem C22_unchanged : forall d,
  (forall r e, snd (update_from_request d r) = Some e -> fst (update_from_request d r) = d)
  /\ (forall x e, snd (set_session_expires d x) = Some e -> fst (set_session_expires d x) = d)
  /\ (forall m e, snd (dm_insert m d) = Some e -> fst (dm_insert m d) = m).
Proof.
  intros d. split; [apply ufr_error|]. split.
  - intros x e. unfold set_session_expires. destruct (validate_session_expires x); cbn; [reflexivity|discriminate].
  - intros m e. unfold dm_insert, dm_insert_seen. destruct (_ <=? _); [reflexivity|]. destruct (_ && _); [reflexivity|discriminate].
Qed.
Print Assumptions C22_unchanged.
Example C22_example : exists r e, snd (update_from_request ex_uas r) = Some e /\ extract_contact (q_headers r) <> None.
Proof.
  exists (mkReq MInfo (SipU ex_b) (ex_hdr ex_from ex_to (lit "1 INFO") [(lit "Contact", lit "<sip:evil@6.6.6.6>")]) []), EInvalidCSeq.
  split; [vm_compute; reflexivity|]. vm_compute. discriminate.
Qed.

(** ** C23: identity and route set *)
Theorem C23_identity : forall d ops, let d' := dlg_run d ops in
  d_id d' = d_id d /\ d_luri d' = d_luri d /\ d_ruri d' = d_ruri d /\ d_uac d' = d_uac d /\ d_secure d' = d_secure d.
Proof. intros d ops. apply run_frame. Qed.
Print Assumptions C23_identity.
(** once a dialog has left the early state nothing changes its route set *)
Theorem C23_routes_fixed : forall d ops, d_state d <> Early -> d_routes (dlg_run d ops) = d_routes d.
Proof. intros d ops H. now apply run_routes. Qed.
Print Assumptions C23_routes_fixed.
(** and in the early state only a 2xx response does, which also confirms the
    dialog; the new set is the one that response carries, reversed *)
Theorem C23_routes_early : forall d o, d_routes (dlg_step d o) <> d_routes d ->
  exists r, o = OResponse r /\ 200 <= p_code r < 300 /\ d_state d = Early /\ d_state (dlg_step d o) = Confirmed
    /\ forall uss, hget_all (lit "Record-Route") (p_headers r) = map route_value uss -> Forall (Forall clean_route) uss ->
       Forall (fun u => dlg_validate_uri u = None) (concat uss) -> llen (concat uss) <= 50 ->
       d_routes (dlg_step d o) = rev (concat uss).
Proof.
  intros d o H. destruct (step_routes d o) as [E|(r & E & S & C & S' & B)]; [contradiction|].
  exists r. repeat (split; [assumption|]). intros uss G Cl V L.
  rewrite (build_route_values _ uss true G Cl V L) in B. congruence.
Qed.
Print Assumptions C23_routes_early.
(** The route set of a new dialog: the caller's is the Record-Route list of the
    response backwards, the callee's is that of the request in order; the routes
    may be spread over several header lines. *)
Theorem C23_route_order : forall rq rs luri ruri d uss,
  Forall (Forall clean_route) uss -> Forall (fun u => dlg_validate_uri u = None) (concat uss) -> llen (concat uss) <= 50 ->
  (new_uac rq rs luri ruri = Ret (Some d) -> hget_all (lit "Record-Route") (p_headers rs) = map route_value uss -> d_routes d = rev (concat uss))
  /\ (new_uas rq rs luri ruri = Ret (Some d) -> hget_all (lit "Record-Route") (q_headers rq) = map route_value uss -> d_routes d = concat uss).
Proof.
  assert (M : forall uac id rq rs luri ruri d, dlg_make uac id rq rs luri ruri = Some d ->
            build_route_set (if uac then p_headers rs else q_headers rq) uac = Ok (d_routes d)).
  { intros uac id rq rs luri ruri d H. unfold dlg_make in H. destruct (state_of_code _); [|discriminate].
    destruct (negb _); [discriminate|]. destruct (build_route_set _ _) as [routes|]; [|discriminate].
    destruct (is_some (validate_route_set routes)); [discriminate|]. destruct (parse_cseq_number _); [|discriminate].
    destruct (is_some _); [discriminate|]. match type of H with (if ?b then _ else _) = _ => destruct b end; [discriminate|].
    injection H as <-. reflexivity. }
  intros rq rs luri ruri d uss C V L. split; intros H G.
  - unfold new_uac in H. destruct (id_from_response_uac rs) as [[id|]|]; try discriminate. injection H as H. apply M in H.
    rewrite (build_route_values _ uss true G C V L) in H. congruence.
  - unfold new_uas in H. destruct (id_from_response_uas rs) as [[id|]|]; try discriminate. injection H as H. apply M in H.
    rewrite (build_route_values _ uss false G C V L) in H. congruence.
Qed.
Print Assumptions C23_route_order.
Example C23_example :
  new_uac ex_inv (ex_rsp 180) ex_a ex_b = Ret (Some ex_uac) /\ new_uas ex_inv (ex_rsp 180) ex_b ex_a = Ret (Some ex_uas)
  /\ Forall (Forall clean_route) ex_rr /\ Forall (fun u => dlg_validate_uri u = None) (concat ex_rr)
  /\ hget_all (lit "Record-Route") (p_headers (ex_rsp 180)) = map route_value ex_rr
  /\ hget_all (lit "Record-Route") (q_headers ex_inv) = map route_value ex_rr
  /\ d_routes ex_uac = [ex_p1; ex_p2] /\ d_routes ex_uas = [ex_p2; ex_p1] /\ d_state ex_uac = Early
  /\ d_state (dlg_run ex_uac [OResponse (ex_rsp 200)]) = Confirmed.
Proof.
  split; [vm_compute; reflexivity|]. split; [vm_compute; reflexivity|].
  assert (Cl : clean_route ex_p1 /\ clean_route ex_p2).
  { unfold clean_route. repeat split; try (vm_compute; reflexivity); apply mem_false; vm_compute; reflexivity. }
  destruct Cl as [C1 C2].
  split; [unfold ex_rr; auto|].
  split; [repeat constructor|]. repeat (split; [vm_compute; reflexivity|]). vm_compute; reflexivity.
Qed.

(** ** C24: terminated dialogs stay terminated *)
Theorem C24_terminated : forall d ops1 ops2,
  d_state (dlg_run d ops1) = Terminated -> d_state (dlg_run d (ops1 ++ ops2)) = Terminated.
Proof. intros d ops1 ops2 H. unfold dlg_run in *. rewrite fold_left_app. now apply run_terminated. Qed.
Print Assumptions C24_terminated.
(** the state moves only forward: early, confirmed, terminated *)
Theorem C24_forward : forall d ops,
  match d_state d, d_state (dlg_run d ops) with
  | Confirmed, Early | Terminated, Early | Terminated, Confirmed => False
  | _, _ => True
  end.
Proof.
  intros d ops. destruct (d_state d) eqn:S; [exact I| |].
  - assert (H : d_state d <> Early) by congruence. destruct (run_routes ops d H) as [_ X]. destruct (d_state (dlg_run d ops)); auto.
  - now rewrite (run_terminated ops d S).
Qed.
Print Assumptions C24_forward.
Example C24_example : d_state (dlg_run ex_uac [OTerminate; OResponse (ex_rsp 200); OConfirm; ONext]) = Terminated
  /\ d_state ex_uac = Early.
Proof. split; vm_compute; reflexivity. Qed.

(** ** C25: the table.  For any number of concurrent callers, interleaved in
    any way, the table never holds more than 10000 dialogs nor more than 100
    early dialogs of one Call-ID, no id occurs twice, and each id maps to a
    dialog with that id. *)
Theorem C25_bounded : forall acts s, dsys_run (mkSys [] None) acts = Some s ->
  llen (ds_map s) <= 10000
  /\ (forall call, early_count call (ds_map s) <= 100)
  /\ NoDup (keys (ds_map s))
  /\ forall id d, dm_get (ds_map s) id = Some d -> d_id d = id.
Proof.
  intros acts s H. apply dsys_ok in H.
  - destruct H as (A & B & C & D). split; [exact C|]. split; [exact D|]. split; [exact A|].
    intros id d G. apply B. apply (lookup_in _ did_eqb_spec). exact G.
  - split; [constructor|]. split; [intros id d []|]. split; [apply N.le_0_l|]. intros call. apply N.le_0_l.
Qed.
Print Assumptions C25_bounded.
(** An insert below the limits takes effect: afterwards the dialog is found
    under its id and no other entry has changed. *)
Theorem C25_insert : forall m d, llen m < 10000 -> (d_state d = Early -> early_count (di_call (d_id d)) m < 100) ->
  exists m', dm_insert m d = (m', None) /\ dm_get m' (d_id d) = Some d
    /\ forall id, id <> d_id d -> dm_get m' id = dm_get m id.
Proof.
  intros m d L E. exists (insert did_eqb (d_id d) d m).
  assert (X : dm_insert m d = (insert did_eqb (d_id d) d m, None)).
  { unfold dm_insert, dm_insert_seen, MAX_CONFIRMED_DIALOGS, MAX_EARLY_DIALOGS_PER_CALL_ID. replace (10000 <=? llen m) with false by lia.
    destruct (dstate_eqb (d_state d) Early) eqn:S; cbn [andb]; [|reflexivity].
    assert (S' : d_state d = Early) by (destruct (d_state d); (reflexivity || discriminate S)). specialize (E S').
    assert (Le : early_others (d_id d) m <= early_count (di_call (d_id d)) m).
    { unfold early_others, early_count, early_same. clear. induction m as [|e m IH]; [apply N.le_refl|]. cbn [filter].
      destruct (dstate_eqb _ _ && str_eqb _ _); cbn [andb]; [|exact IH]. destruct (negb _); rewrite ?llen_cons; lia. }
    replace (100 <=? early_others (d_id d) m) with false by lia. reflexivity. }
  split; [exact X|]. unfold dm_get. split.
  - apply (lookup_insert_same _ did_eqb_spec).
  - intros id Hid. apply (lookup_insert_other _ did_eqb_spec). congruence.
Qed.
Print Assumptions C25_insert.
(** two callers insert, and the first dialog is found under its id *)
Example C25_example : exists s, dsys_run (mkSys [] None) [ALock ex_uac; AFinish 0 0; ALock ex_uas; AFinish 1 1] = Some s
  /\ llen (ds_map s) = 2 /\ dm_get (ds_map s) (mkId (lit "c1@h") (lit "aa") (lit "bb")) = Some ex_uac.
Proof. eexists. split; [vm_compute; reflexivity|]. split; vm_compute; reflexivity. Qed.

(** ** C26: the CSeq numbers a dialog hands out.  The k-th number handed out
    (counting from 0) is the starting number plus k+1 while that fits 32 bits:
    in particular all numbers up to the protocol maximum 2^31-1 are distinct and
    increasing. *)
Theorem C26_fresh : forall d ops k n, d_lcseq d <= 2147483647 -> nth_error (handed d ops) k = Some n ->
  n <= 2147483647 -> n = d_lcseq d + 1 + N.of_nat k.
Proof.
  intros d ops k n Hd H Hn. apply handed_count in H; [|unfold u32_max; lia]. unfold u32_max in H. lia.
Qed.
Print Assumptions C26_fresh.
Theorem C26_increasing : forall d ops i j a b, d_lcseq d <= 2147483647 ->
  nth_error (handed d ops) i = Some a -> nth_error (handed d ops) j = Some b -> (i < j)%nat -> a <= 2147483647 -> d_lcseq d < a /\ a < b.
Proof.
  intros d ops i j a b Hd Ha Hb Hij La. apply handed_count in Ha; [|unfold u32_max; lia]. apply handed_count in Hb; [|unfold u32_max; lia].
  unfold u32_max in *. lia.
Qed.
Print Assumptions C26_increasing.
Example C26_example : handed ex_uac [ONext; OResponse (ex_rsp 200); ONext; OTerminate; ONext] = [2; 3; 4] /\ d_lcseq ex_uac = 1.
Proof. split; vm_compute; reflexivity. Qed.
(** Beyond the protocol maximum the code does not stop: a dialog whose INVITE
    used CSeq 2^31-1 (accepted by the constructor) hands out 2^31, which this
    same implementation refuses on receipt; and once the counter reaches 2^32-1
    the same number is handed out again and again. *)
Theorem C26_range_refuted : exists rq rs l r d, new_uac rq rs l r = Ret (Some d) /\ handed d [ONext] = [2147483648]
  /\ validate_cseq 2147483648 = Some ECSeqTooLarge.
Proof.
  exists (mkReq MInvite (SipU ex_b) (ex_hdr ex_from (lit "<sip:bob@b.example>") (lit "2147483647 INVITE") []) []), (ex_rsp 180), ex_a, ex_b.
  eexists. split; [vm_compute; reflexivity|]. split; vm_compute; reflexivity.
Qed.
Print Assumptions C26_range_refuted.
Theorem C26_saturation_refuted : forall d ops k n, u32_max <= d_lcseq d -> nth_error (handed d ops) k = Some n -> n = u32_max.
Proof.
  intros d ops. revert d. induction ops as [|o ops IH]; intros d k n Hd H; [destruct k; discriminate|]. cbn [handed] in H.
  assert (Hd' : u32_max <= d_lcseq (dlg_step d o)) by (rewrite step_lcseq; destruct o; lia).
  destruct o; try exact (IH _ k n Hd' H). destruct k as [|k]; cbn [app nth_error] in H; [|exact (IH _ k n Hd' H)].
  injection H as <-. cbn [next_local_cseq snd]. lia.
Qed.
Print Assumptions C26_saturation_refuted.

(** ** C27: the ACK of an accepted INVITE.  It is accepted if no other request
    than ACKs was accepted in between ... *)
Theorem C27_ack_partial : forall d r1 r2 n ops d1,
  ~ is_ack r1 -> update_from_request d r1 = (d1, None) -> parse_cseq_number (q_headers r1) = Some n ->
  accepted d1 ops = [] ->
  is_ack r2 -> parse_cseq_number (q_headers r2) = Some n ->
  snd (update_from_request (dlg_run d1 ops) r2) = None.
Proof.
  intros d r1 r2 n ops d1 NA U P1 AC A2 P2.
  assert (E1 : d_rcseq d1 = n /\ n <> 0).
  { pose proof (ufr_rcseq d r1) as X. rewrite U, P1 in X. cbn [fst snd] in X.
    assert (F : is_ackb r1 = false). { unfold is_ackb. destruct (str_eqb _ _) eqn:Y; [apply str_eqb_spec in Y; contradiction|reflexivity]. }
    rewrite F in X. split; [exact X|]. destruct (ufr_cases d r1) as [(e & E)|(m & d2 & P & Z & _)]; [rewrite E in U; discriminate|]. congruence. }
  destruct E1 as [E1 Hn]. clear U P1 NA r1 d.
  assert (E2 : d_rcseq (dlg_run d1 ops) = n).
  { rewrite <- E1. clear E1 Hn. revert d1 AC. induction ops as [|o ops IH]; intros d1 AC; [reflexivity|]. cbn [accepted] in AC.
    apply app_eq_nil in AC. destruct AC as [A B]. cbn [dlg_run fold_left]. unfold dlg_run in IH. rewrite (IH _ B).
    rewrite step_rcseq. destruct o; try reflexivity. rewrite ufr_rcseq.
    destruct (snd (update_from_request d1 r)); [reflexivity|]. destruct (parse_cseq_number (q_headers r)); [|reflexivity].
    destruct (is_ackb r); [reflexivity|discriminate]. }
  unfold update_from_request. rewrite P2. replace (n =? 0) with false by lia.
  unfold is_ack in A2. rewrite A2. change (str_eqb (lit "ACK") (lit "ACK")) with true. cbn iota.
  rewrite E2. replace (negb (n =? n) || (n =? 0)) with false by lia. reflexivity.
Qed.
Print Assumptions C27_ack_partial.
(** ... but one accepted PRACK, UPDATE or INFO makes the dialog refuse it. *)
Theorem C27_ack_refuted : exists d inv prack ack,
  q_method inv = MInvite /\ q_method prack = MPrack /\ q_method ack = MAck
  /\ parse_cseq_number (q_headers inv) = Some 5 /\ parse_cseq_number (q_headers ack) = Some 5
  /\ snd (update_from_request d inv) = None
  /\ snd (update_from_request (dlg_run d [ORequest inv]) prack) = None
  /\ snd (update_from_request (dlg_run d [ORequest inv; ORequest prack]) ack) = Some EInvalidCSeq.
Proof.
  exists ex_uas, (ex_req MInvite (lit "5 INVITE")), (ex_req MPrack (lit "6 PRACK")), (ex_req MAck (lit "5 ACK")).
  repeat split; vm_compute; reflexivity.
Qed.
Print Assumptions C27_ack_refuted.
Example C27_example : let inv := ex_req MInvite (lit "5 INVITE") in
  snd (update_from_request ex_uas inv) = None /\ accepted (fst (update_from_request ex_uas inv)) [ONext; ORequest (ex_req MInfo (lit "4 INFO"))] = []
  /\ snd (update_from_request (dlg_run (fst (update_from_request ex_uas inv)) [ONext]) (ex_req MAck (lit "5 ACK"))) = None.
Proof. repeat split; vm_compute; reflexivity. Qed.

(** ** C80: in-dialog requests reach their dialog and no other.  A request is
    found in the table exactly as the stored dialog whose Call-ID is the
    request's, whose remote tag is its From tag and whose local tag its To tag. *)
Theorem C80_find : forall acts s r call ft tt' d, dsys_run (mkSys [] None) acts = Some s ->
  id_of_headers (q_headers r) = Ret (Some (call, ft, tt')) ->
  (dm_find (ds_map s) r = Ret (Some d) <-> In (mkId call tt' ft, d) (ds_map s))
  /\ (dm_find (ds_map s) r = Ret (Some d) -> d_id d = mkId call tt' ft /\ matches_request d r = Ret true).
Proof.
  intros acts s r call ft tt' d H I. apply dsys_ok in H.
  2:{ split; [constructor|]. split; [intros id x []|]. split; [apply N.le_0_l|]. intros c. apply N.le_0_l. }
  destruct H as (A & B & _). unfold dm_find, matches_request, id_from_request. rewrite I. cbn [di_call di_local di_remote].
  assert (Q : Ret (dm_get (ds_map s) (mkId call tt' ft)) = Ret (Some d) <-> In (mkId call tt' ft, d) (ds_map s)).
  { unfold dm_get. split; intros X.
    - injection X as X. now apply (lookup_in _ did_eqb_spec).
    - f_equal. now apply (in_lookup _ did_eqb_spec). }
  split; [exact Q|]. intros X. apply Q in X. apply B in X. split; [exact X|]. rewrite X. cbn [di_call di_local di_remote].
  now rewrite !str_eqb_refl.
Qed.
Print Assumptions C80_find.
(** The two ends of a call agree: a request made with one end's identifiers
    (Call-ID, own tag in From, peer's tag in To) matches the other end's dialog,
    when both were made from the same response. *)
Theorem C80_mirror : forall rq rq' rs la ra lb rb d e r,
  new_uac rq rs la ra = Ret (Some d) -> new_uas rq' rs lb rb = Ret (Some e) ->
  (id_of_headers (q_headers r) = Ret (Some (di_call (d_id d), di_local (d_id d), di_remote (d_id d))) -> matches_request e r = Ret true)
  /\ (id_of_headers (q_headers r) = Ret (Some (di_call (d_id e), di_local (d_id e), di_remote (d_id e))) -> matches_request d r = Ret true).
Proof.
  assert (M : forall uac id rq rs luri ruri d, dlg_make uac id rq rs luri ruri = Some d -> d_id d = id).
  { intros uac id rq rs luri ruri d H. unfold dlg_make in H. destruct (state_of_code _); [|discriminate].
    destruct (negb _); [discriminate|]. destruct (build_route_set _ _) as [routes|]; [|discriminate].
    destruct (is_some (validate_route_set routes)); [discriminate|]. destruct (parse_cseq_number _); [|discriminate].
    destruct (is_some _); [discriminate|]. match type of H with (if ?b then _ else _) = _ => destruct b end; [discriminate|].
    injection H as <-. reflexivity. }
  intros rq rq' rs la ra lb rb d e r Hd He. unfold new_uac, id_from_response_uac in Hd. unfold new_uas, id_from_response_uas in He.
  destruct (id_of_headers (p_headers rs)) as [[[[c f] t]|]|]; try discriminate. injection Hd as Hd. injection He as He.
  apply M in Hd, He. unfold matches_request, id_from_request. rewrite Hd, He. cbn [di_call di_local di_remote].
  split; intros ->; cbn [di_call di_local di_remote]; now rewrite !str_eqb_refl.
Qed.
Print Assumptions C80_mirror.
(** The tag of a From or To value of the usual form is the text after ";tag=". *)
Theorem C80_tag : forall addr t,
  (forall s, In s (split_on 59 addr) -> forallb is_ascii s = true /\ starts_with (lit "tag=") (lower (trim s)) = false) ->
  ~ In 59 t -> trim t = t -> extract_tag (addr ++ lit ";tag=" ++ t) = Ret (Some t).
Proof. exact extract_tag_value. Qed.
Print Assumptions C80_tag.
Example C80_example : exists s r, dsys_run (mkSys [] None) [ALock ex_uas; AFinish 0 0] = Some s
  /\ id_of_headers (q_headers r) = Ret (Some (di_call (d_id ex_uac), di_local (d_id ex_uac), di_remote (d_id ex_uac)))
  /\ dm_find (ds_map s) r = Ret (Some ex_uas)
  /\ (forall x, In x (split_on 59 (lit "<sip:bob@b.example;x=1>")) -> forallb is_ascii x = true /\ starts_with (lit "tag=") (lower (trim x)) = false).
Proof.
  eexists. exists (ex_req MBye (lit "2 BYE")). split; [vm_compute; reflexivity|]. split; [vm_compute; reflexivity|].
  split; [vm_compute; reflexivity|]. intros x Hx. vm_compute in Hx. destruct Hx as [<-|[<-|[]]]; split; vm_compute; reflexivity.
Qed.
(** The search for the tag does not know quoted strings: a display name may
    carry a false tag, which is then taken as the dialog's. *)
Theorem C80_quoted_refuted : extract_tag ([34] ++ lit "x;tag=evil" ++ [34] ++ lit " <sip:a@h>;tag=good") = Ret (Some (lit "evil" ++ [34] ++ lit " <sip:a@h>")).
Proof. vm_compute. reflexivity. Qed.
Print Assumptions C80_quoted_refuted.

(** ** C81: no message makes the dialog layer panic.  True when the From and To
    values are ASCII ... *)
Theorem C81_ascii_partial : forall hs,
  (forall v, header_of hs (lit "From") = Some v -> forallb is_ascii v = true) ->
  (forall v, header_of hs (lit "To") = Some v -> forallb is_ascii v = true) ->
  (forall rq, q_headers rq = hs -> (forall m, dm_find m rq <> Panics) /\ forall d, matches_request d rq <> Panics)
  /\ (forall rq rs l r, p_headers rs = hs -> new_uac rq rs l r <> Panics /\ new_uas rq rs l r <> Panics).
Proof.
  intros hs HF HT. destruct (id_of_headers_ascii hs HF HT) as [x E]. split.
  - intros rq <-. unfold dm_find, matches_request, id_from_request. rewrite E. destruct x as [[[c f] t]|]; split; discriminate.
  - intros rq rs l r <-. unfold new_uac, new_uas, id_from_response_uac, id_from_response_uas. rewrite E.
    destruct x as [[[c f] t]|]; split; discriminate.
Qed.
Print Assumptions C81_ascii_partial.
(** ... and false otherwise: the tag search slices each parameter at byte 4,
    inside a two-byte character here. *)
Theorem C81_panic_refuted : exists rq, forall m, dm_find m rq = Panics.
Proof.
  exists (mkReq MBye (SipU ex_b) (ex_hdr (lit "<sip:a@h>;xyz" ++ [233]) ex_to (lit "2 BYE") []) []).
  intros m. unfold dm_find. replace (id_from_request _) with (@Panics (option dialog_id)) by (vm_compute; reflexivity). reflexivity.
Qed.
Print Assumptions C81_panic_refuted.
(** Asking a dialog whether its session needs a refresh panics for a timer
    that the setter accepts, because the setter looks at 32 bits of it only. *)
Theorem C81_refresh_refuted : exists e d', set_session_expires ex_uac e = (d', None) /\ needs_refresh d' 0 = Panics.
Proof.
  exists ((u64_max - 4294967295 + 1800) * NS). eexists. split; vm_compute; reflexivity.
Qed.
Print Assumptions C81_refresh_refuted.
Theorem C81_refresh_partial : forall e d elapsed, d_expires d = Some e -> e <= 86400 * NS ->
  needs_refresh d elapsed = Ret (e * 2 / 3 <=? elapsed).
Proof.
  intros e d elapsed E L. unfold needs_refresh. rewrite E. replace (DUR_MAX <? e * 2) with false; [reflexivity|].
  symmetry. apply N.ltb_ge. apply N.le_trans with (m := 86400 * NS * 2); [lia|]. vm_compute. discriminate.
Qed.
Print Assumptions C81_refresh_partial.
Example C81_example : (forall v, header_of (q_headers ex_inv) (lit "From") = Some v -> forallb is_ascii v = true)
  /\ (forall v, header_of (q_headers ex_inv) (lit "To") = Some v -> forallb is_ascii v = true)
  /\ needs_refresh (fst (set_session_expires ex_uac (1800 * NS))) (1200 * NS) = Ret true
  /\ needs_refresh (fst (set_session_expires ex_uac (1800 * NS))) (1199 * NS) = Ret false.
Proof.
  split; [intros v H; vm_compute in H; injection H as <-; reflexivity|].
  split; [intros v H; vm_compute in H; injection H as <-; reflexivity|]. split; vm_compute; reflexivity.
Qed.
(** C80: a dialog matches a request exactly when all three identifiers agree. *)
Theorem C80_matches : forall d r call ft tt', id_of_headers (q_headers r) = Ret (Some (call, ft, tt')) ->
  (matches_request d r = Ret true <-> di_call (d_id d) = call /\ di_remote (d_id d) = ft /\ di_local (d_id d) = tt').
Proof.
  intros d r call ft tt' I. unfold matches_request, id_from_request. rewrite I. cbn [di_call di_local di_remote]. split.
  - intros H. injection H as H. apply andb_true_iff in H. destruct H as [H C]. apply andb_true_iff in H. destruct H as [A B].
    apply str_eqb_spec in A, B, C. auto.
  - intros (<- & <- & <-). now rewrite !str_eqb_refl.
Qed.
Print Assumptions C80_matches.

(** ** C90: a new dialog reflects the messages it was made from: it exists only
    for 1xx and 2xx responses and is early or confirmed accordingly; it starts
    with the CSeq number of the request, on its own side for the caller and on
    the peer's side for the callee; its target is the Contact of the peer's
    message or else the remote URI; it is secure when either URI is a sips one;
    its URIs are the ones given. *)
Theorem C90_new_dialog : forall rq rs luri ruri d (uac : bool),
  (if uac then new_uac else new_uas) rq rs luri ruri = Ret (Some d) ->
  (d_state d = Early /\ 100 <= p_code rs <= 199 \/ d_state d = Confirmed /\ 200 <= p_code rs <= 299)
  /\ (exists n, parse_cseq_number (q_headers rq) = Some n /\ 1 <= n <= 2147483647
      /\ d_lcseq d = (if uac then n else 0) /\ d_rcseq d = (if uac then 0 else n))
  /\ d_target d = match extract_contact (if uac then p_headers rs else q_headers rq) with Some u => u | None => ruri end
  /\ (d_secure d = true <-> u_sips luri = true \/ u_sips ruri = true)
  /\ d_luri d = luri /\ d_ruri d = ruri /\ d_uac d = uac
  /\ exists call ft tt', id_of_headers (p_headers rs) = Ret (Some (call, ft, tt'))
     /\ d_id d = if uac then mkId call ft tt' else mkId call tt' ft.
Proof.
  intros rq rs luri ruri d uac H.
  assert (M : exists id, dlg_make uac id rq rs luri ruri = Some d /\ exists call ft tt', id_of_headers (p_headers rs) = Ret (Some (call, ft, tt'))
     /\ id = if uac then mkId call ft tt' else mkId call tt' ft).
  { destruct uac; [unfold new_uac, id_from_response_uac in H|unfold new_uas, id_from_response_uas in H];
      destruct (id_of_headers (p_headers rs)) as [[[[c f] t]|]|]; try discriminate; injection H as H; eexists; (split; [exact H|]); do 3 eexists; (split; [reflexivity|]); reflexivity. }
  destruct M as (id & M & Hid). unfold dlg_make in M.
  destruct (state_of_code (p_code rs)) as [s0|] eqn:Ss; [|discriminate].
  destruct (negb _); [discriminate|]. destruct (build_route_set _ _) as [routes|]; [|discriminate].
  destruct (is_some (validate_route_set routes)); [discriminate|]. destruct (parse_cseq_number (q_headers rq)) as [n|] eqn:Pc; [|discriminate].
  destruct (is_some (validate_cseq n)) eqn:Vc; [discriminate|]. match type of M with (if ?b then _ else _) = _ => destruct b end; [discriminate|].
  assert (E := M). apply (f_equal (fun o => match o with Some x => x | None => d end)) in E. cbv iota in E. subst d.
  cbn [d_state d_lcseq d_rcseq d_target d_secure d_luri d_ruri d_uac d_id].
  split; [|split; [|split; [|split; [|split; [|split; [|split]]]]]]; try reflexivity.
  - unfold state_of_code, in_range in Ss. destruct ((100 <=? p_code rs) && (p_code rs <=? 199)) eqn:R1; [injection Ss as <-; left; split; [reflexivity|lia]|].
    destruct ((200 <=? p_code rs) && (p_code rs <=? 299)) eqn:R2; [injection Ss as <-; right; split; [reflexivity|lia]|discriminate].
  - exists n. unfold validate_cseq, MAX_CSEQ_VALUE in Vc. destruct (n =? 0) eqn:Z; [discriminate|]. destruct (2147483647 <? n) eqn:L; [discriminate|].
    split; [reflexivity|]. split; [lia|]. split; reflexivity.
  - apply orb_true_iff.
  - exact Hid.
Qed.
Print Assumptions C90_new_dialog.
(** And such a response does make a dialog: with both tags, a Call-ID, a valid
    CSeq number, usable URIs and Record-Route values and no session timer. *)
Example C90_example : (if true then new_uac else new_uas) ex_inv (ex_rsp 180) ex_a ex_b = Ret (Some ex_uac)
  /\ (if false then new_uac else new_uas) ex_inv (ex_rsp 200) ex_b ex_a <> Ret None
  /\ new_uac ex_inv (ex_rsp 100) ex_a ex_b <> Ret None.
Proof. split; [vm_compute; reflexivity|]. split; vm_compute; discriminate. Qed.
