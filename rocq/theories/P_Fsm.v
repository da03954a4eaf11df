(** Properties C01-C08, C69: the four transaction machines. *)
From Coq Require Import Arith NArith Bool List Lia.
Import ListNotations.
From Verif Require Import Base BaseFacts Headers Fsm FsmSpec FsmProofs.
Open Scope N_scope.

(** RFC default timers (timers.rs:96-101) used by the examples: 500ms, 4s, 5s *)
Definition ex_tm (tr : transport) : timers := mkTimers tr 500000000 4000000000 5000000000.
Definition ex_resp (c : N) : response := mkResponse c [] (lit "resp" ++ print_N c).

(** C01: retransmissions over UDP.  [es] is any history after the INVITE was
    sent.  The wire carries the INVITE once plus once per Timer A expiry that
    came before any response/Timer B/transport error, and nothing else; the
    waits asked for are T1, min(2 T1,T2), min(4 T1,T2), ...; there is no
    arithmetic panic. *)
Theorem C01_invite_backoff_udp : forall tm w es,
  tm_transport tm = Udp -> tm_t1 tm <> 0 ->
  tm_t1 tm * 2 <= DURATION_MAX -> tm_t2 tm * 2 <= DURATION_MAX ->
  existsb ci_is_send es = false ->
  let out := outputs ci_step (ci_new tm) (CiSend w :: es) in
  let n := length (filter ci_is_a (take_until ci_stops es)) in
  transmits out = repeat w (S n)
  /\ schedules TmA out = map (backoff (tm_t1 tm) (tm_t2 tm)) (seq 0 (S n))
  /\ panics out = false.
Proof.
  intros tm w es Hu H1 Hm1 Hm2 Hs out n. subst out.
  rewrite outputs_cons, transmits_app, schedules_app, panics_app.
  assert (Hd : duration tm TmA = tm_t1 tm) by (unfold duration; now rewrite Hu).
  assert (Hd' : duration tm TmA <> 0) by congruence.
  destruct (ci_schedule_udp es tm w 0 (tm_t1 tm) Hs Hm1 Hm2 Hd' eq_refl) as [Ha [Hb Hc]].
  assert (Hst : ci_step (ci_new tm) (CiSend w)
          = (mkCi CiCalling tm (tm_t1 tm) (Some w),
             [Transmit w; Schedule TmA (tm_t1 tm); Schedule TmB (duration tm TmB)])).
  { unfold ci_step, ci_new, ci_send, sched_nz. cbn [ci_st ci_tm ci_a ci_invite]. rewrite Hd.
    destruct (tm_t1 tm =? 0) eqn:E; [apply N.eqb_eq in E; congruence|reflexivity]. }
  rewrite Hst. cbn [fst snd]. rewrite Ha, Hb, Hc. repeat split; reflexivity.
Qed.
Print Assumptions C01_invite_backoff_udp.

(** C01, reliable transports: the INVITE is put on the wire once. *)
Theorem C01_invite_reliable_never_repeats : forall tm w es,
  tm_transport tm <> Udp -> existsb ci_is_send es = false ->
  let out := outputs ci_step (ci_new tm) (CiSend w :: es) in
  transmits out = [w] /\ schedules TmA out = [] /\ panics out = false.
Proof.
  intros tm w es Hu Hs out. subst out.
  rewrite outputs_cons, transmits_app, schedules_app, panics_app.
  assert (Hd : duration tm TmA = 0) by (destruct tm as [[] ? ? ?]; try reflexivity; now elim Hu).
  destruct (ci_schedule_rel es (fst (ci_step (ci_new tm) (CiSend w))) Hs) as [Ha [Hb Hc]].
  { rewrite ci_tm_const. exact Hd. }
  rewrite Ha, Hb, Hc. unfold ci_step, ci_new, ci_send, sched_nz. cbn [ci_st ci_tm]. rewrite Hd.
  repeat split; reflexivity.
Qed.
Print Assumptions C01_invite_reliable_never_repeats.

Example C01_example :
  let es := [CiTimer TmA; CiTimer TmA; CiTimer TmA; CiTimer TmA; CiProv (ex_resp 180); CiTimer TmA] in
  let out := outputs ci_step (ci_new (ex_tm Udp)) (CiSend (lit "INVITE") :: es) in
  transmits out = repeat (lit "INVITE") 5
  /\ schedules TmA out = [500000000; 1000000000; 2000000000; 4000000000; 4000000000].
Proof. vm_compute. auto. Qed.

(** C02: at any point of any history, an event produces ACK instructions for
    exactly the final responses it hands to the user, with the right flag; a
    final response is handed on unless the transaction is terminated (a 2xx
    even then); nothing else produces an ACK. *)
Theorem C02_ack_discipline : forall tm h e,
  let s := final_state ci_step (ci_new tm) h in
  let out := snd (ci_step s e) in
  match e with
  | CiFinal r =>
      (ci_st s <> CiTerminated \/ is_2xx r = true ->
         delivers out = [r] /\ acks out = [(r, is_2xx r)])
      /\ (ci_st s = CiTerminated -> is_2xx r = false -> delivers out = [] /\ acks out = [])
  | _ => acks out = []
  end.
Proof.
  intros tm h e s out. destruct (ci_acks_step s e (ci_ok_run tm h)) as [Ha Hb].
  fold out in Ha, Hb. destruct e as [w|r|r|t|]; try exact Ha. split.
  - intros Hc. rewrite Ha, Hb.
    destruct (ci_st s) eqn:E; try (split; reflexivity).
    destruct Hc as [Hc|Hc]; [congruence|]. rewrite Hc. auto.
  - intros Hc Hr. rewrite Ha, Hb, Hc, Hr. auto.
Qed.
Print Assumptions C02_ack_discipline.
Example C02_example :
  acks (outputs ci_step (ci_new (ex_tm Udp))
          [CiSend (lit "I"); CiProv (ex_resp 180); CiFinal (ex_resp 486); CiFinal (ex_resp 486)])
  = [(ex_resp 486, false); (ex_resp 486, false)].
Proof. reflexivity. Qed.

(** C03: after the INVITE was sent, a transaction that is not terminated has
    an armed timer whose expiry terminates it. *)
Theorem C03_invite_client_deadline : forall tm w es,
  let h := CiSend w :: es in
  let s := final_state ci_step (ci_new tm) h in
  ci_st s <> CiTerminated ->
  exists t, In t (ci_armed [] (ci_new tm) h)
            /\ ci_st (fst (ci_step s (CiTimer t))) = CiTerminated.
Proof.
  intros tm w es h s Hn.
  assert (Hd : ci_deadline s (ci_armed [] (ci_new tm) h)).
  { subst s h. rewrite final_cons. cbn [ci_armed]. apply ci_deadline_run.
    unfold ci_deadline, ci_step, ci_new, ci_send, sched_nz. cbn [ci_st ci_tm fst snd ci_fired].
    destruct (duration tm TmA =? 0); cbn; auto. }
  unfold ci_deadline in Hd. destruct s as [st tm' a inv]. cbn [ci_st] in *.
  destruct st; try tauto; try (exists TmB; split; [exact Hd|reflexivity]).
  exists TmD; split; [exact Hd|reflexivity].
Qed.
Print Assumptions C03_invite_client_deadline.
Example C03_example :
  ci_armed [] (ci_new (ex_tm Udp))
    [CiSend (lit "I"); CiProv (ex_resp 180); CiFinal (ex_resp 486)] = [TmD].
Proof. reflexivity. Qed.

(** C04 is false of the code: Timer B is still armed after a 180 and its
    expiry terminates the ringing transaction. *)
Theorem C04_refuted : exists tm w r,
  in_range 100 199 (rs_code r) = true
  /\ let h := [CiSend w; CiProv r] in
     let s := final_state ci_step (ci_new tm) h in
     ci_st s = CiProceeding
     /\ In TmB (ci_armed [] (ci_new tm) h)
     /\ ci_st (fst (ci_step s (CiTimer TmB))) = CiTerminated
     /\ terminates (snd (ci_step s (CiTimer TmB))) = 1%nat.
Proof.
  exists (ex_tm Udp), (lit "INVITE"), (ex_resp 180). vm_compute. auto 10.
Qed.
Print Assumptions C04_refuted.

(** C04, the part that holds: once a final response has been accepted Timer B
    is neither armed nor able to change anything.  Missing from the full
    claim: the same after a provisional response. *)
Lemma ci_b_disarmed : forall es s armed,
  ci_st s = CiCompleted \/ ci_st s = CiTerminated -> ~ In TmB armed ->
  (ci_st (final_state ci_step s es) = CiCompleted \/ ci_st (final_state ci_step s es) = CiTerminated)
  /\ ~ In TmB (ci_armed armed s es).
Proof.
  induction es as [|e es IH]; intros s armed H Hb; [auto|].
  rewrite final_cons. cbn [ci_armed]. apply IH.
  - destruct s as [st tm a inv]. cbn [ci_st] in H. unfold ci_step, ci_final.
    destruct H; subst; destruct e as [w|r|r|t|]; splits; cbn; auto.
  - assert (Hf : ~ In TmB (ci_fired e armed)).
    { destruct e; cbn; auto. unfold disarm. rewrite filter_In. tauto. }
    revert Hf. generalize (ci_fired e armed). intros l Hf.
    destruct s as [st tm a inv]. cbn [ci_st] in H. unfold ci_step, ci_final.
    destruct H; subst; destruct e as [w|r|r|t|]; splits; cbn; rewrite ?filter_In;
      intuition congruence.
Qed.
Lemma ci_armed_app : forall es1 es2 armed s,
  ci_armed armed s (es1 ++ es2) = ci_armed (ci_armed armed s es1) (final_state ci_step s es1) es2.
Proof.
  induction es1 as [|e es1 IH]; intros; [reflexivity|].
  cbn [app ci_armed]. rewrite IH, final_cons. reflexivity.
Qed.
Theorem C04_timer_b_after_final_partial : forall tm w es1 r es2,
  ci_st (final_state ci_step (ci_new tm) (CiSend w :: es1)) <> CiTerminated ->
  let h := CiSend w :: es1 ++ CiFinal r :: es2 in
  let s := final_state ci_step (ci_new tm) h in
  ~ In TmB (ci_armed [] (ci_new tm) h) /\ ci_step s (CiTimer TmB) = (s, []).
Proof.
  intros tm w es1 r es2 Hn h s. subst s h.
  rewrite app_comm_cons, final_app, final_cons, ci_armed_app. cbn [ci_armed].
  assert (Hok := ci_ok_run tm (CiSend w :: es1)). cbn [ci_armed] in *.
  set (s1 := final_state ci_step (ci_new tm) (CiSend w :: es1)) in *.
  set (a1 := ci_armed _ _ es1).
  assert (H : (ci_st (fst (ci_step s1 (CiFinal r))) = CiCompleted
              \/ ci_st (fst (ci_step s1 (CiFinal r))) = CiTerminated)
              /\ ~ In TmB (arm (ci_fired (CiFinal r) a1) (snd (ci_step s1 (CiFinal r))))).
  { destruct s1 as [st tm' a inv].
    unfold ci_ok in Hok. cbn in Hok, Hn. cbn [ci_fired].
    destruct st; try (now elim Hok); try (now elim Hn);
      unfold ci_step, ci_final; cbn [ci_st]; destruct (is_2xx r); cbn; rewrite ?filter_In; (split; [auto|]); cbn;
      intuition congruence. }
  destruct H as [H Hb].
  destruct (ci_b_disarmed es2 _ _ H Hb) as [Hs Hb']. split; [exact Hb'|].
  destruct (final_state ci_step (fst (ci_step s1 (CiFinal r))) es2) as [st tm' a inv].
  cbn in Hs. destruct Hs; subst; reflexivity.
Qed.
Print Assumptions C04_timer_b_after_final_partial.
Example C04_example :
  ci_st (final_state ci_step (ci_new (ex_tm Udp)) [CiSend (lit "I"); CiProv (ex_resp 180)]) <> CiTerminated.
Proof. discriminate. Qed.

(** C05: whatever happens after the request was sent, the final responses
    handed to the user are: the first one to arrive before a time-out or
    transport error, and no other. *)
Theorem C05_final_once : forall tm w es,
  let h := CnSend w :: es in
  cn_finals (snd (run cn_step (cn_new tm) h)) h = first_final es
  /\ (length (first_final es) <= 1)%nat.
Proof.
  intros tm w es h. split.
  - subst h. rewrite run_cons. cbn [snd]. unfold cn_finals. cbn [combine flat_map fst snd app].
    fold (cn_finals (snd (run cn_step (fst (cn_step (cn_new tm) (CnSend w))) es)) es).
    apply cn_finals_active. left. reflexivity.
  - clear. induction es as [|e es IH]; [cbn; lia|].
    destruct e as [w|r|r|t|]; try exact IH; cbn; try lia. destruct t; try exact IH; cbn; lia.
Qed.
Print Assumptions C05_final_once.
(** C05: after a final response, a time-out or a transport error nothing is
    sent or handed to the user any more. *)
Theorem C05_silent_after_end : forall tm w es1 e es2,
  cn_stops e = true ->
  let s := final_state cn_step (cn_new tm) (CnSend w :: es1 ++ [e]) in
  transmits (outputs cn_step s es2) = [] /\ delivers (outputs cn_step s es2) = []
  /\ schedules TmE (outputs cn_step s es2) = [].
Proof.
  intros tm w es1 e es2 He s.
  assert (Hq : cn_quiet s = true).
  { subst s. rewrite app_comm_cons, final_app.
    destruct (final_state cn_step (cn_new tm) (CnSend w :: es1)) as [st tm' a inv].
    rewrite final_cons. destruct e as [w'|r|r|t|]; try discriminate; try (destruct t; try discriminate);
      destruct st; reflexivity. }
  destruct (cn_quiet_run es2 s Hq) as [Ha [Hb [_ Hc]]]. auto.
Qed.
Print Assumptions C05_silent_after_end.
(** C05: Timer E back-off, as for INVITE (a provisional does not stop it). *)
Theorem C05_backoff_udp : forall tm w es,
  tm_transport tm = Udp -> tm_t1 tm <> 0 ->
  tm_t1 tm * 2 <= DURATION_MAX -> tm_t2 tm * 2 <= DURATION_MAX ->
  existsb cn_is_send es = false ->
  let out := outputs cn_step (cn_new tm) (CnSend w :: es) in
  let n := length (filter cn_is_e (take_until cn_stops es)) in
  transmits out = repeat w (S n)
  /\ schedules TmE out = map (backoff (tm_t1 tm) (tm_t2 tm)) (seq 0 (S n))
  /\ panics out = false.
Proof.
  intros tm w es Hu H1 Hm1 Hm2 Hs out n. subst out.
  rewrite outputs_cons, transmits_app, schedules_app, panics_app.
  assert (Hd : duration tm TmE = tm_t1 tm) by (unfold duration; now rewrite Hu).
  assert (Hd' : duration tm TmE <> 0) by congruence.
  assert (Hst : cn_step (cn_new tm) (CnSend w)
          = (mkCn CnTrying tm (tm_t1 tm) (Some w),
             [Transmit w; Schedule TmE (tm_t1 tm); Schedule TmF (duration tm TmF)])).
  { unfold cn_step, cn_new, cn_send, sched_nz. cbn [cn_st cn_tm cn_e cn_request]. rewrite Hd.
    destruct (tm_t1 tm =? 0) eqn:E; [apply N.eqb_eq in E; congruence|reflexivity]. }
  rewrite Hst. cbn [fst snd].
  destruct (cn_schedule es (mkCn CnTrying tm (tm_t1 tm) (Some w)) w 0
              (or_introl eq_refl) eq_refl Hs Hm1 Hm2 Hd' eq_refl) as [Ha [Hb Hc]].
  rewrite Ha, Hb, Hc. repeat split; reflexivity.
Qed.
Print Assumptions C05_backoff_udp.
Theorem C05_reliable_never_repeats : forall tm w es,
  tm_transport tm <> Udp -> existsb cn_is_send es = false ->
  transmits (outputs cn_step (cn_new tm) (CnSend w :: es)) = [w].
Proof.
  intros tm w es Hu Hs. rewrite outputs_cons, transmits_app.
  assert (Hd : duration tm TmE = 0) by (destruct tm as [[] ? ? ?]; try reflexivity; now elim Hu).
  destruct (cn_schedule_rel es (fst (cn_step (cn_new tm) (CnSend w))) Hs) as [Ha Hb].
  { rewrite cn_tm_const. exact Hd. }
  rewrite Ha. unfold cn_step, cn_new, cn_send, sched_nz. cbn [cn_st cn_tm]. rewrite Hd. reflexivity.
Qed.
Print Assumptions C05_reliable_never_repeats.
(** C05: there is always a deadline. *)
Theorem C05_deadline : forall tm w es,
  let h := CnSend w :: es in
  let s := final_state cn_step (cn_new tm) h in
  cn_st s <> CnTerminated ->
  exists t, In t (cn_armed [] (cn_new tm) h)
            /\ cn_st (fst (cn_step s (CnTimer t))) = CnTerminated.
Proof.
  intros tm w es h s Hn.
  assert (Hd : cn_deadline s (cn_armed [] (cn_new tm) h)).
  { subst s h. rewrite final_cons. cbn [cn_armed]. apply cn_deadline_run.
    unfold cn_deadline, cn_step, cn_new, cn_send, sched_nz. cbn [cn_st cn_tm fst snd cn_fired].
    destruct (duration tm TmE =? 0); cbn; auto. }
  unfold cn_deadline in Hd. destruct s as [st tm' a inv]. cbn [cn_st] in *.
  destruct st; try tauto; try (exists TmF; split; [exact Hd|reflexivity]).
  exists TmK; split; [exact Hd|reflexivity].
Qed.
Print Assumptions C05_deadline.
Example C05_example :
  let es := [CnTimer TmE; CnProv (ex_resp 100); CnTimer TmE; CnFinal (ex_resp 200); CnFinal (ex_resp 200);
             CnTimer TmE] in
  first_final es = [ex_resp 200]
  /\ transmits (outputs cn_step (cn_new (ex_tm Udp)) (CnSend (lit "O") :: es)) = repeat (lit "O") 3.
Proof. vm_compute. auto. Qed.

(** C06: [es] is any history after the request arrived.  A retransmitted
    request is answered with exactly the last response the user submitted
    (provisionals and the first final), or with nothing if there is none or
    the transaction is over. *)
Theorem C06_retransmit_gets_latest : forall tm es,
  let s := final_state sn_step (sn_new tm) (SnRequest :: es) in
  (sn_st s <> SnTerminated ->
     snd (sn_step s SnRetransmit)
     = match rev (sn_sent es) with [] => [] | b :: _ => [Transmit b] end)
  /\ (sn_st s = SnTerminated -> snd (sn_step s SnRetransmit) = [])
  /\ fst (sn_step s SnRetransmit) = s.
Proof.
  intros tm es s. split; [|split].
  - intros Hn. subst s. rewrite final_cons in *.
    destruct (sn_last_proceeding es (fst (sn_step (sn_new tm) SnRequest)) eq_refl Hn) as [Ha Hb].
    destruct (final_state sn_step _ es) as [st tm' l]. cbn [sn_st sn_last] in *. subst l.
    unfold last_or. cbn [sn_step sn_new sn_st fst sn_set sn_last sn_tm].
    destruct st; try (now elim Hb); try (now elim Hn); cbn; destruct (rev (sn_sent es)); reflexivity.
  - intros Ht. destruct s as [st tm' l]. cbn in Ht. subst. reflexivity.
  - destruct s as [[] tm' l]; reflexivity.
Qed.
Print Assumptions C06_retransmit_gets_latest.
(** C06: of its own accord the machine puts on the wire exactly the responses
    submitted up to and including the first final one (up to a transport
    error): at most one final, and later submissions are ignored. *)
Theorem C06_one_final : forall tm es,
  let h := SnRequest :: es in
  sn_own h (snd (run sn_step (sn_new tm) h)) = sn_sent (take_until sn_is_error es).
Proof.
  intros tm es h. subst h. rewrite run_cons. cbn [snd]. unfold sn_own.
  cbn [combine flat_map fst snd app sn_is_retr sn_step sn_new sn_st transmits].
  apply sn_own_sent. reflexivity.
Qed.
Print Assumptions C06_one_final.
Example C06_example :
  let es := [SnProv (ex_resp 100); SnRetransmit; SnFinal (ex_resp 200); SnProv (ex_resp 180); SnFinal (ex_resp 500)] in
  let s := final_state sn_step (sn_new (ex_tm Udp)) (SnRequest :: es) in
  sn_st s <> SnTerminated /\ snd (sn_step s SnRetransmit) = [Transmit (rs_wire (ex_resp 200))].
Proof. vm_compute. split; [discriminate|reflexivity]. Qed.

(** C07 is false of the code: a final response submitted after the ACK is
    transmitted and restarts the retransmissions. *)
Theorem C07_refuted : exists tm r,
  is_2xx r = false
  /\ let s := final_state si_step (si_new tm) [SiInvite; SiFinal r; SiAck] in
     si_st s = SiConfirmed
     /\ transmits (snd (si_step s (SiFinal r))) = [rs_wire r]
     /\ si_st (fst (si_step s (SiFinal r))) = SiCompleted
     /\ schedules TmG (snd (si_step s (SiFinal r))) <> [].
Proof. exists (ex_tm Udp), (ex_resp 486). vm_compute. repeat split; congruence. Qed.
Print Assumptions C07_refuted.

(** C07, when the user submits no second final response ([es] without
    [SiFinal]): the response is repeated once per Timer G expiry or
    retransmitted INVITE until ACK/Timer H/transport error, with waits T1,
    2 T1, ... capped at T2, and nothing is sent afterwards.  Missing: the case
    of a user submitting another final response after the first. *)
Theorem C07_final_until_ack_partial : forall tm pre r es,
  tm_transport tm = Udp -> tm_t1 tm <> 0 ->
  tm_t1 tm * 2 <= DURATION_MAX -> tm_t2 tm * 2 <= DURATION_MAX ->
  existsb si_is_final pre = false -> existsb si_is_error pre = false ->
  is_2xx r = false -> existsb si_is_final es = false ->
  let s := final_state si_step (si_new tm) pre in
  let out := outputs si_step s (SiFinal r :: es) in
  let till_ack := take_until si_stops es in
  transmits out
    = repeat (rs_wire r) (S (length (filter (fun e => si_is_g e || si_is_retr e) till_ack)))
  /\ schedules TmG out
     = map (backoff (tm_t1 tm) (tm_t2 tm)) (seq 0 (S (length (filter si_is_g till_ack))))
  /\ panics out = false.
Proof.
  intros tm pre r es Hu H1 Hm1 Hm2 Hp1 Hp2 Hr Hes s out till_ack.
  destruct (si_pre_proceeding pre (si_new tm) eq_refl Hp1 Hp2) as [Hst Htm].
  fold s in Hst, Htm. cbn [si_new si_tm] in Htm.
  assert (Hd : duration tm TmG = tm_t1 tm) by (unfold duration; now rewrite Hu).
  assert (Hd' : duration tm TmG <> 0) by congruence.
  assert (Hstep : si_step s (SiFinal r)
          = (mkSi SiCompleted tm (tm_t1 tm) (Some (rs_wire r)) (Some (rs_wire r)),
             [Transmit (rs_wire r); Schedule TmG (tm_t1 tm); Schedule TmH (duration tm TmH)])).
  { unfold si_step. rewrite Hst. unfold si_send_final, sched_nz. rewrite Hr, Htm, Hd.
    destruct (tm_t1 tm =? 0) eqn:E; [apply N.eqb_eq in E; congruence|reflexivity]. }
  subst out. rewrite outputs_cons, transmits_app, schedules_app, panics_app, Hstep. cbn [fst snd].
  destruct (si_schedule es tm (tm_t1 tm) (rs_wire r) 0 Hes Hm1 Hm2 Hd' eq_refl) as [Ha [Hb Hc]].
  rewrite Ha, Hb, Hc. repeat split; reflexivity.
Qed.
Print Assumptions C07_final_until_ack_partial.
Theorem C07_final_reliable_partial : forall tm pre r es,
  tm_transport tm <> Udp ->
  existsb si_is_final pre = false -> existsb si_is_error pre = false ->
  is_2xx r = false -> existsb si_is_final es = false ->
  let s := final_state si_step (si_new tm) pre in
  let out := outputs si_step s (SiFinal r :: es) in
  transmits out
    = repeat (rs_wire r) (S (length (filter si_is_retr (take_until si_stops es))))
  /\ schedules TmG out = [].
Proof.
  intros tm pre r es Hu Hp1 Hp2 Hr Hes s out.
  destruct (si_pre_proceeding pre (si_new tm) eq_refl Hp1 Hp2) as [Hst Htm].
  fold s in Hst, Htm. cbn [si_new si_tm] in Htm.
  assert (Hd : duration tm TmG = 0) by (destruct tm as [[] ? ? ?]; try reflexivity; now elim Hu).
  assert (Hstep : si_step s (SiFinal r)
          = (mkSi SiCompleted tm 0 (Some (rs_wire r)) (Some (rs_wire r)),
             [Transmit (rs_wire r); Schedule TmH (duration tm TmH)])).
  { unfold si_step. rewrite Hst. unfold si_send_final, sched_nz. rewrite Hr, Htm, Hd. reflexivity. }
  subst out. rewrite outputs_cons, transmits_app, schedules_app, Hstep. cbn [fst snd].
  destruct (si_schedule_rel es tm 0 (rs_wire r) Hes Hd) as [Ha Hb].
  rewrite Ha, Hb. split; reflexivity.
Qed.
Print Assumptions C07_final_reliable_partial.
Example C07_example :
  let es := [SiTimer TmG; SiRetransmit; SiTimer TmG; SiAck; SiTimer TmG; SiRetransmit] in
  transmits (outputs si_step (si_new (ex_tm Udp)) (SiInvite :: SiFinal (ex_resp 486) :: es))
  = repeat (rs_wire (ex_resp 486)) 4.
Proof. reflexivity. Qed.

(** C08: from a terminated state, over any further history. *)
Theorem C08_client_invite_terminated : forall s es, ci_st s = CiTerminated ->
  ci_st (final_state ci_step s es) = CiTerminated
  /\ transmits (outputs ci_step s es) = []
  /\ (forall t, schedules t (outputs ci_step s es) = [])
  /\ delivers (outputs ci_step s es)
     = flat_map (fun e => match e with CiFinal r => if is_2xx r then [r] else [] | _ => [] end) es
  /\ acks (outputs ci_step s es)
     = flat_map (fun e => match e with CiFinal r => if is_2xx r then [(r, true)] else [] | _ => [] end) es.
Proof. intros s es. exact (ci_term_run es s). Qed.
Print Assumptions C08_client_invite_terminated.
Theorem C08_client_non_invite_terminated : forall s es, cn_st s = CnTerminated ->
  cn_st (final_state cn_step s es) = CnTerminated
  /\ transmits (outputs cn_step s es) = [] /\ delivers (outputs cn_step s es) = []
  /\ (forall t, schedules t (outputs cn_step s es) = []).
Proof. intros s es. exact (cn_term_run es s). Qed.
Print Assumptions C08_client_non_invite_terminated.
Theorem C08_server_non_invite_terminated : forall s es, sn_st s = SnTerminated ->
  sn_st (final_state sn_step s es) = SnTerminated
  /\ transmits (outputs sn_step s es) = []
  /\ (forall t, schedules t (outputs sn_step s es) = []).
Proof. intros s es. exact (sn_term_run es s). Qed.
Print Assumptions C08_server_non_invite_terminated.
Theorem C08_server_invite_terminated : forall s es, si_st s = SiTerminated ->
  si_st (final_state si_step s es) = SiTerminated
  /\ transmits (outputs si_step s es) = []
  /\ (forall t, schedules t (outputs si_step s es) = []).
Proof. intros s es. exact (si_term_run es s). Qed.
Print Assumptions C08_server_invite_terminated.
Example C08_example :
  ci_st (final_state ci_step (ci_new (ex_tm Udp)) [CiSend (lit "I"); CiFinal (ex_resp 200)]) = CiTerminated
  /\ cn_st (final_state cn_step (cn_new (ex_tm Udp)) [CnSend (lit "I"); CnTimer TmF]) = CnTerminated
  /\ sn_st (final_state sn_step (sn_new (ex_tm Udp)) [SnRequest; SnFinal (ex_resp 200); SnTimer TmJ]) = SnTerminated
  /\ si_st (final_state si_step (si_new (ex_tm Udp)) [SiInvite; SiFinal (ex_resp 200)]) = SiTerminated.
Proof. vm_compute. auto. Qed.

(** C69: a server transaction that has sent its final response has a deadline. *)
Theorem C69_server_invite_deadline : forall tm es,
  let s := final_state si_step (si_new tm) es in
  si_st s <> SiProceeding -> si_st s <> SiTerminated ->
  exists t, In t (si_armed [] (si_new tm) es)
    /\ si_st (fst (si_step s (SiTimer t))) = SiTerminated.
Proof.
  intros tm es s Hp Ht.
  assert (Hd : si_deadline s (si_armed [] (si_new tm) es)).
  { apply si_deadline_run. exact I. }
  unfold si_deadline in Hd. destruct s as [st tm' g l f]. cbn [si_st] in *.
  destruct st; try (now elim Hp); try (now elim Ht).
  - exists TmH. split; [exact Hd|reflexivity].
  - exists TmI. split; [exact Hd|reflexivity].
Qed.
Print Assumptions C69_server_invite_deadline.
