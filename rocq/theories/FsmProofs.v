(** Lemmas about the transaction machines of [Fsm.v]. *)
From Coq Require Import Arith NArith Bool List Lia ZifyBool ZifyN ZifyNat.
Import ListNotations.
From Verif Require Import Base BaseFacts Headers Fsm FsmSpec.
Open Scope N_scope.

(** ** Generic facts on runs *)
Section RunFacts.
  Context {S E A : Type} (step : S -> E -> S * list A).
  Lemma run_cons : forall s e es,
    run step s (e :: es) =
    (fst (run step (fst (step s e)) es), snd (step s e) :: snd (run step (fst (step s e)) es)).
  Proof.
    intros. simpl. destruct (step s e) as [s1 o]. simpl.
    destruct (run step s1 es) as [s2 os]. reflexivity.
  Qed.
  Lemma outputs_cons : forall s e es,
    outputs step s (e :: es) = snd (step s e) ++ outputs step (fst (step s e)) es.
  Proof. intros. unfold outputs. now rewrite run_cons. Qed.
  Lemma final_cons : forall s e es,
    final_state step s (e :: es) = final_state step (fst (step s e)) es.
  Proof. intros. unfold final_state. now rewrite run_cons. Qed.
  Lemma run_app : forall es1 s es2,
    run step s (es1 ++ es2) =
    (fst (run step (fst (run step s es1)) es2),
     snd (run step s es1) ++ snd (run step (fst (run step s es1)) es2)).
  Proof.
    induction es1 as [|e es1 IH]; intros s es2.
    - simpl. destruct (run step s es2); reflexivity.
    - rewrite <- app_comm_cons, !run_cons. cbn [fst snd]. rewrite IH. reflexivity.
  Qed.
  Lemma final_app : forall es1 s es2,
    final_state step s (es1 ++ es2) = final_state step (final_state step s es1) es2.
  Proof. intros. unfold final_state. now rewrite run_app. Qed.
  Lemma outputs_app : forall es1 s es2,
    outputs step s (es1 ++ es2) = outputs step s es1 ++ outputs step (final_state step s es1) es2.
  Proof. intros. unfold outputs, final_state. rewrite run_app. apply concat_app. Qed.
  (** invariants *)
  Lemma final_inv : forall (P : S -> Prop),
    (forall s e, P s -> P (fst (step s e))) ->
    forall es s, P s -> P (final_state step s es).
  Proof.
    intros P Hs. induction es as [|e es IH]; intros s H; [exact H|].
    rewrite final_cons. apply IH. now apply Hs.
  Qed.
End RunFacts.

Lemma transmits_app : forall a b, transmits (a ++ b) = transmits a ++ transmits b.
Proof. intros. unfold transmits. apply flat_map_app. Qed.
Lemma schedules_app : forall t a b, schedules t (a ++ b) = schedules t a ++ schedules t b.
Proof. intros. unfold schedules. apply flat_map_app. Qed.
Lemma delivers_app : forall a b, delivers (a ++ b) = delivers a ++ delivers b.
Proof. intros. unfold delivers. apply flat_map_app. Qed.
Lemma acks_app : forall a b, acks (a ++ b) = acks a ++ acks b.
Proof. intros. unfold acks. apply flat_map_app. Qed.
Lemma panics_app : forall a b, panics (a ++ b) = panics a || panics b.
Proof. intros. unfold panics. apply existsb_app. Qed.
Lemma terminates_app : forall a b, terminates (a ++ b) = (terminates a + terminates b)%nat.
Proof. intros. unfold terminates. now rewrite filter_app, app_length. Qed.

Lemma timer_eqb_refl : forall t, timer_eqb t t = true.
Proof. destruct t; reflexivity. Qed.
Lemma timer_eqb_spec : forall a b, timer_eqb a b = true <-> a = b.
Proof. destruct a, b; simpl; split; congruence. Qed.

(** ** Back-off arithmetic *)
Lemma backoff_step : forall t1 t2 k,
  t1 * 2 <= DURATION_MAX -> t2 * 2 <= DURATION_MAX ->
  backoff_next (backoff t1 t2 k) t2 = Some (backoff t1 t2 (S k)).
Proof.
  intros t1 t2 k H1 H2. unfold backoff_next.
  assert (Hle : backoff t1 t2 k * 2 <= DURATION_MAX).
  { destruct k; simpl; lia. }
  destruct (backoff t1 t2 k * 2 <=? DURATION_MAX) eqn:E; [|lia].
  f_equal. destruct k as [|k].
  - cbn [backoff N.of_nat]. reflexivity.
  - cbn [backoff]. rewrite (Nat2N.inj_succ (S k)), N.pow_succ_r'.
    set (x := t1 * 2 ^ N.of_nat (S k)).
    replace (t1 * (2 * 2 ^ N.of_nat (S k))) with (2 * x) by (unfold x; lia).
    lia.
Qed.

(** ** Client INVITE *)
(** split every [if]/[match] of the goal *)
Ltac fsimp :=
  cbn [fst snd app ci_st ci_tm ci_a ci_invite ci_set cn_st cn_tm cn_e cn_request cn_set
       sn_st sn_tm sn_last sn_set si_st si_tm si_g si_last si_final si_set].
Ltac splits :=
  repeat (fsimp; match goal with
  | |- context [match ?x with _ => _ end] =>
      match x with
      | context [match _ with _ => _ end] => fail 1
      | _ => destruct x
      end
  end).

Lemma ci_tm_const : forall s e, ci_tm (fst (ci_step s e)) = ci_tm s.
Proof.
  intros [st tm a inv] e. unfold ci_step, ci_send, ci_final, ci_final_2xx, ci_final_non2xx,
    ci_provisional, ci_timer_a. cbn [ci_st ci_tm ci_a ci_invite].
  destruct st, e as [w|r|r|t|]; try reflexivity; splits; reflexivity.
Qed.

(** states from which nothing is ever retransmitted *)
Definition ci_quiet (s : ci) : bool :=
  match ci_st s with CiCalling => false | _ => true end.

Lemma ci_quiet_step : forall s e, ci_quiet s = true ->
  ci_quiet (fst (ci_step s e)) = true /\ transmits (snd (ci_step s e)) = []
  /\ schedules TmA (snd (ci_step s e)) = [] /\ panics (snd (ci_step s e)) = false.
Proof.
  intros [st tm a inv] e H. unfold ci_quiet in *. simpl in H.
  unfold ci_step, ci_final, ci_final_2xx, ci_final_non2xx, ci_provisional. simpl.
  destruct st; try discriminate; destruct e as [w|r|r|t|]; simpl; auto;
    try (destruct t; simpl; auto; fail);
    try (destruct (is_2xx r); simpl; auto; fail);
    try (destruct (response_requires_prack r); simpl; auto; fail).
Qed.

Lemma ci_quiet_run : forall es s, ci_quiet s = true ->
  transmits (outputs ci_step s es) = [] /\ schedules TmA (outputs ci_step s es) = []
  /\ panics (outputs ci_step s es) = false.
Proof.
  induction es as [|e es IH]; intros s H; [repeat split; reflexivity|].
  rewrite outputs_cons. destruct (ci_quiet_step s e H) as [H1 [H2 [H3 H4]]].
  destruct (IH _ H1) as [H5 [H6 H7]].
  rewrite transmits_app, schedules_app, panics_app, H2, H3, H4, H5, H6, H7.
  repeat split; reflexivity.
Qed.

Lemma ci_stop_quiet : forall s e, ci_st s = CiCalling -> ci_stops e = true ->
  ci_quiet (fst (ci_step s e)) = true /\ transmits (snd (ci_step s e)) = []
  /\ schedules TmA (snd (ci_step s e)) = [] /\ panics (snd (ci_step s e)) = false.
Proof.
  intros [st tm a inv] e H He. simpl in H. subst.
  destruct e as [w|r|r|t|]; simpl in He; try discriminate.
  - cbn. destruct (response_requires_prack r); cbn; auto.
  - unfold ci_step, ci_final, ci_final_2xx, ci_final_non2xx. cbn.
    destruct (is_2xx r); cbn; auto.
  - destruct t; try discriminate. cbn. auto.
  - cbn. auto.
Qed.

Lemma ci_schedule_udp : forall es tm w j a,
  existsb ci_is_send es = false ->
  tm_t1 tm * 2 <= DURATION_MAX -> tm_t2 tm * 2 <= DURATION_MAX ->
  duration tm TmA <> 0 ->
  a = backoff (tm_t1 tm) (tm_t2 tm) j ->
  let s := mkCi CiCalling tm a (Some w) in
  let n := length (filter ci_is_a (take_until ci_stops es)) in
  transmits (outputs ci_step s es) = repeat w n
  /\ schedules TmA (outputs ci_step s es)
     = map (backoff (tm_t1 tm) (tm_t2 tm)) (seq (S j) n)
  /\ panics (outputs ci_step s es) = false.
Proof.
  induction es as [|e es IH]; intros tm w j a Hns H1 H2 Hd Ha s n.
  - subst n. simpl. repeat split; reflexivity.
  - simpl in Hns. apply orb_false_iff in Hns. destruct Hns as [He Hes].
    rewrite outputs_cons, transmits_app, schedules_app, panics_app.
    destruct (ci_stops e) eqn:Est.
    + destruct (ci_stop_quiet s e eq_refl Est) as [Hq [Ht [Hs Hp]]].
      destruct (ci_quiet_run es _ Hq) as [H5 [H6 H7]].
      rewrite Ht, Hs, Hp, H5, H6, H7. subst n. simpl. rewrite Est. simpl.
      repeat split; reflexivity.
    + destruct (ci_is_a e) eqn:Ea.
      * destruct e as [| | |t|]; simpl in Ea; try discriminate.
        destruct t; try discriminate. clear Ea Est He.
        assert (Hn : n = S (length (filter ci_is_a (take_until ci_stops es)))) by reflexivity.
        assert (Hst : ci_step s (CiTimer TmA)
                = (mkCi CiCalling tm (backoff (tm_t1 tm) (tm_t2 tm) (S j)) (Some w),
                   [Transmit w; Schedule TmA (backoff (tm_t1 tm) (tm_t2 tm) (S j))])).
        { unfold ci_step, s, ci_timer_a. cbn [ci_st ci_tm ci_a ci_invite].
          destruct (duration tm TmA =? 0) eqn:E0; [lia|].
          change (duration tm TmT2) with (tm_t2 tm).
          rewrite Ha, backoff_step by assumption. reflexivity. }
        rewrite Hst. cbn [fst snd].
        destruct (IH tm w (S j) (backoff (tm_t1 tm) (tm_t2 tm) (S j)) Hes H1 H2 Hd eq_refl)
          as [H5 [H6 H7]].
        rewrite H5, H6, H7, Hn. split; [|split]; reflexivity.
      * assert (Hst : ci_step s e = (s, [])).
        { destruct e as [w'|r|r|t|]; simpl in *; try discriminate.
          destruct t; try discriminate; reflexivity. }
        rewrite Hst. cbn [fst snd]. subst n. simpl. rewrite Est. simpl. rewrite Ea.
        apply (IH tm w j a Hes H1 H2 Hd Ha).
Qed.

Lemma ci_schedule_rel : forall es s,
  existsb ci_is_send es = false -> duration (ci_tm s) TmA = 0 ->
  transmits (outputs ci_step s es) = [] /\ schedules TmA (outputs ci_step s es) = []
  /\ panics (outputs ci_step s es) = false.
Proof.
  induction es as [|e es IH]; intros s Hns Hd; [repeat split; reflexivity|].
  simpl in Hns. apply orb_false_iff in Hns. destruct Hns as [He Hes].
  rewrite outputs_cons, transmits_app, schedules_app, panics_app.
  assert (Htm : duration (ci_tm (fst (ci_step s e))) TmA = 0) by now rewrite ci_tm_const.
  destruct (IH _ Hes Htm) as [H5 [H6 H7]]. rewrite H5, H6, H7.
  assert (transmits (snd (ci_step s e)) = [] /\ schedules TmA (snd (ci_step s e)) = []
          /\ panics (snd (ci_step s e)) = false) as [Ha [Hb Hc]].
  { destruct (ci_quiet s) eqn:Eq; [apply ci_quiet_step; assumption|].
    destruct s as [st tm a inv]. unfold ci_quiet in Eq. simpl in Eq. destruct st; try discriminate.
    destruct e as [w'|r|r|t|]; simpl in He; try discriminate.
    - apply ci_stop_quiet; reflexivity.
    - apply ci_stop_quiet; reflexivity.
    - destruct t; try (cbn; auto; fail). simpl in Hd.
      unfold ci_step, ci_timer_a. cbn [ci_st ci_tm]. simpl duration. rewrite Hd. cbn. auto.
    - apply ci_stop_quiet; reflexivity. }
  rewrite Ha, Hb, Hc. auto.
Qed.

(** states a client INVITE machine can reach *)
Definition ci_ok (s : ci) : Prop := ci_st s <> CiConfirmed.
Lemma ci_ok_step : forall s e, ci_ok s -> ci_ok (fst (ci_step s e)).
Proof.
  intros [st tm a inv] e H. unfold ci_ok in *. simpl in H.
  unfold ci_step, ci_send, ci_final, ci_final_2xx, ci_final_non2xx, ci_provisional, ci_timer_a.
  cbn [ci_st ci_tm ci_a ci_invite].
  destruct st, e as [w|r|r|t|]; try (now elim H); splits; cbn; congruence.
Qed.
Lemma ci_ok_run : forall tm es, ci_ok (final_state ci_step (ci_new tm) es).
Proof. intros. apply final_inv; [apply ci_ok_step|]. unfold ci_ok. cbn. congruence. Qed.

Lemma ci_acks_step : forall s e, ci_ok s ->
  acks (snd (ci_step s e)) =
    match e with
    | CiFinal r =>
        if match ci_st s with CiTerminated => is_2xx r | _ => true end
        then [(r, is_2xx r)] else []
    | _ => []
    end
  /\ delivers (snd (ci_step s e)) =
    match e with
    | CiFinal r =>
        if match ci_st s with CiTerminated => is_2xx r | _ => true end
        then [r] else []
    | CiProv r =>
        match ci_st s with CiCalling | CiProceeding => [r] | _ => [] end
    | _ => []
    end.
Proof.
  intros [st tm a inv] e H. unfold ci_ok in H. simpl in H.
  unfold ci_step, ci_send, ci_final, ci_final_2xx, ci_final_non2xx, ci_provisional, ci_timer_a.
  cbn [ci_st].
  cbn [ci_st ci_tm ci_a ci_invite]. unfold sched_nz.
  destruct st, e as [w|r|r|t|]; try (now elim H); try (cbn; auto; fail);
    splits; cbn; auto.
Qed.

Definition ci_deadline (s : ci) (armed : list timer) : Prop :=
  match ci_st s with
  | CiCalling | CiProceeding => In TmB armed
  | CiCompleted => In TmD armed
  | CiConfirmed => False
  | CiTerminated => True
  end.

Lemma in_disarm : forall t u armed, In t armed -> t <> u -> In t (disarm u armed).
Proof.
  intros. unfold disarm. apply filter_In. split; auto.
  destruct (timer_eqb u t) eqn:E; [|reflexivity]. apply timer_eqb_spec in E. congruence.
Qed.

Ltac solve_in :=
  cbn; unfold disarm; repeat first [exact I | tauto | assumption | left; reflexivity
                    | match goal with |- In _ (filter _ _) => apply filter_In; split; [|reflexivity] end
                    | match goal with |- _ \/ _ => right end].

Lemma ci_deadline_step : forall s e armed,
  ci_deadline s armed ->
  ci_deadline (fst (ci_step s e)) (arm (ci_fired e armed) (snd (ci_step s e))).
Proof.
  intros [st tm a inv] e armed H. unfold ci_deadline in *. cbn [ci_st] in H.
  unfold ci_step, ci_send, ci_final, ci_final_2xx, ci_final_non2xx, ci_provisional, ci_timer_a, sched_nz.
  cbn [ci_st ci_tm ci_a ci_invite].
  destruct st, e as [w|r|r|t|]; try tauto; splits; solve_in.
Qed.

Lemma ci_deadline_run : forall es s armed,
  ci_deadline s armed -> ci_deadline (final_state ci_step s es) (ci_armed armed s es).
Proof.
  induction es as [|e es IH]; intros s armed H; [exact H|].
  rewrite final_cons. cbn [ci_armed]. apply IH. now apply ci_deadline_step.
Qed.

(** ** Client non-INVITE *)
Lemma cn_tm_const : forall s e, cn_tm (fst (cn_step s e)) = cn_tm s.
Proof.
  intros [st tm a inv] e. unfold cn_step, cn_send, cn_final, cn_timer_e.
  cbn [cn_st cn_tm cn_e cn_request].
  destruct st, e as [w|r|r|t|]; try reflexivity; splits; reflexivity.
Qed.

Definition cn_quiet (s : cn) : bool :=
  match cn_st s with CnTrying | CnProceeding => false | _ => true end.

Lemma cn_quiet_step : forall s e, cn_quiet s = true ->
  cn_quiet (fst (cn_step s e)) = true /\ transmits (snd (cn_step s e)) = []
  /\ schedules TmE (snd (cn_step s e)) = [] /\ panics (snd (cn_step s e)) = false
  /\ delivers (snd (cn_step s e)) = [].
Proof.
  intros [st tm a inv] e H. unfold cn_quiet in *. simpl in H.
  destruct st; try discriminate; destruct e as [w|r|r|t|]; cbn; auto 10;
    try (destruct t; cbn; auto 10; fail).
Qed.

Lemma cn_quiet_run : forall es s, cn_quiet s = true ->
  transmits (outputs cn_step s es) = [] /\ schedules TmE (outputs cn_step s es) = []
  /\ panics (outputs cn_step s es) = false /\ delivers (outputs cn_step s es) = [].
Proof.
  induction es as [|e es IH]; intros s H; [repeat split; reflexivity|].
  rewrite outputs_cons. destruct (cn_quiet_step s e H) as [H1 [H2 [H3 [H4 H4']]]].
  destruct (IH _ H1) as [H5 [H6 [H7 H8]]].
  rewrite transmits_app, schedules_app, panics_app, delivers_app, H2, H3, H4, H4', H5, H6, H7, H8.
  repeat split; reflexivity.
Qed.

Definition cn_active (s : cn) : Prop := cn_st s = CnTrying \/ cn_st s = CnProceeding.

Lemma cn_schedule : forall es s w j,
  cn_active s -> cn_request s = Some w ->
  existsb cn_is_send es = false ->
  tm_t1 (cn_tm s) * 2 <= DURATION_MAX -> tm_t2 (cn_tm s) * 2 <= DURATION_MAX ->
  duration (cn_tm s) TmE <> 0 ->
  cn_e s = backoff (tm_t1 (cn_tm s)) (tm_t2 (cn_tm s)) j ->
  let n := length (filter cn_is_e (take_until cn_stops es)) in
  transmits (outputs cn_step s es) = repeat w n
  /\ schedules TmE (outputs cn_step s es)
     = map (backoff (tm_t1 (cn_tm s)) (tm_t2 (cn_tm s))) (seq (S j) n)
  /\ panics (outputs cn_step s es) = false.
Proof.
  induction es as [|e es IH]; intros s w j Hact Hreq Hns H1 H2 Hd Ha n.
  - subst n. simpl. repeat split; reflexivity.
  - simpl in Hns. apply orb_false_iff in Hns. destruct Hns as [He Hes].
    rewrite outputs_cons, transmits_app, schedules_app, panics_app.
    destruct s as [st tm a inv]. cbn [cn_tm cn_e cn_request] in *. subst inv.
    unfold cn_active in Hact. cbn [cn_st] in Hact.
    destruct e as [w'|r|r|t|]; simpl in He; try discriminate.
    + (* provisional *)
      assert (Hst : cn_step (mkCn st tm a (Some w)) (CnProv r)
                    = (mkCn CnProceeding tm a (Some w), [Deliver r]))
        by (destruct Hact; subst; reflexivity).
      rewrite Hst. cbn [fst snd].
      apply (IH (mkCn CnProceeding tm a (Some w)) w j); fsimp; try assumption; [right|]; reflexivity.
    + assert (Hst : cn_step (mkCn st tm a (Some w)) (CnFinal r)
                    = cn_final (mkCn st tm a (Some w)) r)
        by (destruct Hact; subst; reflexivity).
      rewrite Hst. cbn [fst snd cn_final].
      destruct (cn_quiet_run es (cn_set (mkCn st tm a (Some w)) CnCompleted) eq_refl)
        as [H5 [H6 [H7 _]]]. rewrite H5, H6, H7. subst n. repeat split; reflexivity.
    + destruct (cn_is_e (CnTimer t)) eqn:Ea.
      * destruct t; try discriminate.
        assert (Hst : cn_step (mkCn st tm a (Some w)) (CnTimer TmE)
                = (mkCn st tm (backoff (tm_t1 tm) (tm_t2 tm) (S j)) (Some w),
                   [Transmit w; Schedule TmE (backoff (tm_t1 tm) (tm_t2 tm) (S j))])).
        { assert (Hx : cn_step (mkCn st tm a (Some w)) (CnTimer TmE)
                       = cn_timer_e (mkCn st tm a (Some w))) by (destruct Hact; subst; reflexivity).
          rewrite Hx. unfold cn_timer_e. cbn [cn_st cn_tm cn_e cn_request].
          destruct (duration tm TmE =? 0) eqn:E0; [lia|].
          change (duration tm TmT2) with (tm_t2 tm).
          rewrite Ha, backoff_step by assumption. reflexivity. }
        rewrite Hst. cbn [fst snd].
        destruct (IH (mkCn st tm (backoff (tm_t1 tm) (tm_t2 tm) (S j)) (Some w)) w (S j)
                    Hact eq_refl Hes H1 H2 Hd eq_refl) as [H5 [H6 H7]].
        cbn [cn_tm] in *. rewrite H5, H6, H7. subst n. repeat split; reflexivity.
      * destruct (cn_stops (CnTimer t)) eqn:Est.
        -- destruct t; try discriminate.
           assert (Hst : cn_step (mkCn st tm a (Some w)) (CnTimer TmF)
                         = (mkCn CnTerminated tm a (Some w), [Cancel TmE; Terminate]))
             by (destruct Hact; subst; reflexivity).
           rewrite Hst. cbn [fst snd].
           destruct (cn_quiet_run es (mkCn CnTerminated tm a (Some w)) eq_refl) as [H5 [H6 [H7 _]]].
           rewrite H5, H6, H7. subst n. repeat split; reflexivity.
        -- assert (Hst : cn_step (mkCn st tm a (Some w)) (CnTimer t) = (mkCn st tm a (Some w), []))
             by (destruct Hact; subst; destruct t; try discriminate; reflexivity).
           rewrite Hst. cbn [fst snd]. subst n. simpl take_until.
           simpl in Est, Ea. rewrite Est. simpl. rewrite Ea.
           apply (IH (mkCn st tm a (Some w)) w j); fsimp; try assumption; reflexivity.
    + assert (Hst : cn_step (mkCn st tm a (Some w)) CnTransportError
                    = (mkCn CnTerminated tm a (Some w), [Terminate]))
        by (destruct Hact; subst; reflexivity).
      rewrite Hst. cbn [fst snd].
      destruct (cn_quiet_run es (mkCn CnTerminated tm a (Some w)) eq_refl) as [H5 [H6 [H7 _]]].
      rewrite H5, H6, H7. subst n. repeat split; reflexivity.
Qed.

Lemma cn_schedule_rel : forall es s,
  existsb cn_is_send es = false -> duration (cn_tm s) TmE = 0 ->
  transmits (outputs cn_step s es) = [] /\ schedules TmE (outputs cn_step s es) = [].
Proof.
  induction es as [|e es IH]; intros s Hns Hd; [repeat split; reflexivity|].
  simpl in Hns. apply orb_false_iff in Hns. destruct Hns as [He Hes].
  rewrite outputs_cons, transmits_app, schedules_app.
  assert (Htm : duration (cn_tm (fst (cn_step s e))) TmE = 0) by now rewrite cn_tm_const.
  destruct (IH _ Hes Htm) as [H5 H6]. rewrite H5, H6.
  assert (transmits (snd (cn_step s e)) = [] /\ schedules TmE (snd (cn_step s e)) = [])
    as [Ha Hb]; [|rewrite Ha, Hb; auto].
  destruct s as [st tm a inv]. cbn [cn_tm] in Hd.
  destruct e as [w'|r|r|t|]; try discriminate; destruct st; try (cbn; auto; fail);
    destruct t; try (cbn; auto; fail);
    unfold cn_step, cn_timer_e; cbn [cn_st cn_tm]; rewrite Hd; cbn; auto.
Qed.

Lemma cn_finals_quiet : forall es s, cn_quiet s = true ->
  cn_finals (snd (run cn_step s es)) es = [].
Proof.
  induction es as [|e es IH]; intros s H; [reflexivity|].
  rewrite run_cons. cbn [snd]. unfold cn_finals. cbn [combine flat_map fst snd].
  destruct (cn_quiet_step s e H) as [H1 [_ [_ [_ H4]]]].
  rewrite H4. fold (cn_finals (snd (run cn_step (fst (cn_step s e)) es)) es).
  rewrite (IH _ H1). destruct e; reflexivity.
Qed.

Lemma cn_finals_active : forall es s, cn_active s ->
  cn_finals (snd (run cn_step s es)) es = first_final es.
Proof.
  induction es as [|e es IH]; intros s Hact; [reflexivity|].
  rewrite run_cons. cbn [snd]. unfold cn_finals. cbn [combine flat_map fst snd].
  fold (cn_finals (snd (run cn_step (fst (cn_step s e)) es)) es).
  destruct s as [st tm a inv]. unfold cn_active in Hact. cbn [cn_st] in Hact.
  assert (Hstay : cn_active (fst (cn_step (mkCn st tm a inv) e)) ->
     cn_finals (snd (run cn_step (fst (cn_step (mkCn st tm a inv) e)) es)) es = first_final es)
    by apply IH.
  assert (Hq : cn_quiet (fst (cn_step (mkCn st tm a inv) e)) = true ->
     cn_finals (snd (run cn_step (fst (cn_step (mkCn st tm a inv) e)) es)) es = [])
    by apply cn_finals_quiet.
  destruct e as [w'|r|r|t|]; cbn [first_final cn_stops].
  - apply Hstay. destruct Hact; subst; cbn; [left|right]; reflexivity.
  - apply Hstay. destruct Hact; subst; right; reflexivity.
  - rewrite Hq by (destruct Hact; subst; reflexivity).
    destruct Hact; subst; reflexivity.
  - destruct t; try (apply Hstay; destruct Hact; subst; [left|right]; reflexivity).
    + apply Hstay. unfold cn_step, cn_timer_e.
      destruct Hact; subst; cbn [cn_st cn_tm cn_e cn_request];
      (destruct (duration tm TmE =? 0); [|destruct (backoff_next a (duration tm TmT2)); [destruct inv|]]);
      ((left; reflexivity) || (right; reflexivity)).
    + apply Hq. destruct Hact; subst; reflexivity.
  - apply Hq. destruct Hact; subst; reflexivity.
Qed.

(** deadline *)
Definition cn_deadline (s : cn) (armed : list timer) : Prop :=
  match cn_st s with
  | CnTrying | CnProceeding => In TmF armed
  | CnCompleted => In TmK armed
  | CnTerminated => True
  end.
Lemma cn_deadline_step : forall s e armed,
  cn_deadline s armed ->
  cn_deadline (fst (cn_step s e)) (arm (cn_fired e armed) (snd (cn_step s e))).
Proof.
  intros [st tm a inv] e armed H. unfold cn_deadline in *. cbn [cn_st] in H.
  unfold cn_step, cn_send, cn_final, cn_timer_e, sched_nz.
  cbn [cn_st cn_tm cn_e cn_request].
  destruct st, e as [w|r|r|t|]; try tauto; splits; solve_in.
Qed.
Lemma cn_deadline_run : forall es s armed,
  cn_deadline s armed -> cn_deadline (final_state cn_step s es) (cn_armed armed s es).
Proof.
  induction es as [|e es IH]; intros s armed H; [exact H|].
  rewrite final_cons. cbn [cn_armed]. apply IH. now apply cn_deadline_step.
Qed.

(** ** Server non-INVITE *)
Definition sn_inv (s : sn) (sent : list str) : Prop :=
  sn_last s = match rev sent with [] => None | b :: _ => Some b end
  /\ (sn_st s = SnTrying -> sent = []).

Lemma sn_inv_step : forall s e sent, sn_inv s sent ->
  sn_inv (fst (sn_step s e)) (sent ++ transmits (snd (sn_step s e))).
Proof.
  intros [st tm l] e sent [H1 H2]. unfold sn_inv in *. cbn [sn_last sn_st] in *. subst l.
  unfold sn_step, sn_retransmit; destruct st, e as [|r|r|t| | |]; try destruct t;
    cbn [fst snd sn_st sn_last sn_tm sn_set transmits flat_map app]; rewrite ?app_nil_r;
    try (split; [reflexivity|auto; try congruence]; fail);
    try (split; [rewrite rev_app_distr; reflexivity|congruence]).
  all: destruct (rev sent) as [|b0 l0] eqn:E; cbn [transmits flat_map app]; rewrite ?app_nil_r;
       (split; [rewrite ?rev_app_distr, ?E; reflexivity|try congruence; auto]).
Qed.

Lemma sn_inv_run : forall es s sent, sn_inv s sent ->
  sn_inv (final_state sn_step s es) (sent ++ transmits (outputs sn_step s es)).
Proof.
  induction es as [|e es IH]; intros s sent H.
  - cbn. rewrite app_nil_r. exact H.
  - rewrite final_cons, outputs_cons, transmits_app, app_assoc. apply IH.
    now apply sn_inv_step.
Qed.

(** ** Server INVITE *)
Definition si_inv (s : si) (sent : list str) : Prop :=
  (si_last s = match rev sent with [] => None | b :: _ => Some b end)
  /\ (si_st s = SiCompleted -> si_final s = si_last s /\ si_last s <> None).

Lemma si_inv_step : forall s e sent, si_inv s sent ->
  si_inv (fst (si_step s e)) (sent ++ transmits (snd (si_step s e))).
Proof.
  intros [st tm g l f] e sent [H1 H2]. unfold si_inv in *. cbn [si_last si_st si_final] in *. subst l.
  unfold si_step, si_retransmit, si_send_final, si_timer_g, sched_nz.
  destruct st, e as [| |r|r| |t| |]; try destruct t;
    cbn [fst snd si_st si_last si_tm si_g si_final si_set transmits flat_map app]; rewrite ?app_nil_r;
    try (split; [reflexivity|auto; try congruence]; fail);
    try (split; [rewrite rev_app_distr; reflexivity|congruence]).
  all: try (destruct (is_2xx r); [|destruct (duration tm TmG =? 0)];
            cbn [fst snd si_st si_last si_final transmits flat_map app];
            (split; [rewrite rev_app_distr; reflexivity|]); [congruence| |]; intros _; split; congruence).
  - destruct (rev sent) as [|b0 l0] eqn:E; cbn [transmits flat_map app]; rewrite ?app_nil_r;
       (split; [rewrite ?rev_app_distr, ?E; reflexivity|try congruence; auto]).
  - destruct (H2 eq_refl) as [Hf Hl].
    destruct (duration tm TmG =? 0); [cbn; rewrite app_nil_r; split; [reflexivity|auto]|].
    destruct (rev sent) as [|b0 l0] eqn:E; [congruence|]. rewrite Hf.
    destruct (backoff_next g (duration tm TmT2)); cbn; rewrite ?app_nil_r.
    + split; [rewrite rev_app_distr; reflexivity|]. intros _. split; congruence.
    + rewrite E. split; [reflexivity|]. intros _. split; congruence.
  - destruct (H2 eq_refl) as [Hf Hl].
    destruct (rev sent) as [|b0 l0] eqn:E; [congruence|].
    cbn. split; [rewrite rev_app_distr; reflexivity|]. intros _. split; congruence.
Qed.

Lemma si_inv_run : forall es s sent, si_inv s sent ->
  si_inv (final_state si_step s es) (sent ++ transmits (outputs si_step s es)).
Proof.
  induction es as [|e es IH]; intros s sent H.
  - cbn. rewrite app_nil_r. exact H.
  - rewrite final_cons, outputs_cons, transmits_app, app_assoc. apply IH.
    now apply si_inv_step.
Qed.

Definition si_quiet (s : si) : bool :=
  match si_st s with SiConfirmed | SiTerminated => true | _ => false end.

Lemma si_quiet_step : forall s e, si_quiet s = true -> si_is_final e = false ->
  si_quiet (fst (si_step s e)) = true /\ transmits (snd (si_step s e)) = []
  /\ schedules TmG (snd (si_step s e)) = [] /\ panics (snd (si_step s e)) = false.
Proof.
  intros [st tm g l f] e H He. unfold si_quiet in *. simpl in H.
  destruct st; try discriminate; destruct e as [| |r|r| |t| |]; try discriminate;
    try destruct t; cbn; auto.
Qed.

Lemma si_quiet_run : forall es s, si_quiet s = true -> existsb si_is_final es = false ->
  transmits (outputs si_step s es) = [] /\ schedules TmG (outputs si_step s es) = []
  /\ panics (outputs si_step s es) = false.
Proof.
  induction es as [|e es IH]; intros s H Hf; [repeat split; reflexivity|].
  simpl in Hf. apply orb_false_iff in Hf. destruct Hf as [He Hes].
  rewrite outputs_cons. destruct (si_quiet_step s e H He) as [H1 [H2 [H3 H4]]].
  destruct (IH _ H1 Hes) as [H5 [H6 H7]].
  rewrite transmits_app, schedules_app, panics_app, H2, H3, H4, H5, H6, H7.
  repeat split; reflexivity.
Qed.

(** repetitions of the final response while Completed *)
Lemma si_schedule : forall es tm g w j,
  existsb si_is_final es = false ->
  tm_t1 tm * 2 <= DURATION_MAX -> tm_t2 tm * 2 <= DURATION_MAX ->
  duration tm TmG <> 0 ->
  g = backoff (tm_t1 tm) (tm_t2 tm) j ->
  let s := mkSi SiCompleted tm g (Some w) (Some w) in
  let pre := take_until si_stops es in
  transmits (outputs si_step s es)
    = repeat w (length (filter (fun e => si_is_g e || si_is_retr e) pre))
  /\ schedules TmG (outputs si_step s es)
     = map (backoff (tm_t1 tm) (tm_t2 tm)) (seq (S j) (length (filter si_is_g pre)))
  /\ panics (outputs si_step s es) = false.
Proof.
  induction es as [|e es IH]; intros tm g w j Hns H1 H2 Hd Ha s pre.
  - subst pre. simpl. repeat split; reflexivity.
  - simpl in Hns. apply orb_false_iff in Hns. destruct Hns as [He Hes].
    rewrite outputs_cons, transmits_app, schedules_app, panics_app.
    destruct (si_stops e) eqn:Est.
    + assert (Hq : si_quiet (fst (si_step s e)) = true /\ transmits (snd (si_step s e)) = []
                   /\ schedules TmG (snd (si_step s e)) = [] /\ panics (snd (si_step s e)) = false).
      { destruct e as [| |r|r| |t| |]; try discriminate; try destruct t; try discriminate; cbn; auto. }
      destruct Hq as [Hq [Ht [Hs Hp]]].
      destruct (si_quiet_run es _ Hq Hes) as [H5 [H6 H7]].
      rewrite Ht, Hs, Hp, H5, H6, H7. subst pre. simpl. rewrite Est. simpl.
      repeat split; reflexivity.
    + assert (Hpre : pre = e :: take_until si_stops es)
        by (subst pre; simpl; now rewrite Est).
      rewrite Hpre. clear Hpre pre. cbn [filter].
      destruct (si_is_g e) eqn:Eg.
      * destruct e as [| |r|r| |t| |]; try discriminate; destruct t; try discriminate.
        assert (Hst : si_step s (SiTimer TmG)
                = (mkSi SiCompleted tm (backoff (tm_t1 tm) (tm_t2 tm) (S j)) (Some w) (Some w),
                   [Transmit w; Schedule TmG (backoff (tm_t1 tm) (tm_t2 tm) (S j))])).
        { unfold si_step, s, si_timer_g. cbn [si_st si_tm si_g si_final si_last].
          destruct (duration tm TmG =? 0) eqn:E0; [lia|].
          change (duration tm TmT2) with (tm_t2 tm).
          rewrite Ha, backoff_step by assumption. reflexivity. }
        rewrite Hst. cbn [fst snd].
        destruct (IH tm (backoff (tm_t1 tm) (tm_t2 tm) (S j)) w (S j) Hes H1 H2 Hd eq_refl)
          as [H5 [H6 H7]].
        rewrite H5, H6, H7. repeat split; reflexivity.
      * destruct (si_is_retr e) eqn:Er.
        -- destruct e as [| |r|r| |t| |]; try discriminate.
           assert (Hst : si_step s SiRetransmit = (s, [Transmit w])) by reflexivity.
           rewrite Hst. cbn [fst snd orb].
           destruct (IH tm g w j Hes H1 H2 Hd Ha) as [H5 [H6 H7]].
           fold s in H5, H6, H7. rewrite H5, H6, H7. repeat split; reflexivity.
        -- assert (Hst : si_step s e = (s, [])).
           { destruct e as [| |r|r| |t| |]; try discriminate; try reflexivity.
             destruct t; try discriminate; reflexivity. }
           rewrite Hst. cbn [fst snd orb]. apply (IH tm g w j Hes H1 H2 Hd Ha).
Qed.

(** deadline of a server INVITE transaction that sent a non-2xx final *)
Definition si_deadline (s : si) (armed : list timer) : Prop :=
  match si_st s with
  | SiProceeding => True
  | SiCompleted => In TmH armed
  | SiConfirmed => In TmI armed
  | SiTerminated => True
  end.
Lemma si_deadline_step : forall s e armed,
  si_deadline s armed ->
  si_deadline (fst (si_step s e)) (arm (si_fired e armed) (snd (si_step s e))).
Proof.
  intros [st tm g l f] e armed H. unfold si_deadline in *. cbn [si_st] in H.
  unfold si_step, si_send_final, si_timer_g, si_retransmit, sched_nz.
  cbn [si_st si_tm si_g si_final si_last].
  destruct st, e as [| |r|r| |t| |]; try tauto; splits; solve_in.
Qed.
Lemma si_deadline_run : forall es s armed,
  si_deadline s armed -> si_deadline (final_state si_step s es) (si_armed armed s es).
Proof.
  induction es as [|e es IH]; intros s armed H; [exact H|].
  rewrite final_cons. cbn [si_armed]. apply IH. now apply si_deadline_step.
Qed.

(** ** Termination is final *)
Lemma ci_term_step : forall s e, ci_st s = CiTerminated ->
  ci_st (fst (ci_step s e)) = CiTerminated
  /\ transmits (snd (ci_step s e)) = [] /\ (forall t, schedules t (snd (ci_step s e)) = []).
Proof.
  intros [st tm a inv] e H. simpl in H. subst.
  destruct e as [w|r|r|t|]; try destruct t; cbn; auto.
  destruct (is_2xx r); cbn; auto.
Qed.
Lemma cn_term_step : forall s e, cn_st s = CnTerminated ->
  cn_st (fst (cn_step s e)) = CnTerminated
  /\ (snd (cn_step s e) = [] \/ e = CnTransportError /\ snd (cn_step s e) = [Terminate]).
Proof.
  intros [st tm a inv] e H. simpl in H. subst.
  destruct e as [w|r|r|t|]; try destruct t; cbn; auto.
Qed.
Lemma sn_term_step : forall s e, sn_st s = SnTerminated ->
  sn_st (fst (sn_step s e)) = SnTerminated
  /\ (snd (sn_step s e) = [] \/ e = SnTransportError /\ snd (sn_step s e) = [Terminate]).
Proof.
  intros [st tm l] e H. simpl in H. subst.
  destruct e as [|r|r|t| | |]; try destruct t; cbn; auto.
Qed.
Lemma si_term_step : forall s e, si_st s = SiTerminated ->
  si_st (fst (si_step s e)) = SiTerminated
  /\ (snd (si_step s e) = [] \/ e = SiTransportError /\ snd (si_step s e) = [Terminate]).
Proof.
  intros [st tm g l f] e H. simpl in H. subst.
  destruct e as [| |r|r| |t| |]; try destruct t; cbn; auto.
Qed.

(** ** Server non-INVITE: relation to what the user submitted *)
Lemma sn_term_run : forall es s, sn_st s = SnTerminated ->
  sn_st (final_state sn_step s es) = SnTerminated /\ transmits (outputs sn_step s es) = []
  /\ (forall t, schedules t (outputs sn_step s es) = []).
Proof.
  induction es as [|e es IH]; intros s H; [auto|].
  rewrite final_cons, outputs_cons. destruct (sn_term_step s e H) as [H1 H2].
  destruct (IH _ H1) as [H3 [H4 H5]]. split; [assumption|].
  rewrite transmits_app, H4. split.
  - destruct H2 as [H2|[_ H2]]; rewrite H2; reflexivity.
  - intro t. rewrite schedules_app, H5. destruct H2 as [H2|[_ H2]]; rewrite H2; reflexivity.
Qed.

Definition last_or (l : option str) (sent : list str) : option str :=
  match rev sent with [] => l | b :: _ => Some b end.

Lemma last_or_cons : forall b l sent, last_or l (b :: sent) = last_or (Some b) sent.
Proof.
  intros. unfold last_or. cbn [rev]. destruct (rev sent); reflexivity.
Qed.

Lemma sn_last_completed : forall es s, sn_st s = SnCompleted ->
  sn_st (final_state sn_step s es) <> SnTerminated ->
  sn_st (final_state sn_step s es) = SnCompleted /\ sn_last (final_state sn_step s es) = sn_last s.
Proof.
  induction es as [|e es IH]; intros s H Hn; [auto|].
  rewrite final_cons in *.
  destruct s as [st tm l]. cbn in H. subst.
  assert (Hd : sn_step (mkSn SnCompleted tm l) e = (mkSn SnCompleted tm l, snd (sn_step (mkSn SnCompleted tm l) e))
               \/ sn_st (fst (sn_step (mkSn SnCompleted tm l) e)) = SnTerminated).
  { destruct e as [|r|r|t| | |]; try destruct t; cbn; auto. }
  destruct Hd as [Hd|Hd].
  - rewrite Hd in *. cbn [fst] in *. apply (IH (mkSn SnCompleted tm l) eq_refl Hn).
  - exfalso. apply Hn. apply sn_term_run. exact Hd.
Qed.

Lemma sn_last_proceeding : forall es s, sn_st s = SnProceeding ->
  sn_st (final_state sn_step s es) <> SnTerminated ->
  sn_last (final_state sn_step s es) = last_or (sn_last s) (sn_sent es)
  /\ sn_st (final_state sn_step s es) <> SnTrying.
Proof.
  induction es as [|e es IH]; intros s H Hn.
  - split; [reflexivity|]. cbn. congruence.
  - rewrite final_cons in *. destruct s as [st tm l]. cbn in H. subst.
    destruct e as [|r|r|t| | |]; cbn [sn_sent]; rewrite ?last_or_cons.
    + apply (IH (mkSn SnProceeding tm l)); [reflexivity|exact Hn].
    + apply (IH (mkSn SnProceeding tm (Some (rs_wire r)))); [reflexivity|exact Hn].
    + destruct (sn_last_completed es (mkSn SnCompleted tm (Some (rs_wire r))) eq_refl Hn) as [Ha Hb].
      cbn [fst sn_step sn_st sn_tm] in *. rewrite Ha, Hb. split; [reflexivity|congruence].
    + apply (IH (mkSn SnProceeding tm l)); [reflexivity|].
      destruct t; exact Hn.
    + apply (IH (mkSn SnProceeding tm l)); [reflexivity|exact Hn].
    + exfalso. apply Hn. apply sn_term_run. reflexivity.
    + apply (IH (mkSn SnProceeding tm l)); [reflexivity|exact Hn].
Qed.

Lemma sn_own_none : forall es s, sn_st s = SnCompleted \/ sn_st s = SnTerminated ->
  sn_own es (snd (run sn_step s es)) = [].
Proof.
  induction es as [|e es IH]; intros s H; [reflexivity|].
  rewrite run_cons. cbn [snd]. unfold sn_own. cbn [combine flat_map fst snd].
  fold (sn_own es (snd (run sn_step (fst (sn_step s e)) es))).
  rewrite IH; [rewrite app_nil_r|].
  - destruct s as [st tm l]. cbn in H.
    destruct H; subst; destruct e as [|r|r|t| | |]; try destruct t; reflexivity.
  - destruct s as [st tm l]. cbn in H.
    destruct H; subst; destruct e as [|r|r|t| | |]; try destruct t; cbn; auto.
Qed.

Lemma sn_own_sent : forall es s, sn_st s = SnProceeding ->
  sn_own es (snd (run sn_step s es)) = sn_sent (take_until sn_is_error es).
Proof.
  induction es as [|e es IH]; intros s H; [reflexivity|].
  rewrite run_cons. cbn [snd]. unfold sn_own. cbn [combine flat_map fst snd].
  fold (sn_own es (snd (run sn_step (fst (sn_step s e)) es))).
  destruct s as [st tm l]. cbn in H. subst.
  destruct e as [|r|r|t| | |]; cbn [take_until sn_is_error sn_sent sn_is_retr].
  - rewrite IH by reflexivity. reflexivity.
  - rewrite IH by reflexivity. reflexivity.
  - rewrite sn_own_none by (left; reflexivity). reflexivity.
  - rewrite IH by (destruct t; reflexivity). destruct t; reflexivity.
  - rewrite IH by reflexivity. reflexivity.
  - rewrite sn_own_none by (right; reflexivity). reflexivity.
  - rewrite IH by reflexivity. reflexivity.
Qed.

(** ** Server INVITE before the final response *)
Lemma si_pre_proceeding : forall es s, si_st s = SiProceeding ->
  existsb si_is_final es = false -> existsb si_is_error es = false ->
  si_st (final_state si_step s es) = SiProceeding
  /\ si_tm (final_state si_step s es) = si_tm s.
Proof.
  induction es as [|e es IH]; intros s H H1 H2; [auto|].
  cbn [existsb] in *. apply orb_false_iff in H1, H2. destruct H1 as [H1 H1'], H2 as [H2 H2'].
  rewrite final_cons. destruct s as [st tm g l f]. cbn in H. subst.
  destruct (IH (fst (si_step (mkSi SiProceeding tm g l f) e))) as [Ha Hb]; auto.
  - destruct e as [| |r|r| |t| |]; try discriminate; try destruct t; reflexivity.
  - split; [exact Ha|]. rewrite Hb.
    destruct e as [| |r|r| |t| |]; try discriminate; try destruct t; reflexivity.
Qed.

Lemma si_schedule_rel : forall es tm g w,
  existsb si_is_final es = false -> duration tm TmG = 0 ->
  let s := mkSi SiCompleted tm g (Some w) (Some w) in
  transmits (outputs si_step s es)
    = repeat w (length (filter si_is_retr (take_until si_stops es)))
  /\ schedules TmG (outputs si_step s es) = [].
Proof.
  induction es as [|e es IH]; intros tm g w Hns Hd s; [split; reflexivity|].
  cbn [existsb] in Hns. apply orb_false_iff in Hns. destruct Hns as [He Hes].
  rewrite outputs_cons, transmits_app, schedules_app. cbn [take_until].
  destruct (IH tm g w Hes Hd) as [Ha Hb]. fold s in Ha, Hb.
  destruct (si_stops e) eqn:Est.
  - assert (Hq : si_quiet (fst (si_step s e)) = true /\ transmits (snd (si_step s e)) = []
                   /\ schedules TmG (snd (si_step s e)) = []).
    { destruct e as [| |r|r| |t| |]; try discriminate; try destruct t; try discriminate; cbn; auto. }
    destruct Hq as [Hq [Ht Hs]].
    destruct (si_quiet_run es _ Hq Hes) as [H5 [H6 H7]]. rewrite Ht, Hs, H5, H6. split; reflexivity.
  - cbn [filter].
    destruct e as [| |r|r| |t| |]; try discriminate; cbn [si_is_retr];
      try (change (si_step s _) with (s, @nil action); cbn [fst snd]; rewrite Ha, Hb; split; reflexivity).
    + assert (Hst : si_step s (SiTimer t) = (s, [])).
      { destruct t; try discriminate; try reflexivity.
        unfold si_step, s, si_timer_g. cbn [si_st si_tm]. rewrite Hd. reflexivity. }
      rewrite Hst. cbn [fst snd]. rewrite Ha, Hb. split; reflexivity.
    + change (si_step s SiRetransmit) with (s, [Transmit w]). cbn [fst snd].
      rewrite Ha, Hb. split; reflexivity.
Qed.

Lemma si_term_run : forall es s, si_st s = SiTerminated ->
  si_st (final_state si_step s es) = SiTerminated /\ transmits (outputs si_step s es) = []
  /\ (forall t, schedules t (outputs si_step s es) = []).
Proof.
  induction es as [|e es IH]; intros s H; [auto|].
  rewrite final_cons, outputs_cons. destruct (si_term_step s e H) as [H1 H2].
  destruct (IH _ H1) as [H3 [H4 H5]]. split; [assumption|].
  rewrite transmits_app, H4. split.
  - destruct H2 as [H2|[_ H2]]; rewrite H2; reflexivity.
  - intro t. rewrite schedules_app, H5. destruct H2 as [H2|[_ H2]]; rewrite H2; reflexivity.
Qed.
Lemma cn_term_run : forall es s, cn_st s = CnTerminated ->
  cn_st (final_state cn_step s es) = CnTerminated /\ transmits (outputs cn_step s es) = []
  /\ delivers (outputs cn_step s es) = []
  /\ (forall t, schedules t (outputs cn_step s es) = []).
Proof.
  induction es as [|e es IH]; intros s H; [auto|].
  rewrite final_cons, outputs_cons. destruct (cn_term_step s e H) as [H1 H2].
  destruct (IH _ H1) as [H3 [H4 [H4' H5]]]. split; [assumption|].
  rewrite transmits_app, delivers_app, H4, H4'. split; [|split].
  - destruct H2 as [H2|[_ H2]]; rewrite H2; reflexivity.
  - destruct H2 as [H2|[_ H2]]; rewrite H2; reflexivity.
  - intro t. rewrite schedules_app, H5. destruct H2 as [H2|[_ H2]]; rewrite H2; reflexivity.
Qed.
Lemma ci_term_run : forall es s, ci_st s = CiTerminated ->
  ci_st (final_state ci_step s es) = CiTerminated /\ transmits (outputs ci_step s es) = []
  /\ (forall t, schedules t (outputs ci_step s es) = [])
  /\ delivers (outputs ci_step s es)
     = flat_map (fun e => match e with CiFinal r => if is_2xx r then [r] else [] | _ => [] end) es
  /\ acks (outputs ci_step s es)
     = flat_map (fun e => match e with CiFinal r => if is_2xx r then [(r, true)] else [] | _ => [] end) es.
Proof.
  induction es as [|e es IH]; intros s H; [repeat split; auto|].
  rewrite final_cons, outputs_cons. destruct (ci_term_step s e H) as [H1 [H2 H2']].
  destruct (IH _ H1) as [H3 [H4 [H5 [H6 H7]]]]. split; [assumption|].
  rewrite transmits_app, delivers_app, acks_app, H4, H2, H6, H7. split; [reflexivity|].
  split; [intro t; rewrite schedules_app, H5, H2'; reflexivity|].
  destruct s as [st tm a inv]. cbn in H. subst.
  cbn [flat_map]. destruct e as [w|r|r|t|]; try destruct t; try (split; reflexivity).
  unfold ci_step. cbn [ci_st]. destruct (is_2xx r); split; reflexivity.
Qed.
