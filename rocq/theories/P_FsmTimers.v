(** Timer properties of the transaction machines: C76, C77, C78. *)
From Coq Require Import Arith NArith Bool List Lia ZifyBool ZifyN ZifyNat.
Import ListNotations.
From Verif Require Import Base BaseFacts Headers Fsm FsmSpec FsmProofs.
Open Scope N_scope.

(** ** Specification *)
(** RFC 3261 table 4 (the timers that end a state, not the retransmission ones);
    [udp] is false for a reliable transport *)
Definition table4 (udp : bool) (t1 t4 : N) (t : timer) : option N :=
  match t with
  | TmB | TmF | TmH => Some (64 * t1)
  | TmD => Some (if udp then 32 * 1000000000 else 0)
  | TmI | TmK => Some (if udp then t4 else 0)
  | TmJ => Some (if udp then 64 * t1 else 0)
  | _ => None
  end.
Definition by_table4 (tm : timers) (l : list action) : Prop :=
  forall t d v, In (Schedule t d) l ->
    table4 (match tm_transport tm with Udp => true | _ => false end) (tm_t1 tm) (tm_t4 tm) t = Some v -> d = v.

(** how often a timer is started *)
Definition starts (t : timer) (l : list action) : nat := length (schedules t l).
Definition sn_fired (e : sn_event) (armed : list timer) : list timer :=
  match e with SnTimer t => disarm t armed | _ => armed end.
Fixpoint sn_armed (armed : list timer) (s : sn) (es : list sn_event) : list timer :=
  match es with
  | [] => armed
  | e :: r => sn_armed (arm (sn_fired e armed) (snd (sn_step s e))) (fst (sn_step s e)) r
  end.

(** ** Proofs *)
Lemma duration_table4 : forall tm t v, 64 * tm_t1 tm <= DURATION_MAX ->
  table4 (match tm_transport tm with Udp => true | _ => false end) (tm_t1 tm) (tm_t4 tm) t = Some v ->
  duration tm t = v.
Proof.
  intros tm t v Hm Hv. unfold duration, table4, secs in *.
  assert (S : sat_mul (tm_t1 tm) 64 = 64 * tm_t1 tm).
  { unfold sat_mul. rewrite N.mul_comm. apply N.min_l. exact Hm. }
  rewrite S. destruct t, (tm_transport tm); cbn [is_reliable]; try discriminate Hv; injection Hv as <-; reflexivity.
Qed.

Section Gen.
  Context {S E : Type} (stp : S -> E -> S * list action) (P : S -> Prop) (Q : list action -> Prop).
  Hypothesis Qnil : Q [].
  Hypothesis Qapp : forall a b, Q a -> Q b -> Q (a ++ b).
  Hypothesis Hs : forall s e, P s -> P (fst (stp s e)) /\ Q (snd (stp s e)).
  Lemma outputs_inv : forall es s, P s -> Q (outputs stp s es).
  Proof.
    induction es as [|e es IH]; intros s Hp; [exact Qnil|].
    rewrite outputs_cons. destruct (Hs s e Hp). apply Qapp; auto.
  Qed.
End Gen.

Ltac in_sched := cbn [In app snd] in *; repeat match goal with
  | H : _ \/ _ |- _ => destruct H
  | H : False |- _ => contradiction
  | H : In _ (_ ++ _) |- _ => apply in_app_or in H
  | H : In _ (if ?b then _ else _) |- _ => destruct b; cbn [In] in H
  end.

Lemma t4_nil : forall tm, by_table4 tm [].
Proof. intros tm t d v []. Qed.
Lemma t4_app : forall tm a b, by_table4 tm a -> by_table4 tm b -> by_table4 tm (a ++ b).
Proof. intros tm a b Ha Hb t d v Hi. apply in_app_or in Hi. destruct Hi; [now apply Ha|now apply Hb]. Qed.

Lemma t4_cons : forall tm a l,
  match a with Schedule t d => forall v,
    table4 (match tm_transport tm with Udp => true | _ => false end) (tm_t1 tm) (tm_t4 tm) t = Some v -> d = v
  | _ => True end -> by_table4 tm l -> by_table4 tm (a :: l).
Proof. intros tm a l Ha Hl t d v [->|Hi]; [apply Ha|now apply Hl]. Qed.
Ltac t4 Hm := unfold sched_nz; repeat first [apply t4_nil | apply t4_cons | apply t4_app
  | match goal with |- by_table4 _ (if ?b then _ else _) => destruct b end]; try exact I;
  let v := fresh "v" in let Hv := fresh "Hv" in intros v Hv;
  first [discriminate Hv | exact (duration_table4 _ _ _ Hm Hv)].

Lemma ci_t4 : forall s e, 64 * tm_t1 (ci_tm s) <= DURATION_MAX -> by_table4 (ci_tm s) (snd (ci_step s e)).
Proof.
  intros [st tm a inv] e Hm. cbn [ci_tm] in *.
  destruct st, e as [w|r|r|t0|]; try (destruct t0); cbn [ci_step ci_st];
    unfold ci_send, ci_provisional, ci_final, ci_final_2xx, ci_final_non2xx, ci_timer_a, ci_set; cbn [ci_st ci_tm ci_a ci_invite];
    try (apply t4_nil);
    repeat match goal with |- context [if ?b then _ else _] => destruct b end;
    try (destruct (backoff_next _ _)); try (destruct inv); cbn [snd]; t4 Hm.
Qed.
Lemma cn_t4 : forall s e, 64 * tm_t1 (cn_tm s) <= DURATION_MAX -> by_table4 (cn_tm s) (snd (cn_step s e)).
Proof.
  intros [st tm a inv] e Hm. cbn [cn_tm] in *.
  destruct st, e as [w|r|r|t0|]; try (destruct t0); cbn [cn_step cn_st];
    unfold cn_send, cn_final, cn_timer_e, cn_set; cbn [cn_st cn_tm cn_e cn_request];
    try (apply t4_nil);
    repeat match goal with |- context [if ?b then _ else _] => destruct b end;
    try (destruct (backoff_next _ _)); try (destruct inv); cbn [snd]; t4 Hm.
Qed.
Lemma sn_t4 : forall s e, 64 * tm_t1 (sn_tm s) <= DURATION_MAX -> by_table4 (sn_tm s) (snd (sn_step s e)).
Proof.
  intros [st tm l] e Hm. cbn [sn_tm] in *.
  destruct st, e as [|r|r|t0| | |]; try (destruct t0); cbn [sn_step sn_st];
    unfold sn_retransmit, sn_set; cbn [sn_st sn_tm sn_last]; try (destruct l); cbn [snd];
    t4 Hm.
Qed.
Lemma si_t4 : forall s e, 64 * tm_t1 (si_tm s) <= DURATION_MAX -> by_table4 (si_tm s) (snd (si_step s e)).
Proof.
  intros [st tm g l f] e Hm. cbn [si_tm] in *.
  destruct st, e as [| |r|r| |t0| |]; try (destruct t0); cbn [si_step si_st];
    unfold si_retransmit, si_send_final, si_timer_g, si_set; cbn [si_st si_tm si_g si_last si_final];
    try (apply t4_nil);
    repeat match goal with |- context [if ?b then _ else _] => destruct b end;
    try (destruct l); try (destruct f); try (destruct (backoff_next _ _)); cbn [snd]; t4 Hm.
Qed.
Lemma ci_tm_step : forall s e, ci_tm (fst (ci_step s e)) = ci_tm s.
Proof. intros. apply ci_tm_const. Qed.
Lemma cn_tm_step : forall s e, cn_tm (fst (cn_step s e)) = cn_tm s.
Proof. intros. apply cn_tm_const. Qed.
Lemma sn_tm_step : forall s e, sn_tm (fst (sn_step s e)) = sn_tm s.
Proof. intros [st tm l] e. destruct st, e as [|r|r|t0| | |]; try (destruct t0); reflexivity. Qed.
Lemma si_tm_step : forall s e, si_tm (fst (si_step s e)) = si_tm s.
Proof.
  intros [st tm g l f] e. destruct st, e as [| |r|r| |t0| |]; try (destruct t0); try reflexivity;
    cbn [si_step si_st]; unfold si_send_final, si_timer_g; cbn [si_tm si_g si_final si_last si_st];
    repeat match goal with |- context [if ?b then _ else _] => destruct b end; try reflexivity;
    destruct f; try (destruct (backoff_next _ _)); reflexivity.
Qed.

(** C76: whatever the history, each of the four machines starts its ending
    timers with the durations of RFC 3261 table 4. *)
Theorem C76_client_invite : forall tm es, 64 * tm_t1 tm <= DURATION_MAX ->
  by_table4 tm (outputs ci_step (ci_new tm) es).
Proof.
  intros tm es Hm. apply (outputs_inv ci_step (fun s => ci_tm s = tm)).
  - apply t4_nil.
  - apply t4_app.
  - intros s e <-. split; [apply ci_tm_step|now apply ci_t4].
  - reflexivity.
Qed.
Print Assumptions C76_client_invite.
Theorem C76_client_non_invite : forall tm es, 64 * tm_t1 tm <= DURATION_MAX ->
  by_table4 tm (outputs cn_step (cn_new tm) es).
Proof.
  intros tm es Hm. apply (outputs_inv cn_step (fun s => cn_tm s = tm)).
  - apply t4_nil.
  - apply t4_app.
  - intros s e <-. split; [apply cn_tm_step|now apply cn_t4].
  - reflexivity.
Qed.
Print Assumptions C76_client_non_invite.
Theorem C76_server_non_invite : forall tm es, 64 * tm_t1 tm <= DURATION_MAX ->
  by_table4 tm (outputs sn_step (sn_new tm) es).
Proof.
  intros tm es Hm. apply (outputs_inv sn_step (fun s => sn_tm s = tm)).
  - apply t4_nil.
  - apply t4_app.
  - intros s e <-. split; [apply sn_tm_step|now apply sn_t4].
  - reflexivity.
Qed.
Print Assumptions C76_server_non_invite.
Theorem C76_server_invite : forall tm es, 64 * tm_t1 tm <= DURATION_MAX ->
  by_table4 tm (outputs si_step (si_new tm) es).
Proof.
  intros tm es Hm. apply (outputs_inv si_step (fun s => si_tm s = tm)).
  - apply t4_nil.
  - apply t4_app.
  - intros s e <-. split; [apply si_tm_step|now apply si_t4].
  - reflexivity.
Qed.
Print Assumptions C76_server_invite.
Example C76_example :
  let tm := mkTimers Udp 500000000 4000000000 5000000000 in
  64 * tm_t1 tm <= DURATION_MAX
  /\ In (Schedule TmB 32000000000) (outputs ci_step (ci_new tm) [CiSend (lit "I")])
  /\ In (Schedule TmJ 32000000000) (outputs sn_step (sn_new tm) [SnRequest; SnFinal (mkResponse 200 [] (lit "r"))]).
Proof. vm_compute. split; [discriminate|]. tauto. Qed.

(** ** C77: lifetimes are not extended, timers are not left behind *)

Lemma starts_app : forall t a b, starts t (a ++ b) = (starts t a + starts t b)%nat.
Proof. intros. unfold starts. now rewrite schedules_app, app_length. Qed.
Lemma starts_cons : forall {S E} (f : S -> E -> S * list action) t s e es,
  starts t (outputs f s (e :: es)) = (starts t (snd (f s e)) + starts t (outputs f (fst (f s e)) es))%nat.
Proof. intros. rewrite outputs_cons. apply starts_app. Qed.

Definition ci_left (t : timer) (s : ci) : nat :=
  match t, ci_st s with
  | TmD, (CiCalling | CiProceeding) => 1
  | _, _ => 0
  end.
Lemma ci_starts : forall es s, existsb ci_is_send es = false -> ci_st s <> CiConfirmed ->
  starts TmB (outputs ci_step s es) = 0%nat /\ (starts TmD (outputs ci_step s es) <= ci_left TmD s)%nat.
Proof.
  induction es as [|e es IH]; intros s Hs Hc.
  - split; [reflexivity|apply Nat.le_0_l].
  - cbn [existsb] in Hs. apply orb_false_iff in Hs. destruct Hs as [He Hs].
    rewrite !starts_cons.
    assert (N : ci_st (fst (ci_step s e)) <> CiConfirmed
      /\ starts TmB (snd (ci_step s e)) = 0%nat
      /\ (starts TmD (snd (ci_step s e)) + ci_left TmD (fst (ci_step s e)) <= ci_left TmD s)%nat).
    { destruct s as [st tm a inv]. destruct e as [w|r|r|t0|]; [discriminate He| | | |];
      destruct st; try (destruct t0); try (now elim Hc); cbn [ci_step ci_st];
      unfold ci_provisional, ci_final, ci_final_2xx, ci_final_non2xx, ci_timer_a, ci_set; cbn [ci_st ci_tm ci_a ci_invite];
      repeat match goal with |- context [if ?b then _ else _] => destruct b end;
      try (destruct (backoff_next _ _)); try (destruct inv); cbn; (split; [discriminate|split; lia]). }
    destruct N as (N1 & N2 & N3). destruct (IH _ Hs N1) as [A B]. lia.
Qed.

(** C77: a client INVITE transaction starts Timer B once and Timer D at most
    once, whatever arrives: repeated responses do not prolong it. *)
Theorem C77_client_invite_once : forall tm w es, existsb ci_is_send es = false ->
  starts TmB (outputs ci_step (ci_new tm) (CiSend w :: es)) = 1%nat
  /\ (starts TmD (outputs ci_step (ci_new tm) (CiSend w :: es)) <= 1)%nat.
Proof.
  intros tm w es Hs. rewrite !starts_cons.
  destruct (ci_starts es (fst (ci_step (ci_new tm) (CiSend w))) Hs ltac:(discriminate)) as [A B].
  rewrite A. cbn [ci_left ci_step ci_new ci_st ci_send fst] in B.
  assert (C : starts TmB (snd (ci_step (ci_new tm) (CiSend w))) = 1%nat
              /\ starts TmD (snd (ci_step (ci_new tm) (CiSend w))) = 0%nat).
  { cbn [ci_step ci_new ci_st]. unfold ci_send, sched_nz. cbn [ci_tm snd ci_new].
    destruct (duration tm TmA =? 0); split; reflexivity. }
  cbn [ci_step ci_new ci_st ci_send fst] in *. lia.
Qed.
Print Assumptions C77_client_invite_once.

Definition cn_left (s : cn) : nat := match cn_st s with CnTrying | CnProceeding => 1 | _ => 0 end.
Lemma cn_starts : forall es s, existsb cn_is_send es = false ->
  starts TmF (outputs cn_step s es) = 0%nat /\ (starts TmK (outputs cn_step s es) <= cn_left s)%nat.
Proof.
  induction es as [|e es IH]; intros s Hs.
  - split; [reflexivity|apply Nat.le_0_l].
  - cbn [existsb] in Hs. apply orb_false_iff in Hs. destruct Hs as [He Hs].
    rewrite !starts_cons.
    assert (N : starts TmF (snd (cn_step s e)) = 0%nat
      /\ (starts TmK (snd (cn_step s e)) + cn_left (fst (cn_step s e)) <= cn_left s)%nat).
    { destruct s as [st tm a inv]. destruct e as [w|r|r|t0|]; [discriminate He| | | |];
      destruct st; try (destruct t0); cbn [cn_step cn_st];
      unfold cn_final, cn_timer_e, cn_set; cbn [cn_st cn_tm cn_e cn_request];
      repeat match goal with |- context [if ?b then _ else _] => destruct b end;
      try (destruct (backoff_next _ _)); try (destruct inv); cbn; lia. }
    destruct N as (N2 & N3). destruct (IH (fst (cn_step s e)) Hs) as [A B]. lia.
Qed.
Theorem C77_client_non_invite_once : forall tm w es, existsb cn_is_send es = false ->
  starts TmF (outputs cn_step (cn_new tm) (CnSend w :: es)) = 1%nat
  /\ (starts TmK (outputs cn_step (cn_new tm) (CnSend w :: es)) <= 1)%nat.
Proof.
  intros tm w es Hs. rewrite !starts_cons.
  destruct (cn_starts es (fst (cn_step (cn_new tm) (CnSend w))) Hs) as [A B].
  rewrite A. cbn [cn_left cn_step cn_new cn_st cn_send fst] in B.
  assert (C : starts TmF (snd (cn_step (cn_new tm) (CnSend w))) = 1%nat
              /\ starts TmK (snd (cn_step (cn_new tm) (CnSend w))) = 0%nat).
  { cbn [cn_step cn_new cn_st]. unfold cn_send, sched_nz. cbn [cn_tm snd cn_new].
    destruct (duration tm TmE =? 0); split; reflexivity. }
  cbn [cn_step cn_new cn_st cn_send fst] in *. lia.
Qed.
Print Assumptions C77_client_non_invite_once.

Definition sn_left (s : sn) : nat := match sn_st s with SnTrying | SnProceeding => 1 | _ => 0 end.
Theorem C77_server_non_invite_once : forall tm es, (starts TmJ (outputs sn_step (sn_new tm) es) <= 1)%nat.
Proof.
  intros tm es. change 1%nat with (sn_left (sn_new tm)). generalize (sn_new tm).
  induction es as [|e es IH]; intros s; [apply Nat.le_0_l|]. rewrite starts_cons.
  assert (N : (starts TmJ (snd (sn_step s e)) + sn_left (fst (sn_step s e)) <= sn_left s)%nat).
  { destruct s as [st tm' l]. destruct e as [|r|r|t0| | |]; destruct st; try (destruct t0); cbn [sn_step sn_st];
      unfold sn_retransmit, sn_set; cbn [sn_st sn_tm sn_last]; try (destruct l); cbn; lia. }
  specialize (IH (fst (sn_step s e))). lia.
Qed.
Print Assumptions C77_server_non_invite_once.

(** for the INVITE server: at most one Timer H per final response its user
    submits, and one Timer I per Timer H *)
Definition si_left (s : si) : nat := match si_st s with SiCompleted => 1 | _ => 0 end.
Theorem C77_server_invite_once : forall tm es,
  let out := outputs si_step (si_new tm) es in
  (starts TmH out <= length (filter si_is_final es) /\ starts TmI out <= length (filter si_is_final es))%nat.
Proof.
  intros tm es. cbv zeta.
  enough (forall s, (starts TmH (outputs si_step s es) <= length (filter si_is_final es)
    /\ starts TmI (outputs si_step s es) <= si_left s + length (filter si_is_final es))%nat) as K.
  { destruct (K (si_new tm)) as [A B]. split; [exact A|]. exact B. }
  induction es as [|e es IH]; intros s; [split; apply Nat.le_0_l|]. rewrite !starts_cons.
  assert (N : (starts TmH (snd (si_step s e)) <= (if si_is_final e then 1 else 0)
    /\ starts TmI (snd (si_step s e)) + si_left (fst (si_step s e)) <= si_left s + (if si_is_final e then 1 else 0))%nat).
  { destruct s as [st tm' g l f]. destruct e as [| |r|r| |t0| |]; destruct st; try (destruct t0); cbn [si_step si_st];
      unfold si_retransmit, si_send_final, si_timer_g, si_set, sched_nz; cbn [si_st si_tm si_g si_last si_final si_is_final];
      repeat match goal with |- context [if ?b then _ else _] => destruct b end;
      try (destruct l); try (destruct f); try (destruct (backoff_next _ _)); cbn; lia. }
  destruct (IH (fst (si_step s e))) as [A B]. cbn [filter]. destruct (si_is_final e); cbn [length]; lia.
Qed.
Print Assumptions C77_server_invite_once.

(** the timers that belong to a state *)
Definition ci_own_timers (st : ci_state) : list timer :=
  match st with CiCalling => [TmA; TmB] | CiProceeding => [TmB] | CiCompleted => [TmD] | _ => [] end.
Definition cn_own_timers (st : cn_state) : list timer :=
  match st with CnTrying | CnProceeding => [TmE; TmF] | CnCompleted => [TmK] | _ => [] end.
Definition sn_own_timers (st : sn_state) : list timer :=
  match st with SnCompleted => [TmJ] | _ => [] end.
Definition si_own_timers (st : si_state) : list timer :=
  match st with SiCompleted => [TmG; TmH; TmI] | SiConfirmed => [TmI] | _ => [] end.

Lemma in_disarm : forall x t l, In x (disarm t l) -> In x l /\ x <> t.
Proof.
  intros x t l Hi. unfold disarm in Hi. apply filter_In in Hi. destruct Hi as [A B]. split; [assumption|].
  intros ->. destruct t; discriminate.
Qed.
Lemma in_arm : forall l armed x, In x (arm armed l) ->
  (exists d, In (Schedule x d) l) \/ (In x armed /\ ~ In (Cancel x) l).
Proof.
  induction l as [|a l IH]; intros armed x Hi; [right; split; [exact Hi|intros []]|].
  cbn [arm fold_left] in Hi. apply IH in Hi. destruct Hi as [[d Hi]|[Hi Hn]].
  - left. exists d. now right.
  - destruct a; cbn [arm1] in Hi; try (right; split; [assumption|]; intros [X|X]; [discriminate|contradiction]).
    + destruct Hi as [->|Hi]; [left; exists d; now left|]. right. split; [assumption|]. intros [X|X]; [discriminate|contradiction].
    + apply filter_In in Hi. destruct Hi as [A B]. right. split; [assumption|]. intros [X|X]; [|contradiction].
      injection X as ->. destruct x; discriminate.
Qed.

Section Clean.
  Context {S E : Type} (stp : S -> E -> S * list action) (own : S -> list timer) (dead : S -> bool) (ok : S -> Prop)
    (fired : E -> list timer -> list timer).
  Fixpoint armed_run (armed : list timer) (s : S) (es : list E) : list timer :=
    match es with
    | [] => armed
    | e :: r => armed_run (arm (fired e armed) (snd (stp s e))) (fst (stp s e)) r
    end.
  Hypothesis Hok : forall s e, ok s -> ok (fst (stp s e)).
  Hypothesis Hdead : forall s e, dead s = true -> dead (fst (stp s e)) = true.
  Hypothesis Hstep : forall s e armed, ok s -> dead s = false -> dead (fst (stp s e)) = false ->
    (forall t, In t armed -> In t (own s)) ->
    forall t, In t (arm (fired e armed) (snd (stp s e))) -> In t (own (fst (stp s e))).
  Lemma clean_run : forall es s armed, ok s -> (dead s = false -> forall t, In t armed -> In t (own s)) ->
    dead (final_state stp s es) = false -> forall t, In t (armed_run armed s es) -> In t (own (final_state stp s es)).
  Proof.
    induction es as [|e es IH]; intros s armed Ho Ha Hn t Hi; [now apply Ha|].
    rewrite final_cons in *. cbn [armed_run] in Hi.
    apply (IH (fst (stp s e)) (arm (fired e armed) (snd (stp s e)))); try assumption; [now apply Hok|].
    intros D. apply Hstep; try assumption.
    - destruct (dead s) eqn:E0; [|reflexivity]. now rewrite (Hdead s e E0) in D.
    - apply Ha. destruct (dead s) eqn:E0; [|reflexivity]. now rewrite (Hdead s e E0) in D.
  Qed.
End Clean.
Lemma ci_armed_is : forall es armed s, ci_armed armed s es = armed_run ci_step ci_fired armed s es.
Proof. induction es as [|e es IH]; intros; [reflexivity|apply IH]. Qed.
Lemma cn_armed_is : forall es armed s, cn_armed armed s es = armed_run cn_step cn_fired armed s es.
Proof. induction es as [|e es IH]; intros; [reflexivity|apply IH]. Qed.
Lemma sn_armed_is : forall es armed s, sn_armed armed s es = armed_run sn_step sn_fired armed s es.
Proof. induction es as [|e es IH]; intros; [reflexivity|apply IH]. Qed.
Lemma si_armed_is : forall es armed s, si_armed armed s es = armed_run si_step si_fired armed s es.
Proof. induction es as [|e es IH]; intros; [reflexivity|apply IH]. Qed.

Lemma armed_in : forall f l t own own',
  (forall x, In x f -> In x own) ->
  (forall d, In (Schedule t d) l -> In t own') ->
  (In t own -> ~ In (Cancel t) l -> In t own') ->
  In t (arm f l) -> In t own'.
Proof.
  intros f l t own own' Hf Hs Hc Hi. apply in_arm in Hi. destruct Hi as [[d Hi]|[Hi Hn]]; [now apply (Hs d)|auto].
Qed.
Ltac sub_in Ha := let x := fresh in let X := fresh in intros x X;
  try (apply in_disarm in X; destruct X as [X ?]); now apply Ha.
Ltac in_list H := cbn [In app] in H; unfold sched_nz in H;
  repeat match type of H with
  | context [if ?b then _ else _] => destruct b; cbn [In app] in H
  end.
Ltac clean o Ha Hi :=
  revert Hi; apply (armed_in _ _ _ o);
  [ sub_in Ha
  | let d := fresh in let X := fresh in intros d X; in_list X; cbn [In];
    repeat match goal with H : _ \/ _ |- _ => destruct H end; try contradiction; try discriminate;
    match goal with H : Schedule _ _ = Schedule _ _ |- _ => injection H as <- <- end; tauto
  | let X := fresh in let Y := fresh in intros X Y; cbn [In app] in X, Y |- *;
    repeat match goal with H : _ \/ _ |- _ => destruct H end; subst; try contradiction; try tauto ].

(** C77: in every state but Terminated only timers of that state are armed: the
    retransmission timer is off after a response (A), a final response (E) or
    the ACK (G), and the time-out timer is off once the final response is in. *)
Definition ci_dead (s : ci) : bool := match ci_st s with CiTerminated => true | _ => false end.
Theorem C77_client_invite_clean : forall tm es t,
  let s := final_state ci_step (ci_new tm) es in ci_st s <> CiTerminated ->
  In t (ci_armed [] (ci_new tm) es) -> In t (ci_own_timers (ci_st s)).
Proof.
  intros tm es t. cbv zeta. intros Hd. rewrite ci_armed_is.
  apply (clean_run ci_step (fun s => ci_own_timers (ci_st s)) ci_dead (fun s => ci_st s <> CiConfirmed) ci_fired);
    [| | |discriminate|intros _ x []|unfold ci_dead; destruct (ci_st _); congruence]; clear.
  - intros [st tm a inv] e Hc. cbn [ci_st] in Hc. destruct st, e as [w|r|r|t0|]; try (destruct t0); try (now elim Hc); cbn [ci_step ci_st];
      unfold ci_final, ci_timer_a; cbn [ci_st ci_tm ci_a ci_invite];
      repeat match goal with |- context [if ?b then _ else _] => destruct b end;
      try (destruct (backoff_next _ _)); try (destruct inv); cbn; discriminate.
  - intros [st tm a inv] e E. destruct st; try discriminate E. destruct e as [w|r|r|t0|]; try (destruct t0); try reflexivity.
    cbn. destruct (is_2xx r); reflexivity.
  - intros [st tm a inv] e armed Hc Hs Hn Ha t Hi. cbn [ci_st] in *. unfold ci_dead in *. cbn [ci_st] in *.
    destruct st; try discriminate Hs; try (now elim Hc); destruct e as [w|r|r|t0|]; try (destruct t0);
    cbn [ci_step ci_st] in Hi, Hn |- *;
    unfold ci_send, ci_provisional, ci_final, ci_timer_a, ci_set in Hi, Hn |- *;
    cbn [ci_st ci_tm ci_a ci_invite] in Hi, Hn |- *;
    repeat match goal with
    | H : context [if is_2xx ?r then _ else _] |- _ => destruct (is_2xx r)
    | H : context [if ?a =? 0 then _ else _] |- _ => destruct (a =? 0)
    end;
    try (destruct (backoff_next _ _)); try (destruct inv); 
    unfold ci_final_2xx, ci_final_non2xx, ci_set in Hi, Hn |- *;
    cbn [fst snd ci_st ci_own_timers ci_fired ci_tm] in Ha, Hi, Hn |- *; try discriminate Hn;
    match type of Ha with forall x, In x armed -> In x ?own => clean own Ha Hi end.
Qed.
Print Assumptions C77_client_invite_clean.

Definition cn_dead (s : cn) : bool := match cn_st s with CnTerminated => true | _ => false end.
Theorem C77_client_non_invite_clean : forall tm es t,
  let s := final_state cn_step (cn_new tm) es in cn_st s <> CnTerminated ->
  In t (cn_armed [] (cn_new tm) es) -> In t (cn_own_timers (cn_st s)).
Proof.
  intros tm es t. cbv zeta. intros Hd. rewrite cn_armed_is.
  apply (clean_run cn_step (fun s => cn_own_timers (cn_st s)) cn_dead (fun s => True) cn_fired);
    [| | |exact I|intros _ x []|unfold cn_dead; destruct (cn_st _); congruence]; clear.
  - trivial.
  - intros [st tm a inv] e E. destruct st; try discriminate E. destruct e as [w|r|r|t0|]; try (destruct t0); reflexivity.
  - intros [st tm a inv] e armed _ Hs Hn Ha t Hi. unfold cn_dead in *. cbn [cn_st] in *.
    destruct st; try discriminate Hs; destruct e as [w|r|r|t0|]; try (destruct t0);
    cbn [cn_step cn_st] in Hi, Hn |- *;
    unfold cn_send, cn_final, cn_timer_e, cn_set in Hi, Hn |- *;
    cbn [cn_st cn_tm cn_e cn_request] in Hi, Hn |- *;
    repeat match goal with
    | H : context [if ?a =? 0 then _ else _] |- _ => destruct (a =? 0)
    end;
    try (destruct (backoff_next _ _)); try (destruct inv);
    cbn [fst snd cn_st cn_own_timers cn_fired cn_tm] in Ha, Hi, Hn |- *; try discriminate Hn;
    match type of Ha with forall x, In x armed -> In x ?own => clean own Ha Hi end.
Qed.
Print Assumptions C77_client_non_invite_clean.

Definition sn_dead (s : sn) : bool := match sn_st s with SnTerminated => true | _ => false end.
Theorem C77_server_non_invite_clean : forall tm es t,
  let s := final_state sn_step (sn_new tm) es in sn_st s <> SnTerminated ->
  In t (sn_armed [] (sn_new tm) es) -> In t (sn_own_timers (sn_st s)).
Proof.
  intros tm es t. cbv zeta. intros Hd. rewrite sn_armed_is.
  apply (clean_run sn_step (fun s => sn_own_timers (sn_st s)) sn_dead (fun s => True) sn_fired);
    [| | |exact I|intros _ x []|unfold sn_dead; destruct (sn_st _); congruence]; clear.
  - trivial.
  - intros [st tm l] e E. destruct st; try discriminate E. destruct e as [|r|r|t0| | |]; try (destruct t0); reflexivity.
  - intros [st tm l] e armed _ Hs Hn Ha t Hi. unfold sn_dead in *. cbn [sn_st] in *.
    destruct st; try discriminate Hs; destruct e as [|r|r|t0| | |]; try (destruct t0);
    cbn [sn_step sn_st] in Hi, Hn |- *;
    unfold sn_retransmit, sn_set in Hi, Hn |- *;
    cbn [sn_st sn_tm sn_last] in Hi, Hn |- *; try (destruct l);
    cbn [fst snd sn_st sn_own_timers sn_fired sn_tm] in Ha, Hi, Hn |- *; try discriminate Hn;
    match type of Ha with forall x, In x armed -> In x ?own => clean own Ha Hi end.
Qed.
Print Assumptions C77_server_non_invite_clean.

Definition si_dead (s : si) : bool := match si_st s with SiTerminated => true | _ => false end.
Theorem C77_server_invite_clean : forall tm es t,
  let s := final_state si_step (si_new tm) es in si_st s <> SiTerminated ->
  In t (si_armed [] (si_new tm) es) -> In t (si_own_timers (si_st s)).
Proof.
  intros tm es t. cbv zeta. intros Hd. rewrite si_armed_is.
  apply (clean_run si_step (fun s => si_own_timers (si_st s)) si_dead (fun s => True) si_fired);
    [| | |exact I|intros _ x []|unfold si_dead; destruct (si_st _); congruence]; clear.
  - trivial.
  - intros [st tm g l f] e E. destruct st; try discriminate E. destruct e as [| |r|r| |t0| |]; try (destruct t0); reflexivity.
  - intros [st tm g l f] e armed _ Hs Hn Ha t Hi. unfold si_dead in *. cbn [si_st] in *.
    destruct st; try discriminate Hs; destruct e as [| |r|r| |t0| |]; try (destruct t0);
    cbn [si_step si_st] in Hi, Hn |- *;
    unfold si_retransmit, si_send_final, si_timer_g, si_set in Hi, Hn |- *;
    cbn [si_st si_tm si_g si_last si_final] in Hi, Hn |- *;
    repeat match goal with
    | H : context [if is_2xx ?r then _ else _] |- _ => destruct (is_2xx r)
    | H : context [if ?a =? 0 then _ else _] |- _ => destruct (a =? 0)
    end;
    try (destruct l); try (destruct f); try (destruct (backoff_next _ _));
    cbn [fst snd si_st si_own_timers si_fired si_tm] in Ha, Hi, Hn |- *; try discriminate Hn;
    match type of Ha with forall x, In x armed -> In x ?own => clean own Ha Hi end.
Qed.
Print Assumptions C77_server_invite_clean.

Definition ex_t : timers := mkTimers Udp 500000000 4000000000 5000000000.
Example C77_example :
  let r := mkResponse 486 [] (lit "r") in
  let h := [SiInvite; SiFinal r] in
  si_st (final_state si_step (si_new ex_t) h) = SiCompleted
  /\ si_armed [] (si_new ex_t) h = [TmH; TmG]
  /\ si_armed [] (si_new ex_t) (h ++ [SiAck]) = [TmI]
  /\ ci_armed [] (ci_new ex_t) [CiSend (lit "I")] = [TmB; TmA]
  /\ ci_armed [] (ci_new ex_t) [CiSend (lit "I"); CiFinal r; CiFinal r] = [TmD]
  /\ cn_armed [] (cn_new ex_t) [CnSend (lit "O"); CnFinal r] = [TmK]
  /\ sn_armed [] (sn_new ex_t) [SnRequest; SnFinal r] = [TmJ].
Proof. vm_compute. repeat split. Qed.

(** ** C78: an armed ending timer ends the transaction, and says so

    For every history after which a transaction has not ended: when a timer
    that is armed and is one of the ending timers expires, the transaction is
    terminated.  The transaction user is told so exactly once if the ending is
    a time-out (B, F, H) or ends a server transaction (I, J); the wait for
    stray responses (D, K) ends silently, the final response having been
    delivered before. *)
Definition reported (t : timer) : nat :=
  match t with TmB | TmF | TmH | TmI | TmJ => 1 | _ => 0 end.
Definition ending (t : timer) : bool :=
  match t with TmB | TmD | TmF | TmH | TmI | TmJ | TmK => true | _ => false end.

Theorem C78_client_invite : forall tm es t,
  let s := final_state ci_step (ci_new tm) es in ci_st s <> CiTerminated ->
  In t (ci_armed [] (ci_new tm) es) -> ending t = true ->
  ci_st (fst (ci_step s (CiTimer t))) = CiTerminated
  /\ terminates (snd (ci_step s (CiTimer t))) = reported t.
Proof.
  intros tm es t s Hd Hi He. apply C77_client_invite_clean in Hi; [|exact Hd]. fold s in Hi.
  destruct s as [st tm' a inv]. cbn [ci_st] in *. destruct st, t; try discriminate He; cbn in Hi; try tauto;
    try (repeat destruct Hi as [Hi|Hi]; discriminate || contradiction); split; reflexivity.
Qed.
Print Assumptions C78_client_invite.
Theorem C78_client_non_invite : forall tm es t,
  let s := final_state cn_step (cn_new tm) es in cn_st s <> CnTerminated ->
  In t (cn_armed [] (cn_new tm) es) -> ending t = true ->
  cn_st (fst (cn_step s (CnTimer t))) = CnTerminated
  /\ terminates (snd (cn_step s (CnTimer t))) = reported t.
Proof.
  intros tm es t s Hd Hi He. apply C77_client_non_invite_clean in Hi; [|exact Hd]. fold s in Hi.
  destruct s as [st tm' a inv]. cbn [cn_st] in *. destruct st, t; try discriminate He; cbn in Hi; try tauto;
    try (repeat destruct Hi as [Hi|Hi]; discriminate || contradiction); split; reflexivity.
Qed.
Print Assumptions C78_client_non_invite.
Theorem C78_server_non_invite : forall tm es t,
  let s := final_state sn_step (sn_new tm) es in sn_st s <> SnTerminated ->
  In t (sn_armed [] (sn_new tm) es) -> ending t = true ->
  sn_st (fst (sn_step s (SnTimer t))) = SnTerminated
  /\ terminates (snd (sn_step s (SnTimer t))) = reported t.
Proof.
  intros tm es t s Hd Hi He. apply C77_server_non_invite_clean in Hi; [|exact Hd]. fold s in Hi.
  destruct s as [st tm' l]. cbn [sn_st] in *. destruct st, t; try discriminate He; cbn in Hi; try tauto;
    try (repeat destruct Hi as [Hi|Hi]; discriminate || contradiction); split; reflexivity.
Qed.
Print Assumptions C78_server_non_invite.
(** the INVITE server: Timer I left over from an earlier ACK when the user
    submits another final response after it is ignored *)
Theorem C78_server_invite : forall tm es t,
  let s := final_state si_step (si_new tm) es in si_st s <> SiTerminated ->
  In t (si_armed [] (si_new tm) es) -> ending t = true ->
  (t = TmI -> si_st s = SiConfirmed) ->
  si_st (fst (si_step s (SiTimer t))) = SiTerminated
  /\ terminates (snd (si_step s (SiTimer t))) = reported t.
Proof.
  intros tm es t s Hd Hi He Hx. apply C77_server_invite_clean in Hi; [|exact Hd]. fold s in Hi.
  destruct s as [st tm' g l f]. cbn [si_st] in *. destruct st, t; try discriminate He; cbn in Hi; try tauto;
    try (repeat destruct Hi as [Hi|Hi]; discriminate || contradiction); try (discriminate (Hx eq_refl)); split; reflexivity.
Qed.
Print Assumptions C78_server_invite.
Example C78_example :
  let r := mkResponse 486 [] (lit "r") in
  si_st (final_state si_step (si_new ex_t) [SiInvite; SiFinal r]) <> SiTerminated
  /\ In TmH (si_armed [] (si_new ex_t) [SiInvite; SiFinal r]) /\ ending TmH = true
  /\ In TmF (cn_armed [] (cn_new ex_t) [CnSend (lit "O")]).
Proof. vm_compute. split; [discriminate|]. tauto. Qed.
