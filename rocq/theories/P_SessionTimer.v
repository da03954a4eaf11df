(** Property theorems for session timers (C31, C32, C83, C84). *)
From Coq Require Import Arith NArith Bool String List Lia ZifyBool ZifyN ZifyNat.
Import ListNotations.
From Verif Require Import Base BaseFacts NumFacts Headers Method Text TextFacts UriProofs Msg Dialog DialogProofs SessionTimer SessionTimerProofs.
Open Scope N_scope.
Open Scope list_scope.

(** ** C31: negotiation.  A negotiated interval is at most the requested one
    and at least both sides' minimum; negotiation fails exactly if the request
    is below one of the minimums, and then names the larger of them; the local
    preference is met as far as these bounds allow. *)
Definition at_least (v : N) (m : option N) : Prop := match m with Some m => m <= v | None => True end.
Theorem C31_bounds : forall req lmin rmin pref v, negotiate req lmin rmin pref = Ok v ->
  v <= req /\ lmin <= v /\ at_least v rmin.
Proof.
  intros req lmin rmin pref v. unfold negotiate. set (m := match rmin with Some r => N.max lmin r | None => lmin end).
  assert (M : lmin <= m /\ at_least m rmin) by (unfold m; destruct rmin; cbn; lia).
  assert (T : forall x, m <= x -> at_least x rmin) by (intros x Hx; destruct rmin; cbn in *; [lia|exact I]).
  destruct (req <? m) eqn:E; [discriminate|]. destruct pref as [p|].
  - cbv zeta. destruct (N.max p m <? req) eqn:F; intros [= <-]; repeat split; try lia; apply T; lia.
  - intros [= <-]. repeat split; try lia. apply T. lia.
Qed.
Print Assumptions C31_bounds.
Theorem C31_refused : forall req lmin rmin pref m,
  negotiate req lmin rmin pref = Err m <->
  ((req < lmin \/ ~ at_least req rmin) /\ lmin <= m /\ at_least m rmin /\ (m = lmin \/ rmin = Some m)).
Proof.
  intros req lmin rmin pref m. unfold negotiate. destruct rmin as [r|]; cbn [at_least].
  - destruct (req <? N.max lmin r) eqn:E.
    + split.
      * intros [= <-]. repeat split; try lia. destruct (N.max_spec lmin r) as [[_ ->]|[_ ->]]; auto.
      * intros (_ & A & B & C). f_equal. destruct C as [->|[= ->]]; lia.
    + split; [destruct pref; [cbv zeta; destruct (_ <? req)|]; discriminate|]. intros ([H|H] & _); lia.
  - destruct (req <? lmin) eqn:E.
    + split; [intros [= <-]; repeat split; try lia; auto|]. intros (_ & _ & _ & [->|]); [reflexivity|discriminate].
    + split; [destruct pref; [cbv zeta; destruct (_ <? req)|]; discriminate|]. intros ([H|H] & _); [lia|]. now elim H.
Qed.
Print Assumptions C31_refused.
Theorem C31_preference : forall req lmin rmin pref v, negotiate req lmin rmin pref = Ok v ->
  match pref with
  | None => v = req
  | Some p => forall w, w <= req -> lmin <= w -> at_least w rmin -> (p <= v -> p <= w -> v <= w) /\ (v < p -> v = req)
  end.
Proof.
  intros req lmin rmin pref v. unfold negotiate. destruct pref as [p|].
  - cbv zeta. destruct rmin as [r|]; cbn [at_least].
    + destruct (req <? N.max lmin r) eqn:E; [discriminate|]. destruct (_ <? req) eqn:F; intros [= <-] w; lia.
    + destruct (req <? lmin) eqn:E; [discriminate|]. destruct (_ <? req) eqn:F; intros [= <-] w; lia.
  - destruct (_ <? _); [discriminate|]. now intros [= <-].
Qed.
Print Assumptions C31_preference.
(** The refresh comes no later than half the interval (0.5 ns rounding), and a
    plain check against a minimum accepts exactly the values not below it. *)
Theorem C31_refresh_half : forall se, 2 * refresh_time se <= se < 2 * refresh_time se + 2.
Proof. intros se. unfold refresh_time. pose proof (N.div_mod se 2 ltac:(lia)). pose proof (N.mod_lt se 2 ltac:(lia)). lia. Qed.
Print Assumptions C31_refresh_half.
Theorem C31_validate : forall se m, match tm_validate se m with
  | Ok v => v = se /\ (match m with Some m => m | None => 90 * NS end) <= se
  | Err e => e = (match m with Some m => m | None => 90 * NS end) /\ se < e
  end.
Proof. intros se m. unfold tm_validate. cbv zeta. destruct (se <? _) eqn:E; lia. Qed.
Print Assumptions C31_validate.
Example C31_example :
  negotiate 1800 90 (Some 120) (Some 600) = Ok 600 /\ negotiate 1800 90 (Some 700) (Some 600) = Ok 700
  /\ negotiate 60 90 None None = Err 90 /\ negotiate 100 90 (Some 120) (Some 50) = Err 120.
Proof. vm_compute. auto. Qed.

(** ** C83: both ends reading the same refresher parameter agree on who
    refreshes: exactly one of them. *)
Theorem C83_one_refresher : forall param, refresher_role param true = negb (refresher_role param false).
Proof.
  intros [p|]; [|reflexivity]. unfold refresher_role.
  destruct (str_eqb p (lit "uac")); [reflexivity|]. destruct (str_eqb p (lit "uas")); [reflexivity|].
  destruct (str_eqb p (lit "UAC")); [reflexivity|]. destruct (str_eqb p (lit "UAS")); reflexivity.
Qed.
Print Assumptions C83_one_refresher.
Theorem C83_named : forall b, refresher_role (Some (lit "uac")) b = b /\ refresher_role (Some (lit "uas")) b = negb b
  /\ refresher_role None b = b.
Proof. intros []; vm_compute; auto. Qed.
Print Assumptions C83_named.
(** The value is not read without regard to case: a mixed-case uas makes the
    other side the refresher, while the header parser does read it. *)
Theorem C83_case_refuted : refresher_parse (lit "Uas") = Some RUas /\ refresher_role (Some (lit "Uas")) true = true.
Proof. vm_compute. auto. Qed.
Print Assumptions C83_case_refuted.

(** ** C84: text of Session-Expires and Min-SE. *)
Theorem C84_se_roundtrip : forall n r, 90 <= n <= 86400 -> se_parse (se_print n r) = Some (n, r).
Proof.
  intros n r H.
  assert (W : forallb (fun c => negb (is_ws c)) (se_print n r) = true).
  { unfold se_print. rewrite forallb_app, print_N_word. destruct r as [[]|]; reflexivity. }
  assert (C : existsb is_control (se_print n r) = false).
  { unfold se_print. rewrite existsb_app. apply orb_false_iff. split; [|destruct r as [[]|]; reflexivity].
    apply existsb_false. apply forallb_forall. intros c Hc. apply print_N_digits in Hc. unfold is_control, in_range. lia. }
  unfold se_parse. rewrite C. rewrite trim_edge by (apply (class_edge (fun c => negb (is_ws c))); [intros c Hc; now apply negb_true_iff in Hc|assumption]).
  assert (S : split_on 59 (se_print n r) = print_N n :: match r with Some r => [lit "refresher=" ++ refresher_str r] | None => [] end).
  { unfold se_print. assert (NM : mem 59 (print_N n) = false) by now apply digits_nomem. destruct r as [r|].
    - change (lit ";refresher=" ++ refresher_str r) with (59 :: (lit "refresher=" ++ refresher_str r)). rewrite split_on_app by assumption.
      destruct r; reflexivity.
    - rewrite app_nil_r. now apply split_on_nomem. }
  destruct (se_print n r) as [|c l] eqn:E.
  { exfalso. unfold se_print in E. apply app_eq_nil in E. destruct E as [E _]. now apply (print_N_nonempty n). }
  rewrite S. rewrite trim_edge by (apply (class_edge (fun c => negb (is_ws c))); [intros x Hx; now apply negb_true_iff in Hx|apply print_N_word]).
  rewrite parse_uint_print by (unfold u32_max; lia). unfold SE_MIN, SE_MAX. replace ((n <? 90) || (86400 <? n)) with false by lia.
  destruct r as [[]|]; reflexivity.
Qed.
Print Assumptions C84_se_roundtrip.
Theorem C84_min_se_roundtrip : forall n, 90 <= n <= 7200 -> min_se_parse (print_N n) = Some n.
Proof.
  intros n H. unfold min_se_parse.
  replace (existsb is_control (print_N n)) with false.
  2: { symmetry. apply existsb_false. apply forallb_forall. intros c Hc. apply print_N_digits in Hc. unfold is_control, in_range. lia. }
  rewrite trim_edge by (apply (class_edge (fun c => negb (is_ws c))); [intros x Hx; now apply negb_true_iff in Hx|apply print_N_word]).
  destruct (print_N n) as [|c l] eqn:E; [now elim (print_N_nonempty n)|]. rewrite <- E.
  rewrite parse_uint_print by (unfold u32_max; lia). unfold SE_MIN, MIN_SE_MAX. replace ((n <? 90) || (7200 <? n)) with false by lia. reflexivity.
Qed.
Print Assumptions C84_min_se_roundtrip.
(** Whatever the text, a parsed value is in range. *)
Theorem C84_range : (forall s n r, se_parse s = Some (n, r) -> 90 <= n <= 86400)
  /\ (forall s n, min_se_parse s = Some n -> 90 <= n <= 7200).
Proof.
  split.
  - intros s n r. unfold se_parse. destruct (existsb _ s); [discriminate|]. destruct (trim s) as [|c l]; [discriminate|].
    destruct (split_on 59 (c :: l)) as [|d ps]; [discriminate|]. destruct (parse_uint _ _) as [k|]; [|discriminate].
    unfold SE_MIN, SE_MAX. destruct ((k <? 90) || (86400 <? k)) eqn:E; [discriminate|]. intros [= <- _]. lia.
  - intros s n. unfold min_se_parse. destruct (existsb _ s); [discriminate|]. destruct (trim s) as [|c l]; [discriminate|].
    destruct (parse_uint _ _) as [k|]; [|discriminate]. unfold SE_MIN, MIN_SE_MAX. destruct ((k <? 90) || (7200 <? k)) eqn:E; [discriminate|]. intros [= <-]. lia.
Qed.
Print Assumptions C84_range.
Example C84_example : se_parse (lit "  1800 ; refresher=uas  ") = Some (1800, Some RUas) /\ se_parse (lit "60") = None /\ min_se_parse (lit "7201") = None.
Proof. vm_compute. auto. Qed.

(** ** C32.  Sessions do not expire early.  In every prompt schedule (see
    SessionTimer.v) a session is reported expired only if its timer was
    started, was neither restarted nor stopped since and has not expired
    already, and only once the whole interval of that last start (for a
    refresher, twice its half) has gone by. *)
Theorem C32_not_early_partial : forall s tr, srun prompt s tr ->
  forall tr1 t d tr2, tr = tr1 ++ (t, EvExpired d) :: tr2 ->
  exists ta t0 e r tb, tr1 = ta ++ (t0, EvStarted d e r) :: tb
    /\ (forall x, In x tb -> ~ touches d (snd x))
    /\ t0 + (if r then e / 2 + e / 2 else e) <= t.
Proof.
  intros s tr H. induction H as [|s tr a s' evs H IH P ST]; intros tr1 t d tr2 E; [destruct tr1; discriminate|].
  pose proof (srun_inv _ _ H) as I.
  assert (K : evs = [] \/ exists v, evs = [v]).
  { destruct a as [n|d0|d0 e r|g|g]; cbn [sstep] in ST; try (injection ST as <- <-; eauto; fail).
    - destruct (_ <=? _); injection ST as <- <-; eauto.
    - destruct (find_task _ _) as [u|]; [|discriminate]. destruct (st_stage u); [| | |injection ST as <- <-; eauto].
      + injection ST as <- <-; eauto.
      + destruct (_ <=? _); [|discriminate]. injection ST as <- <-; eauto.
      + destruct (_ <=? _); [|discriminate]. injection ST as <- <-; eauto.
    - destruct (find_task _ _) as [u|]; [|discriminate]. destruct (st_stage u); try discriminate; destruct (current s u); try discriminate; injection ST as <- <-; eauto. }
  destruct K as [->|(v & ->)]; cbn [map] in E; [rewrite app_nil_r in E; now apply (IH tr1 t d tr2)|].
  destruct tr2 as [|y tr2] using rev_ind.
  - apply app_inj_tail in E. destruct E as [-> E]. injection E as <- ->.
    destruct a as [n|d0|d0 e r|g|g]; cbn [sstep] in ST; try discriminate.
    + destruct (_ <=? _); discriminate.
    + destruct (find_task _ _) as [u|] eqn:F; [|discriminate]. apply find_task_in in F. destruct F as [Hu _].
      destruct (st_stage u) as [|dl|dl|] eqn:S; try discriminate.
      * destruct (_ <=? _); discriminate.
      * destruct (dl <=? ss_now s) eqn:DL; [|discriminate]. injection ST as _ <-.
        assert (Hc : current s u = true) by (apply (due_current s tr1); [assumption..|]; unfold not_due; rewrite S; lia).
        destruct (i_task _ _ I u Hu) as (_ & _ & _ & D). specialize (D Hc). rewrite S in D. destruct D as (t0 & L & T).
        apply live_some in L. destruct L as (ta & tb & -> & N). exists ta, t0, (st_e u), (st_ref u), tb. split; [reflexivity|]. split; [assumption|].
        unfold timing in T. rewrite S in T. unfold total in T. lia.
    + destruct (find_task _ _) as [u|]; [|discriminate]. destruct (st_stage u); try discriminate; destruct (current s u); discriminate.
  - clear IHtr2. change (tr1 ++ (t, EvExpired d) :: tr2 ++ [y]) with (tr1 ++ ((t, EvExpired d) :: tr2) ++ [y]) in E.
    rewrite app_assoc in E. apply app_inj_tail in E. destruct E as [-> _]. now apply (IH tr1 t d tr2).
Qed.
Print Assumptions C32_not_early_partial.
(** And the new timer stays: after a start that was not followed by a stop or
    by the expiry of the dialog, the timer is there and shows the remaining
    time of that start. *)
Theorem C32_restart_kept_partial : forall s tr ta d t0 e r tb, srun prompt s tr ->
  tr = ta ++ (t0, EvStarted d e r) :: tb -> (forall x, In x tb -> ~ touches d (snd x)) ->
  has_timer s d = true /\ time_remaining s d = Some (t0 + e - ss_now s).
Proof.
  intros s tr ta d t0 e r tb H -> N. pose proof (srun_inv _ _ H) as I.
  destruct (i_live _ _ I d t0 e r (live_start d ta t0 e r tb N)) as (g & L). unfold has_timer, time_remaining. rewrite L. auto.
Qed.
Print Assumptions C32_restart_kept_partial.
(** Nor is it forgotten: while it is there some task is in charge of it, and
    once that task's wait is over its next step is possible and reports. *)
Theorem C32_can_fire : forall s tr d, srun prompt s tr -> has_timer s d = true ->
  exists t, In t (ss_tasks s) /\ st_dlg t = d /\ current s t = true
  /\ (match st_stage t with SWaitRefresh dl | SWaitExpire dl => dl <= ss_now s | _ => True end -> sstep s (APoll (st_gen t)) <> None).
Proof.
  intros s tr d H HT. pose proof (srun_inv _ _ H) as I. unfold has_timer in HT. destruct (lookup did_eqb d (ss_table s)) as [[x g]|] eqn:L; [|discriminate].
  destruct (i_table _ _ I d x g L) as (t & Ht & E1 & E2). exists t. split; [assumption|]. split; [assumption|]. split.
  - unfold current. rewrite E2, L. apply N.eqb_eq. congruence.
  - cbn [sstep]. assert (F : find_task (st_gen t) (ss_tasks s) = Some t).
    { destruct (find_task (st_gen t) (ss_tasks s)) as [u|] eqn:F.
      - apply find_task_in in F. destruct F as [F1 F2]. f_equal. apply (gen_inj (ss_tasks s)); [apply (i_nodup _ _ I)|assumption..].
      - exfalso. apply (find_none _ _ F) in Ht. rewrite N.eqb_refl in Ht. discriminate. }
    rewrite F. destruct (st_stage t) as [|dl|dl|]; intros D; try discriminate; apply N.leb_le in D; rewrite D; discriminate.
Qed.
Print Assumptions C32_can_fire.

(** Nor do sessions expire late.  When tasks are polled in time (see SessionTimer.v),
    a session whose timer was started and neither stopped, restarted nor reported
    expired since is still inside the interval of that start: so the report comes no
    later than the end of the interval, and with [C32_not_early_partial] exactly there. *)
Theorem C32_not_late_partial : forall s tr ta d t0 e r tb, srun on_time s tr ->
  tr = ta ++ (t0, EvStarted d e r) :: tb -> (forall x, In x tb -> ~ touches d (snd x)) ->
  ss_now s <= t0 + (if r then e / 2 + e / 2 else e).
Proof.
  intros s tr ta d t0 e r tb H -> N. pose proof (on_time_exact _ _ H) as X. apply on_time_prompt in H. pose proof (srun_inv _ _ H) as I.
  pose proof (live_start d ta t0 e r tb N) as L. destruct (i_live _ _ I d t0 e r L) as (g & Lk).
  destruct (i_table _ _ I d _ g Lk) as (t & Ht & E1 & E2).
  assert (Hc : current s t = true) by (unfold current; rewrite E2, Lk; apply N.eqb_eq; congruence).
  subst d. specialize (X t t0 e r Ht Hc L). destruct (i_task _ _ I t Ht) as (_ & _ & _ & D). specialize (D Hc).
  pose proof (half_le e). unfold exact, total in X. destruct (st_stage t) as [|dl|dl|].
  - destruct r; lia.
  - destruct D as (t1 & L1 & T). rewrite L in L1. injection L1 as -> -> ->. unfold timing in T. destruct (st_stage t); destruct (st_ref t); try lia; destruct T; discriminate.
  - destruct D as (t1 & L1 & T). rewrite L in L1. injection L1 as -> -> ->. destruct (st_ref t); lia.
  - rewrite L in D. discriminate.
Qed.
Print Assumptions C32_not_late_partial.

(** running a list of actions *)
Fixpoint sexec (s : sts) (l : list saction) : option (sts * list (N * sevent)) :=
  match l with
  | [] => Some (s, [])
  | a :: r => match sstep s a with
              | None => None
              | Some (s', evs) => match sexec s' r with
                                  | None => None
                                  | Some (s2, tr) => Some (s2, map (fun e => (ss_now s, e)) evs ++ tr)
                                  end
              end
  end.
Fixpoint all_ok (ok : sts -> saction -> Prop) (s : sts) (l : list saction) : Prop :=
  match l with
  | [] => True
  | a :: r => ok s a /\ match sstep s a with Some (s', _) => all_ok ok s' r | None => True end
  end.
Lemma sexec_run : forall ok l s s' tr tr0, srun ok s tr0 -> all_ok ok s l -> sexec s l = Some (s', tr) -> srun ok s' (tr0 ++ tr).
Proof.
  intros ok. induction l as [|a l IH]; intros s s' tr tr0 R A E; cbn [sexec all_ok] in *.
  - injection E as <- <-. now rewrite app_nil_r.
  - destruct A as [A1 A2]. destruct (sstep s a) as [[s1 evs]|] eqn:ST; [|discriminate]. destruct (sexec s1 l) as [[s2 tr2]|] eqn:E2; [|discriminate].
    injection E as <- <-. rewrite app_assoc. apply (IH s1); [|assumption|assumption]. now apply (srun_step ok s tr0 a s1 evs).
Qed.
Definition st_d : dialog_id := mkId (lit "c") (lit "l") (lit "r").
(** C32 does not hold of every schedule: with a 100 s timer restarted after
    99 s for another 100 s, if the old task is only polled after its deadline
    it may take the sleep arm although it was cancelled; it then reports the
    session expired at 100 s and removes the new timer. *)
Definition st_race : list saction :=
  [AStop st_d; AInsert st_d (100 * NS) false; APoll 0; ATick (99 * NS);
   AStop st_d; AInsert st_d (100 * NS) false; APoll 1; ATick (1 * NS); APoll 0; APoll 0].
Theorem C32_refuted : exists s tr, srun any_schedule s tr
  /\ In (99 * NS, EvStarted st_d (100 * NS) false) tr /\ In (100 * NS, EvExpired st_d) tr
  /\ ~ In (100 * NS, EvStopped st_d) tr /\ has_timer s st_d = false.
Proof.
  destruct (sexec sts_init st_race) as [[s tr]|] eqn:E; [|vm_compute in E; discriminate].
  exists s, tr. split.
  - change tr with ([] ++ tr). apply (sexec_run any_schedule st_race sts_init); [constructor| |assumption].
    clear. unfold st_race. repeat (cbn [all_ok]; split; [exact I|]; match goal with |- match ?x with _ => _ end => let v := eval vm_compute in x in replace x with v by (vm_compute; reflexivity); cbn iota beta end). exact I.
  - vm_compute in E. injection E as <- <-. vm_compute. repeat split; auto 20. intros H. repeat (destruct H as [H|H]; [discriminate|]). exact H.
Qed.
Print Assumptions C32_refuted.
(** A prompt schedule with a restart: the cancelled task is polled in time. *)
Definition st_good : list saction :=
  [AStop st_d; AInsert st_d (100 * NS) true; APoll 0; ATick (50 * NS); APoll 0;
   AStop st_d; AInsert st_d (100 * NS) true; APoll 1; ACancel 0; ATick (50 * NS); APoll 1; ATick (50 * NS); APoll 1; APoll 1].
Example C32_example : exists s tr, srun prompt s tr /\ tr =
  [(0, EvStopped st_d); (0, EvStarted st_d (100 * NS) true); (50 * NS, EvRefresh st_d); (50 * NS, EvStopped st_d);
   (50 * NS, EvStarted st_d (100 * NS) true); (100 * NS, EvRefresh st_d); (150 * NS, EvExpired st_d)] /\ has_timer s st_d = false.
Proof.
  destruct (sexec sts_init st_good) as [[s tr]|] eqn:E; [|vm_compute in E; discriminate].
  exists s, tr. split.
  - change tr with ([] ++ tr). apply (sexec_run prompt st_good sts_init); [constructor| |assumption].
    clear. unfold st_good.
    repeat (cbn [all_ok]; split;
      [cbn [prompt ss_tasks ss_now]; try exact I; try (split; [vm_compute; discriminate|]); intros t Ht; cbn [In] in Ht;
       repeat (destruct Ht as [<-|Ht]; [intros X; try (vm_compute in X; discriminate X); vm_compute; auto|]); destruct Ht
      |match goal with |- match ?x with _ => _ end => let v := eval vm_compute in x in replace x with v by (vm_compute; reflexivity); cbn iota beta end]).
    exact I.
  - vm_compute in E. injection E as <- <-. vm_compute. auto.
Qed.
Example C32_on_time_example : exists s tr, srun on_time s tr
  /\ tr = [(0, EvStarted st_d (100 * NS) true); (50 * NS, EvRefresh st_d)] /\ ss_now s = 80 * NS.
Proof.
  set (l := [AInsert st_d (100 * NS) true; APoll 0; ATick (50 * NS); APoll 0; ATick (30 * NS)]).
  destruct (sexec sts_init l) as [[s tr]|] eqn:E; [|vm_compute in E; discriminate].
  exists s, tr. split.
  - change tr with ([] ++ tr). apply (sexec_run on_time l sts_init); [constructor| |assumption].
    clear. unfold l.
    repeat (cbn [all_ok]; split;
      [split;
       [cbn [prompt ss_tasks ss_now]; try exact I; try (split; [vm_compute; discriminate|]); intros t Ht; cbn [In] in Ht;
        repeat (destruct Ht as [<-|Ht]; [intros X; try (vm_compute in X; discriminate X); vm_compute; auto|]); destruct Ht
       |try exact I; intros t Ht; cbn [In] in Ht; repeat (destruct Ht as [<-|Ht]; [vm_compute; discriminate|]); destruct Ht]
      |match goal with |- match ?x with _ => _ end => let v := eval vm_compute in x in replace x with v by (vm_compute; reflexivity); cbn iota beta end]).
    exact I.
  - vm_compute in E. injection E as <- <-. vm_compute. auto.
Qed.
