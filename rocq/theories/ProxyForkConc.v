(** Proofs about concurrent calls on a response context. *)
From Coq Require Import NArith Arith Bool String Lia ZifyBool ZifyN ZifyNat List Permutation.
Import ListNotations.
From Verif Require Import Base BaseFacts Headers HeadersProofs Msg Uri ProxyFork ProxyForkSpec ProxyForkProofs.
Open Scope N_scope.
Open Scope list_scope.

(** all responses received *)
Definition received (l : list event) : list resp :=
  flat_map (fun e => match e with Got _ r => [r] | _ => [] end) l.
Lemma received_app : forall a b, received (a ++ b) = received a ++ received b.
Proof. intros. apply flat_map_app. Qed.
Lemma last_received : forall b l x, last_resp b l = Some x -> In x (received l).
Proof.
  intros b l. induction l as [|e l IH] using rev_ind; intros x H; [discriminate|].
  rewrite last_resp_app in H. rewrite received_app. apply in_or_app. cbn [fold_left] in H.
  destruct e as [b'|b' r|k r]; cbn.
  - destruct (str_eqb b b'); [discriminate|]. left. auto.
  - destruct (str_eqb b b'); [|left; auto]. injection H as ->. right. now left.
  - left. auto.
Qed.
Lemma finals_received : forall l r, In r (finals l) -> In r (received l) /\ is_final r = true.
Proof.
  intros l r H. unfold finals in H. apply in_flat_map in H. destruct H as [[b|b x|k x] [Hi H]]; try destruct H.
  destruct (is_final x) eqn:F; [|destruct H]. destruct H as [<-|[]]. split; [|exact F].
  unfold received. apply in_flat_map. exists (Got b x). split; [exact Hi|now left].
Qed.

Definition opt_task (k : option task) : list task := match k with Some t => [t] | None => [] end.
Definition fresh (t : task) : Prop :=
  match t with TAdd _ _ | TResp _ _ | TTimer _ | TError _ => True | _ => False end.

Section Order.
Variable ord : list (str * branch) -> list (str * branch).
Hypothesis ord_ok : forall m, Permutation (ord m) m.

Lemma sstep_run : forall s i, sstep ord s (Run i) = s \/
  (exists a t b c k ev, sy_tasks s = a ++ t :: b /\ tstep ord (sy_ctx s) t = (c, k, ev) /\
     sstep ord s (Run i) = mkSys c (a ++ opt_task k ++ b) (sy_log s ++ ev)).
Proof.
  intros s i. cbn [sstep]. destruct (nth_error (sy_tasks s) i) as [t|] eqn:E; [|now left].
  right. destruct (tstep ord (sy_ctx s) t) as [[c k] ev] eqn:T.
  destruct (nth_error_split _ _ E) as (a & b & E1 & E2).
  exists a, t, b, c, k, ev. split; [exact E1|]. split; [exact T|].
  rewrite E1. subst i. rewrite firstn_app, Nat.sub_diag, firstn_all, app_nil_r.
  replace (skipn (S (length a)) (a ++ t :: b)) with b; [reflexivity|].
  replace (S (length a)) with (length (a ++ [t])) by (rewrite app_length; cbn; lia).
  replace (a ++ t :: b) with ((a ++ [t]) ++ b) by (rewrite <- app_assoc; reflexivity).
  rewrite skipn_app, skipn_all, Nat.sub_diag. reflexivity.
Qed.

Lemma sstep_cases : forall s lab, 
  (exists ts new, sstep ord s lab = mkSys (set_timers (sy_ctx s) ts) (sy_tasks s ++ new) (sy_log s) /\ Forall fresh new) \/
  (exists a t b c k ev, sy_tasks s = a ++ t :: b /\ tstep ord (sy_ctx s) t = (c, k, ev) /\
     sstep ord s lab = mkSys c (a ++ opt_task k ++ b) (sy_log s ++ ev)).
Proof.
  intros s lab.
  assert (Z : set_timers (sy_ctx s) (cx_timers (sy_ctx s)) = sy_ctx s) by (destruct (sy_ctx s); reflexivity).
  assert (ID : mkSys (set_timers (sy_ctx s) (cx_timers (sy_ctx s))) (sy_tasks s ++ []) (sy_log s) = s).
  { rewrite Z, app_nil_r. destruct s; reflexivity. }
  destruct lab as [o|b|i]; cbn [sstep].
  - left. exists (cx_timers (sy_ctx s)), (start_task o). rewrite Z. split; [reflexivity|].
    destruct o; repeat constructor.
  - left. destruct (remove_one b (cx_timers (sy_ctx s))) as [ts|].
    + exists ts, [TTimer b]. split; [reflexivity|repeat constructor].
    + exists (cx_timers (sy_ctx s)), []. rewrite ID. split; [reflexivity|constructor].
  - destruct (sstep_run s i) as [E|E]; [|right; exact E]. cbn [sstep] in E. rewrite E.
    left. exists (cx_timers (sy_ctx s)), []. rewrite ID. split; [reflexivity|constructor].
Qed.

(** ** The basic invariant *)
Definition task_ok (c : ctx) (l : list event) (t : task) : Prop :=
  match t with
  | TCount _ r | TRank _ r => In r (finals l)
  | TTerm _ r => In r (finals l) /\ is_6xx r = true
  | TCancel _ r => In r (finals l) /\ (is_2xx r = true \/ is_6xx r = true)
  | TCheck | TRead => cx_best c <> None
  | TGather best => In best (finals l)
  | _ => True
  end.
Definition came_from (l : list event) (k : sent_kind) (r : resp) : Prop :=
  match k with
  | Prov => In r (received l) /\ is_final r = false
  | Now => In r (finals l) /\ (is_2xx r = true \/ is_6xx r = true)
  | Done => exists r0, In r0 (finals l) /\ adds_challenges (fun x => In x (received l)) r0 r
  end.
Record sinv (s : sys) : Prop := mkSinv {
  s_core : core (cx_branches (sy_ctx s)) (sy_log s);
  s_best : forall x, cx_best (sy_ctx s) = Some x -> In x (finals (sy_log s));
  s_tasks : Forall (task_ok (sy_ctx s) (sy_log s)) (sy_tasks s);
  s_from : always (fun l e => match e with Sent k r => came_from l k r | _ => True end) (sy_log s)
}.
Lemma task_mono : forall c c' l ev t, (cx_best c <> None -> cx_best c' <> None) ->
  task_ok c l t -> task_ok c' (l ++ ev) t.
Proof.
  intros c c' l ev t M H.
  assert (F : forall r, In r (finals l) -> In r (finals (l ++ ev))).
  { intros r Hr. rewrite finals_app. apply in_or_app. now left. }
  destruct t; cbn in *; intuition.
Qed.
Lemma fresh_ok : forall c l t, fresh t -> task_ok c l t.
Proof. intros c l [] H; cbn in *; tauto. Qed.

Lemma sinv_step : forall s lab, sinv s -> sinv (sstep ord s lab).
Proof.
  intros s lab [K B T A].
  destruct (sstep_cases s lab) as [(ts & new & -> & Fr)|(a & t & b & c & k & ev & E & S & ->)].
  - constructor; cbn; auto. apply Forall_app. split.
    + eapply Forall_impl; [|exact T]. intros t Ht. rewrite <- (app_nil_r (sy_log s)).
      eapply task_mono; [|exact Ht]. cbn. auto.
    + eapply Forall_impl; [|exact Fr]. intros t. apply fresh_ok.
  - rewrite E in T. apply Forall_app in T. destruct T as [Ta T]. inversion T as [|? ? Ht Tb]; subst. clear T.
    set (c0 := sy_ctx s) in *. set (l := sy_log s) in *. clearbody c0 l.
    assert (W : core (cx_branches c) (l ++ ev) -> (forall x, cx_best c = Some x -> In x (finals (l ++ ev))) ->
      (cx_best c0 <> None -> cx_best c <> None) -> Forall (task_ok c (l ++ ev)) (opt_task k) ->
      always (fun l e => match e with Sent k r => came_from l k r | _ => True end) (l ++ ev) ->
      sinv (mkSys c (a ++ opt_task k ++ b) (l ++ ev))).
    { intros H1 H2 H3 H4 H5. constructor; cbn; auto.
      apply Forall_app. split; [|apply Forall_app; split; [exact H4|]].
      - eapply Forall_impl; [|exact Ta]. intros x. now apply task_mono.
      - eapply Forall_impl; [|exact Tb]. intros x. now apply task_mono. }
    assert (Same : forall k', tstep ord c0 t = (c0, k', []) -> Forall (task_ok c0 l) (opt_task k') ->
      sinv (mkSys c (a ++ opt_task k ++ b) (l ++ ev))).
    { intros k' S' Hk. rewrite S' in S. inversion S; subst. apply W; rewrite ?app_nil_r; auto. }
    destruct t as [b0 u|b0 u|b0 r|b0 r|b0 r|b0 r|b0 r| | |best|b0|b0]; cbn in S.
    + eapply Same; [reflexivity|]. destruct (add_check c0); repeat constructor.
    + unfold add_insert in *. destruct (MAX_BRANCHES_PER_CONTEXT <=? llen (cx_branches c0)) eqn:L.
      * eapply Same; [cbn; unfold add_insert; rewrite L; reflexivity|constructor].
      * inversion S; subst. apply W; cbn; auto.
        { apply core_add; [exact K|lia]. }
        { intros x Hx. rewrite finals_app. apply in_or_app. left. auto. }
        { apply always_snoc; [exact A|exact I]. }
    + destruct (record_response c0 b0 r) as [c1|] eqn:R.
      2:{ eapply Same; [cbn; rewrite R; reflexivity|constructor]. }
      destruct (core_record _ _ _ _ _ K R) as [K1 _]. destruct (record_fields _ _ _ _ R) as (Eb & _).
      destruct (is_final r) eqn:F; inversion S; subst.
      * apply W; auto.
        { rewrite Eb. intros x Hx. rewrite finals_app. apply in_or_app. left. auto. }
        { congruence. }
        { repeat constructor. cbn. rewrite finals_got by exact F. apply in_or_app. right. now left. }
        { apply always_snoc; [exact A|exact I]. }
      * assert (El : l ++ [Got b0 r; Sent Prov r] = (l ++ [Got b0 r]) ++ [Sent Prov r]) by (rewrite <- app_assoc; reflexivity).
        rewrite El in *. apply W; auto.
        { apply core_sent. exact K1. }
        { rewrite Eb. intros x Hx. rewrite finals_sent, finals_app. apply in_or_app. left. auto. }
        { congruence. }
        { constructor. }
        { apply always_snoc; [apply always_snoc; [exact A|exact I]|]. cbn. split; [|exact F].
          rewrite received_app. apply in_or_app. right. now left. }
    + inversion S; subst. apply W; rewrite ?app_nil_r; auto. repeat constructor. exact Ht.
    + unfold rank_response in S. destruct (select_best (cx_best c0) r) eqn:Sel; inversion S; subst; apply W; rewrite ?app_nil_r; auto.
      * cbn. intros x Hx. injection Hx as <-. exact Ht.
      * cbn. discriminate.
      * cbn [andb]. destruct (is_2xx r) eqn:X2; [repeat constructor; auto|].
        destruct (is_6xx r) eqn:X6; repeat constructor; auto. cbn. discriminate.
      * repeat constructor. cbn. intros N. rewrite N in Sel. discriminate.
    + inversion S; subst. apply W; rewrite ?app_nil_r; auto. repeat constructor; cbn in *; tauto.
    + inversion S; subst. apply W; auto.
      * apply core_sent. rewrite cancel_map. apply core_cancel. exact K.
      * cbn. intros x Hx. rewrite finals_sent. auto.
      * constructor.
      * apply always_snoc; [exact A|]. exact Ht.
    + eapply Same; [reflexivity|]. destruct (cx_count c0 =? 0); repeat constructor. exact Ht.
    + destruct (cx_best c0) as [best|] eqn:Eb.
      2:{ eapply Same; [cbn; rewrite Eb; reflexivity|constructor]. }
      destruct (is_challenge best) eqn:Cb.
      * eapply Same; [cbn; rewrite Eb, Cb; reflexivity|]. repeat constructor. cbn. auto.
      * inversion S; subst. apply W.
        { apply core_sent. exact K. }
        { intros x Hx. rewrite finals_sent. apply B. congruence. }
        { rewrite Eb. discriminate. }
        { constructor. }
        { apply always_snoc; [exact A|]. exists best. split; [auto|apply adds_refl]. }
    + inversion S; subst. apply W; auto.
      * apply core_sent. exact K.
      * intros x Hx. rewrite finals_sent. auto.
      * constructor.
      * apply always_snoc; [exact A|]. exists best. split; [exact Ht|].
        eapply adds_weaken; [|apply aggregate_adds; exact ord_ok].
        intros x (b1 & br & Hi & R). apply (last_received b1). eapply core_stored; eassumption.
    + eapply Same; [reflexivity|]. destruct (timer_applies c0 b0); repeat constructor.
    + eapply Same; [reflexivity|]. destruct (error_applies c0 b0); repeat constructor.
Qed.
Lemma sinv_new : forall q, sinv (sys_new q).
Proof.
  intros q. constructor; cbn; auto.
  - exact core_new.
  - discriminate.
  - apply always_nil.
Qed.
Lemma srun_ind : forall (P : sys -> Prop) q, P (sys_new q) ->
  (forall s lab, sinv s -> P s -> P (sstep ord s lab)) -> forall labs, sinv (srun ord (sys_new q) labs) /\ P (srun ord (sys_new q) labs).
Proof.
  intros P q H0 Hs labs. induction labs as [|lab labs IH] using rev_ind.
  - split; [apply sinv_new|exact H0].
  - unfold srun in *. rewrite fold_left_app. cbn. destruct IH as [I Hp].
    split; [apply sinv_step; exact I|apply Hs; assumption].
Qed.
Lemma srun_sinv : forall q labs, sinv (srun ord (sys_new q) labs).
Proof. intros. apply (srun_ind (fun _ => True) q I (fun _ _ _ _ => I) labs). Qed.

(** ** Every 2xx is forwarded *)
Definition now2 (l : list event) : list resp :=
  flat_map (fun e => match e with Sent Now r => if is_2xx r then [r] else [] | _ => [] end) l.
Definition pend2 (ts : list task) : list resp :=
  flat_map (fun t => match t with TCount _ r | TRank _ r | TCancel _ r => if is_2xx r then [r] else [] | _ => [] end) ts.
Lemma now2_app : forall a b, now2 (a ++ b) = now2 a ++ now2 b.
Proof. intros. apply flat_map_app. Qed.
Lemma pend2_app : forall a b, pend2 (a ++ b) = pend2 a ++ pend2 b.
Proof. intros. apply flat_map_app. Qed.
Lemma pend2_fresh : forall ts, Forall fresh ts -> pend2 ts = [].
Proof. intros ts H. induction H as [|t ts Ht _ IH]; [reflexivity|]. destruct t; cbn in *; tauto. Qed.
Lemma select_2xx : forall o r, is_2xx r = true -> (forall x, o = Some x -> is_final x = true /\ is_6xx x = false) ->
  (forall x, o = Some x -> p_code x < 700) -> select_best o r = true.
Proof.
  intros [x|] r H N L; [|reflexivity]. specialize (N x eq_refl). specialize (L x eq_refl). destruct N as [Fx N].
  unfold select_best. unfold is_2xx, is_6xx, is_final in *.
  assert (p_code r / 100 = 2) as -> by (symmetry; apply (N.div_unique _ _ _ (p_code r - 200)); lia).
  cbn. destruct (p_code x / 100 =? 6) eqn:E; [|reflexivity].
  apply N.eqb_eq in E. pose proof (N.div_mod (p_code x) 100). pose proof (N.mod_lt (p_code x) 100). lia.
Qed.
Definition codes_ok (l : list event) : Prop := forall r, In r (finals l) -> p_code r < 700 /\ is_6xx r = false.
Lemma codes_prefix : forall a b, codes_ok (a ++ b) -> codes_ok a.
Proof. intros a b H r Hr. apply H. rewrite finals_app. apply in_or_app. now left. Qed.
Lemma perm_mid : forall A (x y z w : list A), Permutation x (y ++ z ++ w) -> forall v, Permutation (x ++ v) (y ++ z ++ v ++ w).
Proof.
  intros A x y z w P v. apply Permutation_trans with ((y ++ z ++ w) ++ v); [apply Permutation_app_tail; exact P|].
  rewrite <- !app_assoc. do 2 apply Permutation_app_head. apply Permutation_app_comm.
Qed.
Lemma two_xx_inv : forall q labs, let s := srun ord (sys_new q) labs in
  codes_ok (sy_log s) -> Permutation (filter is_2xx (finals (sy_log s))) (now2 (sy_log s) ++ pend2 (sy_tasks s)).
Proof.
  intros q labs.
  destruct (srun_ind (fun s => codes_ok (sy_log s) ->
     Permutation (filter is_2xx (finals (sy_log s))) (now2 (sy_log s) ++ pend2 (sy_tasks s))) q) with (labs := labs) as [_ H];
    [intros _; constructor| |exact H].
  clear labs. intros s lab [K B T _] P N6.
  destruct (sstep_cases s lab) as [(ts & new & E & Fr)|(a & t & b & c & k & ev & E & S & E2)].
  - rewrite E in *. cbn [sy_log sy_tasks] in *. rewrite pend2_app, (pend2_fresh _ Fr), app_nil_r. auto.
  - rewrite E2 in *. cbn [sy_log sy_tasks] in *. specialize (P (codes_prefix _ _ N6)).
    rewrite E in P, T. apply Forall_app in T. destruct T as [_ T]. inversion T as [|? ? Ht _]; subst. clear T.
    rewrite finals_app, filter_app, now2_app, !pend2_app in *. cbn [pend2 flat_map] in P. fold (pend2 b) in P.
    destruct t as [b0 u|b0 u|b0 r|b0 r|b0 r|b0 r|b0 r| | |best|b0|b0]; cbn in S.
    + inversion S; subst. destruct (add_check _); cbn; rewrite !app_nil_r; exact P.
    + destruct (add_insert _ _ _); inversion S; subst; cbn; rewrite !app_nil_r; exact P.
    + destruct (record_response (sy_ctx s) b0 r) as [c1|]; [|inversion S; subst; cbn; rewrite !app_nil_r; exact P].
      destruct (is_final r) eqn:F; inversion S; subst.
      * cbn. rewrite F. cbn. rewrite !app_nil_r. destruct (is_2xx r); cbn.
        { apply (perm_mid _ _ (now2 (sy_log s)) (pend2 a) (pend2 b) P [r]). }
        { rewrite app_nil_r. exact P. }
      * cbn. rewrite F. cbn. rewrite !app_nil_r. exact P.
    + inversion S; subst. cbn. rewrite !app_nil_r. exact P.
    + destruct (rank_response (sy_ctx s) r) as [sel c2] eqn:Rk. inversion S; subst. cbn. rewrite !app_nil_r.
      destruct (is_2xx r) eqn:X2.
      * assert (sel = true).
        { unfold rank_response in Rk. rewrite select_2xx in Rk; [congruence|exact X2| |].
          - intros x Hx. apply B in Hx. split; [apply (finals_received _ _ Hx)|]. apply (codes_prefix _ _ N6). exact Hx.
          - intros x Hx. apply B in Hx. apply (codes_prefix _ _ N6). exact Hx. }
        subst sel. cbn. rewrite X2. exact P.
      * rewrite andb_false_r. destruct (sel && is_6xx r); exact P.
    + cbn in Ht. destruct Ht as [Hr X]. inversion S; subst. cbn. rewrite !app_nil_r.
      assert (is_2xx r = false) as -> by (unfold is_2xx, is_6xx in *; lia). exact P.
    + inversion S; subst. cbn. rewrite !app_nil_r. destruct (is_2xx r); [|cbn; rewrite app_nil_r; exact P].
      cbn in P. cbn. eapply Permutation_trans; [exact P|].
      rewrite <- !app_assoc. apply Permutation_app_head. cbn. apply Permutation_sym. apply Permutation_middle.
    + destruct (cx_count (sy_ctx s) =? 0); inversion S; subst; cbn; rewrite !app_nil_r; exact P.
    + destruct (cx_best (sy_ctx s)) as [best|]; [destruct (is_challenge best)|]; inversion S; subst; cbn; rewrite !app_nil_r; exact P.
    + inversion S; subst. cbn. rewrite !app_nil_r. exact P.
    + destruct (timer_applies (sy_ctx s) b0); inversion S; subst; cbn; rewrite !app_nil_r; exact P.
    + destruct (error_applies (sy_ctx s) b0); inversion S; subst; cbn; rewrite !app_nil_r; exact P.
Qed.

(** ** An answer is always forwarded *)
Definition is_count (t : task) : bool := match t with TCount _ _ => true | _ => false end.
Definition pend_count (ts : list task) : N := llen (filter is_count ts).
Definition mem_str (b : str) (l : list str) : bool := existsb (str_eqb b) l.
Definition unfinished (l : list event) : list str := filter (fun b => negb (mem_str b (finished l))) (added l).
Definition is_post (t : task) : bool :=
  match t with TRank _ _ | TTerm _ _ | TCancel _ _ | TCheck | TRead | TGather _ => true | _ => false end.
Lemma mem_str_In : forall b l, mem_str b l = true <-> In b l.
Proof.
  intros b l. unfold mem_str. rewrite existsb_exists. split.
  - intros [x [H E]]. apply str_eqb_spec in E. now subst.
  - intros H. exists b. split; [exact H|apply str_eqb_refl].
Qed.
Lemma pend_count_app : forall a b, pend_count (a ++ b) = pend_count a + pend_count b.
Proof. intros. unfold pend_count. rewrite filter_app. apply llen_app. Qed.
Lemma pend_count_fresh : forall ts, Forall fresh ts -> pend_count ts = 0.
Proof.
  intros ts H. unfold pend_count. induction H as [|t ts Ht _ IH]; [reflexivity|].
  cbn [filter]. destruct t; cbn in *; tauto.
Qed.
Lemma unfinished_same : forall l ev, added ev = [] -> finished ev = [] -> unfinished (l ++ ev) = unfinished l.
Proof. intros l ev A F. unfold unfinished. rewrite added_app, finished_app, A, F, !app_nil_r. reflexivity. Qed.
Lemma filter_drop_one : forall (L f : list str) b, NoDup L ->
  llen (filter (fun x => negb (mem_str x f)) L) <= llen (filter (fun x => negb (mem_str x (f ++ [b]))) L) + 1.
Proof.
  intros L f b ND.
  assert (W : forall L', (length (filter (fun x => negb (mem_str x f)) L') <=
     length (filter (fun x => negb (mem_str x (f ++ [b]))) L') + length (filter (str_eqb b) L'))%nat).
  { induction L' as [|x L' IH]; [cbn; lia|]. cbn [filter].
    unfold mem_str in *. rewrite existsb_app. cbn. rewrite orb_false_r, (str_eqb_sym x b).
    destruct (existsb (str_eqb x) f); destruct (str_eqb b x); cbn; lia. }
  specialize (W L).
  assert (Z : (length (filter (str_eqb b) L) <= 1)%nat).
  { clear W. induction ND as [|x L Hx ND IH]; [cbn; lia|]. cbn [filter]. destruct (str_eqb b x) eqn:E; [|exact IH].
    apply str_eqb_spec in E. subst x. replace (filter (str_eqb b) L) with (@nil str); [cbn; lia|].
    symmetry. clear - Hx. induction L as [|y L IH]; [reflexivity|]. cbn [filter].
    destruct (str_eqb b y) eqn:E; [apply str_eqb_spec in E; subst; exfalso; apply Hx; now left|].
    apply IH. intros H. apply Hx. now right. }
  unfold llen. lia.
Qed.
Lemma unfinished_got : forall l b r, is_final r = true -> NoDup (added l) ->
  llen (unfinished l) <= llen (unfinished (l ++ [Got b r])) + 1.
Proof.
  intros l b r F ND. unfold unfinished. rewrite added_got, finished_app. cbn [finished flat_map]. rewrite F. cbn [app].
  apply filter_drop_one. exact ND.
Qed.
Lemma unfinished_added : forall l b, ~ In b (finished l) -> llen (unfinished (l ++ [Added b])) = llen (unfinished l) + 1.
Proof.
  intros l b H. unfold unfinished. rewrite added_app, finished_app. cbn [added finished flat_map app]. rewrite app_nil_r, filter_app.
  rewrite llen_app. cbn [filter]. destruct (mem_str b (finished l)) eqn:E; [apply mem_str_In in E; tauto|].
  reflexivity.
Qed.
Lemma nodup_not_in : forall (l : list str) b, NoDup (l ++ [b]) -> ~ In b l.
Proof.
  intros l b H Hb. apply NoDup_remove_2 in H. apply H. rewrite app_nil_r. exact Hb.
Qed.
Lemma count_inv : forall q labs, let s := srun ord (sys_new q) labs in
  NoDup (added (sy_log s)) -> cx_count (sy_ctx s) <= llen (unfinished (sy_log s)) + pend_count (sy_tasks s).
Proof.
  intros q labs.
  destruct (srun_ind (fun s => NoDup (added (sy_log s)) ->
     cx_count (sy_ctx s) <= llen (unfinished (sy_log s)) + pend_count (sy_tasks s)) q) with (labs := labs) as [_ H];
    [intros _; cbn; lia| |exact H].
  clear labs. intros s lab [K B T _] P ND.
  destruct (sstep_cases s lab) as [(ts & new & E & Fr)|(a & t & b & c & k & ev & E & S & E2)].
  - rewrite E in *. cbn [sy_log sy_tasks sy_ctx cx_count set_timers] in *.
    rewrite pend_count_app, (pend_count_fresh _ Fr), N.add_0_r. auto.
  - rewrite E2 in *. cbn [sy_log sy_tasks sy_ctx] in *.
    assert (ND0 : NoDup (added (sy_log s))) by (rewrite added_app in ND; eapply NoDup_app_l; exact ND).
    specialize (P ND0). rewrite E in P. change (t :: b) with ([t] ++ b) in P. rewrite !pend_count_app in *.
    assert (Same : forall k' ev', tstep ord (sy_ctx s) t = (c, k', ev') -> cx_count c = cx_count (sy_ctx s) ->
       added ev' = [] -> finished ev' = [] -> pend_count (opt_task k') = pend_count [t] ->
       cx_count c <= llen (unfinished (sy_log s ++ ev)) + (pend_count a + (pend_count (opt_task k) + pend_count b))).
    { intros k' ev' S' Ec A F Pk. rewrite S' in S. inversion S; subst. rewrite unfinished_same by assumption. lia. }
    destruct t as [b0 u|b0 u|b0 r|b0 r|b0 r|b0 r|b0 r| | |best|b0|b0]; cbn in S.
    + inversion S; subst. eapply Same; [reflexivity|..]; try reflexivity. now destruct (add_check _).
    + unfold add_insert in S. destruct (MAX_BRANCHES_PER_CONTEXT <=? llen (cx_branches (sy_ctx s))) eqn:L; inversion S; subst.
      * eapply Same; [cbn; unfold add_insert; rewrite L; reflexivity|..]; reflexivity.
      * cbn. rewrite added_app in ND. apply nodup_not_in in ND.
        assert (Hf : ~ In b0 (finished (sy_log s))) by (intros Hf; apply ND; apply (k_fin _ _ K); exact Hf).
        rewrite unfinished_added by exact Hf. cbn in P. change (pend_count [TInsert b0 u]) with 0 in P. change (pend_count []) with 0. lia.
    + destruct (record_response (sy_ctx s) b0 r) as [c1|] eqn:R.
      2:{ inversion S; subst. eapply Same; [cbn; rewrite R; reflexivity|..]; reflexivity. }
      destruct (record_fields _ _ _ _ R) as (_ & Ec & _).
      destruct (is_final r) eqn:F; inversion S; subst.
      * pose proof (unfinished_got (sy_log s) b0 r F ND0) as U. rewrite Ec. cbn [opt_task].
        change (pend_count [TCount b0 r]) with 1. change (pend_count [TResp b0 r]) with 0 in P. lia.
      * eapply Same; [cbn; rewrite R, F; reflexivity|..]; try reflexivity; [exact Ec|]. cbn. rewrite F. reflexivity.
    + inversion S; subst. rewrite app_nil_r. cbn [opt_task]. change (pend_count [TRank b0 r]) with 0.
      change (pend_count [TCount b0 r]) with 1 in P. cbn. destruct (0 <? cx_count (sy_ctx s)) eqn:Z; lia.
    + destruct (rank_response (sy_ctx s) r) as [sel c2] eqn:Rk. inversion S; subst.
      eapply Same; [cbn; rewrite Rk; reflexivity|..]; try reflexivity.
      * unfold rank_response in Rk. destruct (select_best _ _); inversion Rk; reflexivity.
      * destruct (sel && is_2xx r); [reflexivity|]. destruct (sel && is_6xx r); reflexivity.
    + inversion S; subst. eapply Same; reflexivity.
    + inversion S; subst. eapply Same; reflexivity.
    + inversion S; subst. eapply Same; [reflexivity|..]; try reflexivity. now destruct (cx_count _ =? 0).
    + destruct (cx_best (sy_ctx s)) as [best|] eqn:Eb; [destruct (is_challenge best) eqn:Cb|]; inversion S; subst;
        (eapply Same; [cbn; rewrite Eb; try rewrite Cb; reflexivity|..]; reflexivity).
    + inversion S; subst. eapply Same; reflexivity.
    + inversion S; subst. eapply Same; [reflexivity|..]; try reflexivity. now destruct (timer_applies _ _).
    + inversion S; subst. eapply Same; [reflexivity|..]; try reflexivity. now destruct (error_applies _ _).
Qed.
Definition answered (s : sys) : Prop :=
  sent_finals (sy_log s) <> [] \/ 0 < cx_count (sy_ctx s) \/ existsb is_post (sy_tasks s) = true \/ added (sy_log s) = [].
Lemma answered_inv : forall q labs, answered (srun ord (sys_new q) labs).
Proof.
  intros q labs. destruct (srun_ind answered q) with (labs := labs) as [_ H]; [right; right; now right| |exact H].
  clear labs. intros s lab [K B T _] P.
  destruct (sstep_cases s lab) as [(ts & new & E & Fr)|(a & t & b & c & k & ev & E & S & E2)].
  - rewrite E. unfold answered in *. cbn [sy_log sy_tasks sy_ctx cx_count set_timers] in *.
    rewrite existsb_app. destruct P as [P|[P|[P|P]]]; auto. right. right. left. rewrite P. reflexivity.
  - rewrite E2. unfold answered in *. cbn [sy_log sy_tasks sy_ctx].
    destruct P as [P|P].
    { left. rewrite sent_finals_app. destruct (sent_finals (sy_log s)); [tauto|discriminate]. }
    rewrite E in T. apply Forall_app in T. destruct T as [_ T]. inversion T as [|? ? Ht _]; subst. clear T.
    rewrite E, existsb_app in P. cbn [existsb] in P. rewrite !existsb_app, sent_finals_app, added_app.
    (* a step to a later stage keeps a post-count task *)
    assert (Post : existsb is_post (opt_task k) = true ->
      sent_finals (sy_log s) ++ sent_finals ev <> [] \/ 0 < cx_count c \/
      existsb is_post a || (existsb is_post (opt_task k) || existsb is_post b) = true \/ added (sy_log s) ++ added ev = []).
    { intros ->. right. right. left. cbn. apply orb_true_r. }
    assert (Sent1 : forall kd r, ev = [Sent kd r] -> is_final r = true ->
      sent_finals (sy_log s) ++ sent_finals ev <> [] \/ 0 < cx_count c \/
      existsb is_post a || (existsb is_post (opt_task k) || existsb is_post b) = true \/ added (sy_log s) ++ added ev = []).
    { intros kd r -> F. left. cbn. rewrite F. destruct (sent_finals (sy_log s)); discriminate. }
    assert (Idle : is_post t = false -> cx_count c = cx_count (sy_ctx s) -> added ev = [] ->
      sent_finals (sy_log s) ++ sent_finals ev <> [] \/ 0 < cx_count c \/
      existsb is_post a || (existsb is_post (opt_task k) || existsb is_post b) = true \/ added (sy_log s) ++ added ev = []).
    { intros Ht0 Ec Ae. rewrite Ht0 in P. rewrite Ec, Ae, app_nil_r. cbn in P.
      destruct P as [P|[P|P]]; auto. right. right. left.
      destruct (existsb is_post a); [reflexivity|]. cbn in *. rewrite P. apply orb_true_r. }
    destruct t as [b0 u|b0 u|b0 r|b0 r|b0 r|b0 r|b0 r| | |best|b0|b0]; cbn in S.
    + inversion S; subst. apply Idle; reflexivity.
    + unfold add_insert in S. destruct (MAX_BRANCHES_PER_CONTEXT <=? llen (cx_branches (sy_ctx s))); inversion S; subst.
      * apply Idle; reflexivity.
      * right. left. cbn. lia.
    + destruct (record_response (sy_ctx s) b0 r) as [c1|] eqn:R; [|inversion S; subst; apply Idle; reflexivity].
      destruct (record_fields _ _ _ _ R) as (_ & Ec & _).
      destruct (is_final r); inversion S; subst; apply Idle; auto.
    + inversion S; subst. apply Post. reflexivity.
    + destruct (rank_response (sy_ctx s) r) as [sel c2]. inversion S; subst. apply Post. cbn.
      destruct (sel && is_2xx r); [reflexivity|]. destruct (sel && is_6xx r); reflexivity.
    + inversion S; subst. apply Post. reflexivity.
    + inversion S; subst. eapply Sent1; [reflexivity|]. cbn in Ht. apply (finals_received _ _ (proj1 Ht)).
    + destruct (cx_count (sy_ctx s) =? 0) eqn:Z; inversion S; subst; [apply Post; reflexivity|].
      right. left. lia.
    + cbn in Ht. destruct (cx_best (sy_ctx s)) as [best|] eqn:Eb; [|tauto].
      destruct (is_challenge best); inversion S; subst; [apply Post; reflexivity|].
      eapply Sent1; [reflexivity|]. apply (finals_received _ _ (B _ eq_refl)).
    + inversion S; subst. eapply Sent1; [reflexivity|]. cbn in Ht.
      rewrite (final_code _ best) by reflexivity. apply (finals_received _ _ Ht).
    + inversion S; subst. apply Idle; reflexivity.
    + inversion S; subst. apply Idle; reflexivity.
Qed.
Lemma always_answered : forall q labs, let s := srun ord (sys_new q) labs in
  sy_tasks s = [] -> NoDup (added (sy_log s)) -> added (sy_log s) <> [] -> all_finished (sy_log s) -> sent_finals (sy_log s) <> [].
Proof.
  intros q labs s Ht ND Ha Hf. pose proof (count_inv q labs ND) as C. pose proof (answered_inv q labs) as A.
  fold s in C, A. rewrite Ht in C.
  assert (U : unfinished (sy_log s) = []).
  { unfold unfinished.
    assert (W : forall L, (forall b, In b L -> In b (finished (sy_log s))) -> filter (fun b => negb (mem_str b (finished (sy_log s)))) L = []).
    { induction L as [|x L IH]; intros H; [reflexivity|]. cbn [filter].
      assert (mem_str x (finished (sy_log s)) = true) as -> by (apply mem_str_In; apply H; now left).
      cbn. apply IH. intros b Hb. apply H. now right. }
    apply W. exact Hf. }
  rewrite U in C. cbn in C. destruct A as [A|[A|[A|A]]]; auto.
  - exfalso. change (pend_count []) with 0 in C. unfold llen in C. cbn in C. lia.
  - rewrite Ht in A. discriminate.
Qed.

(** ** Provisional responses are passed on in order *)
Lemma prov_inv : forall q labs, let s := srun ord (sys_new q) labs in prov_sent (sy_log s) = prov_got (sy_log s).
Proof.
  intros q labs.
  destruct (srun_ind (fun s => prov_sent (sy_log s) = prov_got (sy_log s)) q) with (labs := labs) as [_ H]; [reflexivity| |exact H].
  clear labs. intros s lab [K B T _] P.
  destruct (sstep_cases s lab) as [(ts & new & E & Fr)|(a & t & b & c & k & ev & E & S & E2)]; [rewrite E; exact P|].
  rewrite E2. cbn [sy_log]. unfold prov_sent, prov_got in *. rewrite !flat_map_app, P. f_equal.
  rewrite E in T. apply Forall_app in T. destruct T as [_ T]. inversion T as [|? ? Ht _]; subst. clear T.
  destruct t as [b0 u|b0 u|b0 r|b0 r|b0 r|b0 r|b0 r| | |best|b0|b0]; cbn in S.
  - inversion S; subst. reflexivity.
  - destruct (add_insert _ _ _); inversion S; subst; reflexivity.
  - destruct (record_response (sy_ctx s) b0 r); [|inversion S; subst; reflexivity].
    destruct (is_final r) eqn:F; inversion S; subst; cbn; rewrite F; reflexivity.
  - inversion S; subst. reflexivity.
  - destruct (rank_response (sy_ctx s) r). inversion S; subst. reflexivity.
  - inversion S; subst. reflexivity.
  - inversion S; subst. cbn in Ht. cbn. rewrite (proj2 (finals_received _ _ (proj1 Ht))). reflexivity.
  - inversion S; subst. reflexivity.
  - destruct (cx_best (sy_ctx s)) as [best|]; [|inversion S; subst; reflexivity].
    destruct (is_challenge best); inversion S; subst; [reflexivity|]. cbn.
    rewrite (proj2 (finals_received _ _ (B _ eq_refl))). reflexivity.
  - inversion S; subst. cbn in Ht. cbn. rewrite (final_code _ best) by reflexivity.
    rewrite (proj2 (finals_received _ _ Ht)). reflexivity.
  - inversion S; subst. reflexivity.
  - inversion S; subst. reflexivity.
Qed.

(** ** Where the responses come from *)
Definition task_from (q : req) (labs : list label) (t : task) : Prop :=
  match t with
  | TResp b r => origin q labs b r
  | TTimer b => In (Elapse b) labs
  | TError b => In (Start (PError b)) labs
  | _ => True
  end.
Lemma origin_mono : forall q labs labs' b r, incl labs labs' -> origin q labs b r -> origin q labs' b r.
Proof. unfold origin. intuition. Qed.
Lemma from_mono : forall q labs labs' t, incl labs labs' -> task_from q labs t -> task_from q labs' t.
Proof. intros q labs labs' [] H X; cbn in *; auto. eapply origin_mono; eassumption. Qed.
Lemma step_req : forall c t c' k ev, tstep ord c t = (c', k, ev) -> cx_req c' = cx_req c.
Proof.
  intros c t c' k ev S. destruct t as [b0 u|b0 u|b0 r|b0 r|b0 r|b0 r|b0 r| | |best|b0|b0]; cbn in S.
  - inversion S; reflexivity.
  - unfold add_insert in S. destruct (_ <=? _); inversion S; reflexivity.
  - destruct (record_response c b0 r) as [c1|] eqn:R; [|inversion S; reflexivity].
    destruct (record_fields _ _ _ _ R) as (_ & _ & _ & E). destruct (is_final r); inversion S; subst; exact E.
  - inversion S; reflexivity.
  - unfold rank_response in S. destruct (select_best _ _); inversion S; reflexivity.
  - inversion S; reflexivity.
  - inversion S; reflexivity.
  - inversion S; reflexivity.
  - destruct (cx_best c); [destruct (is_challenge _)|]; inversion S; reflexivity.
  - inversion S; reflexivity.
  - inversion S; reflexivity.
  - inversion S; reflexivity.
Qed.
Lemma origin_inv : forall q labs, let s := srun ord (sys_new q) labs in
  cx_req (sy_ctx s) = q /\ Forall (task_from q labs) (sy_tasks s) /\ (forall b r, In (Got b r) (sy_log s) -> origin q labs b r).
Proof.
  intros q labs. induction labs as [|lab labs IH] using rev_ind.
  - cbn. repeat split; auto. contradiction.
  - unfold srun in *. rewrite fold_left_app. cbn [fold_left]. cbv zeta in IH.
    set (s := fold_left (sstep ord) labs (sys_new q)) in *. clearbody s. destruct IH as (Q & T & G).
    assert (M : incl labs (labs ++ [lab])) by (intros x Hx; apply in_or_app; now left).
    assert (T' : Forall (task_from q (labs ++ [lab])) (sy_tasks s)).
    { eapply Forall_impl; [|exact T]. intros t. apply from_mono. exact M. }
    assert (G' : forall b r, In (Got b r) (sy_log s) -> origin q (labs ++ [lab]) b r).
    { intros b r H. eapply origin_mono; [exact M|]. auto. }
    destruct lab as [o|b|i].
    + cbn. split; [exact Q|]. split; [|exact G']. apply Forall_app. split; [exact T'|].
      assert (L : In (Start o) (labs ++ [Start o])) by (apply in_or_app; right; now left).
      destruct o; repeat constructor; exact L.
    + cbn. destruct (remove_one b (cx_timers (sy_ctx s))); [|auto]. cbn. split; [exact Q|]. split; [|exact G'].
      apply Forall_app. split; [exact T'|]. repeat constructor. cbn. apply in_or_app. right. now left.
    + destruct (sstep_run s i) as [-> | (a & t & b & c & k & ev & E & S & ->)]; [auto|].
      cbn [sy_ctx sy_tasks sy_log]. split; [rewrite (step_req _ _ _ _ _ S); exact Q|].
      rewrite E in T'. apply Forall_app in T'. destruct T' as [Ta T']. inversion T' as [|? ? Ht Tb]; subst x l. clear T'.
      assert (X : Forall (task_from q (labs ++ [Run i])) (opt_task k) /\ forall b r, In (Got b r) ev -> origin q (labs ++ [Run i]) b r).
      { destruct t as [b0 u|b0 u|b0 r|b0 r|b0 r|b0 r|b0 r| | |best|b0|b0]; cbn in S.
        - inversion S; subst. destruct (add_check _); (split; [repeat constructor|intros ? ? []]).
        - destruct (add_insert _ _ _); inversion S; subst; (split; [constructor|]); intros ? ? H; cbn in H; intuition; discriminate.
        - cbn in Ht. destruct (record_response (sy_ctx s) b0 r); [|inversion S; subst; split; [constructor|intros ? ? []]].
          destruct (is_final r); inversion S; subst; (split; [repeat constructor|]); intros b1 r1 H; cbn in H;
            repeat (destruct H as [H|H]; [try (injection H as <- <-; exact Ht); discriminate|]); destruct H.
        - inversion S; subst. split; [repeat constructor|intros ? ? []].
        - destruct (rank_response (sy_ctx s) r) as [sel c2]. inversion S; subst. split; [|intros ? ? []].
          destruct (sel && is_2xx r); [repeat constructor|]. destruct (sel && is_6xx r); repeat constructor.
        - inversion S; subst. split; [repeat constructor|intros ? ? []].
        - inversion S; subst. split; [constructor|]. intros ? ? H; cbn in H; intuition; discriminate.
        - inversion S; subst. split; [|intros ? ? []]. destruct (cx_count _ =? 0); repeat constructor.
        - destruct (cx_best (sy_ctx s)) as [best|]; [destruct (is_challenge best)|]; inversion S; subst;
            (split; [repeat constructor|intros ? ? H; cbn in H; intuition; discriminate]).
        - inversion S; subst. split; [constructor|]. intros ? ? H; cbn in H; intuition; discriminate.
        - inversion S; subst. split; [|intros ? ? []]. destruct (timer_applies _ _); constructor; [|constructor].
          cbn in Ht. cbn. right. left. split; [exact Ht|reflexivity].
        - inversion S; subst. split; [|intros ? ? []]. destruct (error_applies _ _); constructor; [|constructor].
          cbn in Ht. cbn. right. right. split; [exact Ht|reflexivity]. }
      destruct X as [X1 X2]. split.
      * apply Forall_app. split; [exact Ta|]. apply Forall_app. split; [exact X1|exact Tb].
      * intros b1 r1 H. apply in_app_or in H. destruct H as [H|H]; auto.
Qed.

(** ** Calls one after the other are a special case *)
Definition seq_labels (o : pop) : list label :=
  match o with PTimer b => Elapse b | _ => Start o end :: repeat (Run 0) 8.
Lemma run_none : forall s, sy_tasks s = [] -> sstep ord s (Run 0) = s.
Proof. intros s H. cbn. rewrite H. reflexivity. Qed.
Lemma run_nones : forall n s, sy_tasks s = [] -> srun ord s (repeat (Run 0) n) = s.
Proof. induction n as [|n IH]; intros s H; [reflexivity|]. cbn. rewrite H. apply IH. exact H. Qed.
Lemma run_one : forall c t l, sstep ord (mkSys c [t] l) (Run 0) =
  let '(c', k, ev) := tstep ord c t in mkSys c' (opt_task k) (l ++ ev).
Proof.
  intros c t l. cbn [sstep sy_tasks nth_error sy_ctx sy_log]. destruct (tstep ord c t) as [[c' k] ev].
  cbn. rewrite app_nil_r. destruct k; reflexivity.
Qed.
Lemma srun_cons : forall s x xs, srun ord s (x :: xs) = srun ord (sstep ord s x) xs.
Proof. reflexivity. Qed.
Lemma seq_process : forall c b r l c' ev, process ord c b r = (c', ev) ->
  forall n, srun ord (mkSys c [TResp b r] l) (repeat (Run 0) (7 + n)) = mkSys c' [] (l ++ ev).
Proof.
  intros c b r l c' ev H n. apply process_cases in H.
  cbn [plus repeat]. rewrite srun_cons, run_one. cbn [tstep].
  destruct H as [(R & -> & ->)|(c1 & R & H)]; rewrite R.
  { cbn [opt_task]. apply (run_nones (6 + n)). reflexivity. }
  destruct H as [(F & -> & ->)|[(F & S & X & -> & ->)|[(F & S & X & X2 & -> & ->)|(F & NS & E & ->)]]]; rewrite F.
  - cbn [opt_task]. apply (run_nones (6 + n)). reflexivity.
  - cbn [opt_task]. rewrite srun_cons, run_one. cbn [tstep opt_task]. rewrite srun_cons, run_one. cbn [tstep].
    unfold rank_response. change (cx_best (count_down c1)) with (cx_best c1). rewrite S, X. cbn [andb opt_task].
    rewrite srun_cons, run_one. cbn [tstep opt_task]. rewrite !app_nil_r, <- app_assoc. apply (run_nones (3 + n)). reflexivity.
  - cbn [opt_task]. rewrite srun_cons, run_one. cbn [tstep opt_task]. rewrite srun_cons, run_one. cbn [tstep].
    unfold rank_response. change (cx_best (count_down c1)) with (cx_best c1). rewrite S, X, X2. cbn [andb opt_task].
    rewrite srun_cons, run_one. cbn [tstep opt_task]. rewrite srun_cons, run_one. cbn [tstep opt_task].
    rewrite !app_nil_r, <- app_assoc. apply (run_nones (2 + n)). reflexivity.
  - cbn [opt_task]. rewrite srun_cons, run_one. cbn [tstep opt_task]. rewrite srun_cons, run_one. cbn [tstep].
    unfold rank_response. change (cx_best (count_down c1)) with (cx_best c1).
    assert (N2 : select_best (cx_best c1) r && is_2xx r = false).
    { destruct NS as [-> | [-> _]]; [reflexivity|apply andb_false_r]. }
    assert (N6 : select_best (cx_best c1) r && is_6xx r = false).
    { destruct NS as [-> | [_ ->]]; [reflexivity|apply andb_false_r]. }
    assert (E2 : (if select_best (cx_best c1) r then (true, set_best (count_down c1) (Some r)) else (false, count_down c1))
      = (select_best (cx_best c1) r, c')).
    { rewrite E. destruct (select_best (cx_best c1) r); reflexivity. }
    rewrite E2, N2, N6. cbn [opt_task]. rewrite srun_cons, run_one. cbn [tstep].
    rewrite !app_nil_r.
    unfold finish. destruct (cx_count c' =? 0); cbn [opt_task].
    2:{ apply (run_nones (3 + n)). reflexivity. }
    rewrite srun_cons, run_one. cbn [tstep]. destruct (cx_best c') as [best|]; cbn [opt_task].
    2:{ rewrite app_nil_r. apply (run_nones (2 + n)). reflexivity. }
    destruct (is_challenge best); cbn [opt_task].
    + rewrite srun_cons, run_one. cbn [tstep opt_task]. rewrite !app_nil_r, <- app_assoc. apply (run_nones (1 + n)). reflexivity.
    + rewrite <- app_assoc. apply (run_nones (2 + n)). reflexivity.
Qed.
Lemma seq_step : forall c o c' ev l, pstep ord c o = (c', ev) ->
  srun ord (mkSys c [] l) (seq_labels o) = mkSys c' [] (l ++ ev).
Proof.
  intros c o c' ev l H. unfold seq_labels. rewrite srun_cons.
  destruct o as [b t|b r|b|b]; cbn [sstep start_task sy_ctx sy_tasks sy_log app]; cbn [pstep] in H.
  - rewrite (srun_cons _ (Run 0) (repeat (Run 0) 7)), run_one. cbn [tstep]. unfold add_branch in H.
    destruct (add_check c); cbn [opt_task].
    + rewrite (srun_cons _ (Run 0) (repeat (Run 0) 6)), run_one. cbn [tstep].
      destruct (add_insert c b t); inversion H; subst; cbn [opt_task]; rewrite ?app_nil_r; apply (run_nones 6); reflexivity.
    + inversion H; subst. apply (run_nones 7). reflexivity.
  - apply (seq_process _ _ _ _ _ _ H 1).
  - rewrite (srun_cons _ (Run 0) (repeat (Run 0) 7)), run_one. cbn [tstep]. unfold report_error in H.
    destruct (error_applies c b); cbn [opt_task]; rewrite app_nil_r.
    + apply (seq_process _ _ _ _ _ _ H 0).
    + inversion H; subst. rewrite app_nil_r. apply (run_nones 7). reflexivity.
  - destruct (remove_one b (cx_timers c)) as [ts|].
    + cbn [app]. rewrite (srun_cons _ (Run 0) (repeat (Run 0) 7)), run_one. cbn [tstep]. unfold fire_timer_c in H.
      destruct (timer_applies (set_timers c ts) b); cbn [opt_task]; rewrite app_nil_r.
      * apply (seq_process _ _ _ _ _ _ H 0).
      * inversion H; subst. rewrite app_nil_r. apply (run_nones 7). reflexivity.
    + inversion H; subst. rewrite app_nil_r. apply (run_nones 8). reflexivity.
Qed.
Lemma srun_app : forall a b s, srun ord s (a ++ b) = srun ord (srun ord s a) b.
Proof. intros. apply fold_left_app. Qed.
Lemma seq_is_concurrent : forall ops c c' l l', prun ord c ops = (c', l') ->
  srun ord (mkSys c [] l) (flat_map seq_labels ops) = mkSys c' [] (l ++ l').
Proof.
  induction ops as [|o ops IH]; intros c c' l l' H; cbn in H.
  - inversion H; subst. rewrite app_nil_r. reflexivity.
  - destruct (pstep ord c o) as [c1 l1] eqn:S. destruct (prun ord c1 ops) as [c2 l2] eqn:R. inversion H; subst.
    cbn [flat_map]. rewrite srun_app, (seq_step _ _ _ _ _ S), app_assoc. apply IH. exact R.
Qed.
End Order.
