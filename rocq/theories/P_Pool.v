(** Properties of the connection pools: C61, C62, C104, C105. *)
From Coq Require Import Arith NArith Bool String List Lia Permutation ZifyBool ZifyN ZifyNat.
Import ListNotations.
From Verif Require Import Base BaseFacts Pool PoolSpec PoolProofs.
Open Scope N_scope.
Open Scope list_scope.

(** ** C61 The pool keeps to its size *)
(** C61: after any interleaving of calls, cancellations, failures, stops,
    clean-ups and evictions, the pooled connections and those being opened are
    together at most the configured number; every slot not in use is free again *)
Theorem C61_size : forall cfg l st, prun cfg (pool_new cfg) l = Some st ->
  llen (po_map st) + in_progress st <= pc_max cfg.
Proof. intros cfg l st H. destruct (prun_sinv cfg l _ _ (pool_new_sinv cfg) H) as [_ E]. lia. Qed.
Print Assumptions C61_size.
Theorem C61_slots : forall cfg l st, prun cfg (pool_new cfg) l = Some st ->
  NoDup (keys (po_map st)) /\ po_free st = pc_max cfg - (llen (po_map st) + in_progress st).
Proof. intros cfg l st H. destruct (prun_sinv cfg l _ _ (pool_new_sinv cfg) H) as [N E]. split; [exact N|lia]. Qed.
Print Assumptions C61_slots.

(** all the steps of a call that opens a connection *)
Definition opens (i : nat) : list action := List.repeat (AStep i [] true) 6.
Definition K1 : key := KTcp 1.
Definition K2 : key := KTcp 2.
Definition ex_cfg : pcfg := mkPcfg 1 300.
(** one slot: a connection to 1, then a call for 2 which evicts it and connects *)
Definition ex_evict : list action := ASend K1 [10] :: opens 0 ++ ASend K2 [20] :: List.repeat (AStep 1 [] true) 8.
Example C61_ex : exists st, prun ex_cfg (pool_new ex_cfg) ex_evict = Some st
  /\ llen (po_map st) = 0 /\ in_progress st = 1 /\ po_free st = 0.
Proof. eexists. split; [vm_compute; reflexivity|]. repeat split. Qed.
(** C61 does not extend to sockets: with one slot two sockets can be open, because a
    connection that was evicted is only told to close *)
Theorem C61_sockets_refuted : exists cfg l st, prun cfg (pool_new cfg) l = Some st /\ pc_max cfg = 1 /\ open_sockets st = 2.
Proof. exists ex_cfg, (ex_evict ++ [AStep 1 [] true]). eexists. split; [vm_compute; reflexivity|]. split; reflexivity. Qed.
Print Assumptions C61_sockets_refuted.

(** ** C62 A finished connection does not tear down its successor *)
(** the connection to 1 fails; the next call sees that and opens another *)
Definition ex_succ : list action :=
  ASend K1 [10] :: opens 0 ++ [AWrite 0; AEnd 0] ++ ASend K1 [20] :: List.repeat (AStep 1 [] true) 7.
Definition cfg4 : pcfg := mkPcfg 4 300.
(** C62 refuted: the successor is in place and works; then the supervisor of the old
    connection acts, and the successor is out of the pool and told to stop *)
Theorem C62_refuted : exists l st st', prun cfg4 (pool_new cfg4) l = Some st
  /\ pooled st K1 1 /\ working st 1
  /\ pstep cfg4 st (ASupervise 0) = Some st' /\ ~ pooled st' K1 1 /\ ~ working st' 1.
Proof.
  exists ex_succ. do 2 eexists. split; [vm_compute; reflexivity|].
  split; [eexists; split; vm_compute; reflexivity|]. split; [eexists; split; [vm_compute; reflexivity|split; reflexivity]|].
  split; [vm_compute; reflexivity|]. split.
  - intros (e & L & _). vm_compute in L. discriminate.
  - intros (x & L & _ & A). vm_compute in L. injection L as <-. discriminate.
Qed.
Print Assumptions C62_refuted.
(** C62 (partial): a working connection stays in the pool, whatever other calls,
    supervisors and connections do, if at some moment the supervisors of the earlier
    connections to the peer have acted and no call is about to act on what it saw of
    them; unless its own writer fails or it is found idle or oldest.
    Missing: the window between the successor's insertion and the supervisor of its
    predecessor (see [C62_refuted]). *)
Theorem C62_partial : forall cfg l0 st k c, prun cfg (pool_new cfg) l0 = Some st ->
  pooled st k c -> working st c ->
  (forall j x, j <> c -> nth_error (po_conns st) j = Some x -> cn_key x = k -> cn_sup x = false) ->
  (forall t, In t (po_tasks st) -> ~ concerns k c t) ->
  forall l st', spared cfg k c st l -> prun cfg st l = Some st' -> pooled st' k c /\ working st' c.
Proof.
  intros cfg l0 st k c R P W Su C l st' Sp H.
  pose proof (prun_dinv cfg l0 _ _ [] (pool_new_sinv cfg) (pool_new_dinv cfg) R) as D.
  pose proof (prun_sinv cfg l0 _ _ (pool_new_sinv cfg) R) as S.
  assert (keptp k c st) as K. { split; [|apply D]. split; [exact P|]. split; [exact W|exact Su]. }
  destruct (prun_kept cfg k c l st st' _ S D K C Sp H) as [(P' & W' & _) _]. split; [exact P'|exact W'].
Qed.
Print Assumptions C62_partial.
(** after the first connection's supervisor has acted, a second connection meets the
    hypotheses; a later call uses it *)
Definition ex_after : list action :=
  ASend K1 [10] :: opens 0 ++ [AWrite 0; AEnd 0; ASupervise 0] ++ ASend K1 [20] :: List.repeat (AStep 1 [] true) 6.
Example C62_ex : exists st, prun cfg4 (pool_new cfg4) ex_after = Some st /\ pooled st K1 1 /\ working st 1
  /\ (forall j x, j <> 1%nat -> nth_error (po_conns st) j = Some x -> cn_key x = K1 -> cn_sup x = false)
  /\ (forall t, In t (po_tasks st) -> ~ concerns K1 1 t)
  /\ spared cfg4 K1 1 st [ASend K1 [30]; AStep 2 [] true; AWrite 1]
  /\ exists st', prun cfg4 st [ASend K1 [30]; AStep 2 [] true; AWrite 1] = Some st'.
Proof.
  eexists. split; [vm_compute; reflexivity|].
  split; [eexists; split; vm_compute; reflexivity|]. split; [eexists; split; [vm_compute; reflexivity|split; reflexivity]|].
  split. { intros [|[|[|j]]] x N E; cbn in E; try discriminate; [injection E as <-; reflexivity|congruence]. }
  split. { intros t [<-|[<-|[]]]; cbn; auto. }
  split; [|eexists; vm_compute; reflexivity].
  cbn. repeat split; auto; intros t Ht; repeat (destruct Ht as [<-|Ht]; [cbn; auto|]); destruct Ht.
Qed.

(** ** C104 Payloads go where they were sent, once and in order *)
(** C104: what a connection has written, followed by what it still has to write, is
    what the calls that returned Ok gave it, in the order in which they did *)
Theorem C104_order : forall cfg l st c x, prun cfg (pool_new cfg) l = Some st -> nth_error (po_conns st) c = Some x ->
  on c (accepted cfg (pool_new cfg) l) = cn_written x ++ cn_queue x.
Proof.
  intros cfg l st c x H E. destruct (prun_dinv cfg l _ _ [] (pool_new_sinv cfg) (pool_new_dinv cfg) H) as (_ & _ & W & _).
  exact (W c x E).
Qed.
Print Assumptions C104_order.
(** C104: a call that returned Ok used a connection to the peer it was for *)
Theorem C104_peer : forall cfg l st k p c, prun cfg (pool_new cfg) l = Some st -> In (SDone k p (Some c)) (po_tasks st) ->
  exists x, nth_error (po_conns st) c = Some x /\ serves k (cn_key x).
Proof.
  intros cfg l st k p c H E. destruct (prun_dinv cfg l _ _ [] (pool_new_sinv cfg) (pool_new_dinv cfg) H) as (_ & T & _).
  rewrite Forall_forall in T. exact (T _ E).
Qed.
Print Assumptions C104_peer.
(** C104 (partial): Ok does not mean written; but it is then in the channel, or lost with
    the connection.  Missing: that a payload is lost only when its connection fails
    (see [C104_lost_refuted]). *)
Theorem C104_kept_partial : forall cfg l st c x p, prun cfg (pool_new cfg) l = Some st -> nth_error (po_conns st) c = Some x ->
  In (c, p) (accepted cfg (pool_new cfg) l) -> In p (cn_written x) \/ In p (cn_queue x).
Proof.
  intros cfg l st c x p H E I. apply in_app_or. rewrite <- (C104_order cfg l st c x H E). unfold on.
  apply in_map_iff. exists (c, p). split; [reflexivity|]. apply filter_In. split; [exact I|]. cbn. apply Nat.eqb_refl.
Qed.
Print Assumptions C104_kept_partial.
(** C104 refuted: two calls to the same peer at the same time each open a connection.
    No writer fails.  The second connection takes the place of the first, which is
    stopped before it has written: a payload is lost though its call returned Ok. *)
Definition ex_race : list action :=
  [ASend K1 [10]; ASend K1 [20]] ++ List.repeat (AStep 0 [] true) 4 ++ List.repeat (AStep 1 [] true) 4
  ++ [AStep 0 [] true; AStep 0 [] true; AStep 1 [] true; AStep 1 [] true; AStopped 0; AWrite 1; ASupervise 0].
Theorem C104_lost_refuted : exists l st x, prun cfg4 (pool_new cfg4) l = Some st
  /\ (forall a, In a l -> match a with AEnd _ => False | _ => True end)
  /\ nth_error (po_tasks st) 0 = Some (SDone K1 [10] (Some 0%nat))
  /\ nth_error (po_conns st) 0 = Some x /\ cn_run x = false /\ cn_written x = [].
Proof.
  exists ex_race. do 2 eexists. split; [vm_compute; reflexivity|]. split.
  - intros a Ha. cbn in Ha. repeat (destruct Ha as [<-|Ha]; [exact I|]). destruct Ha.
  - split; [reflexivity|]. split; [reflexivity|]. split; reflexivity.
Qed.
Print Assumptions C104_lost_refuted.
Example C104_ex : exists st, prun cfg4 (pool_new cfg4) (ex_after ++ [ASend K1 [30]; AStep 2 [] true; AWrite 1]) = Some st
  /\ accepted cfg4 (pool_new cfg4) (ex_after ++ [ASend K1 [30]; AStep 2 [] true; AWrite 1]) = [(0%nat, [10]); (1%nat, [20]); (1%nat, [30])]
  /\ option_map cn_written (nth_error (po_conns st) 1) = Some [[20]].
Proof. eexists. split; [vm_compute; reflexivity|]. split; vm_compute; reflexivity. Qed.

Lemma NoDup_firstn {A} (a b : list A) : NoDup (a ++ b) -> NoDup a.
Proof.
  induction a as [|x a IH]; cbn; intro H; [constructor|]. inversion_clear H as [|? ? N M]. constructor; [|auto].
  intro I. apply N. apply in_or_app. now left.
Qed.
Lemma NoDup_both {A} (a b : list A) : NoDup a -> NoDup b -> (forall x, In x a -> ~ In x b) -> NoDup (a ++ b).
Proof.
  induction a as [|x a IH]; cbn; intros Ha Hb D; [exact Hb|]. inversion_clear Ha as [|? ? N M]. constructor.
  - intro I. apply in_app_or in I. destruct I as [I|I]; [now apply N|]. apply (D x); auto.
  - apply IH; auto. 
Qed.

(** ** C105 A full pool makes room *)
(** C105: a call that finds a slot free takes it and nothing is closed.  If the pool is
    full, exactly the idle connections are closed; if there are none, the least
    recently used tenth (at least one) of the TCP or TLS connections; if there are
    none of these either the call fails and nothing is closed. *)
Theorem C105_room : forall cfg l st k p, prun cfg (pool_new cfg) l = Some st ->
  exists n st' t, solo n cfg st (SReserve k p 0) = Some (st', t)
  /\ (llen (po_map st) + in_progress st < pc_max cfg -> t = SConnect k p /\ po_map st' = po_map st)
  /\ (llen (po_map st) + in_progress st = pc_max cfg ->
       ((exists x, In x (po_map st) /\ idle cfg st x) ->
          t = SConnect k p /\ forall x, In x (po_map st') <-> In x (po_map st) /\ ~ idle cfg st x)
       /\ ((forall x, In x (po_map st) -> ~ idle cfg st x) ->
           ((exists x, In x (po_map st) /\ evictable (fst x) = true) ->
              t = SConnect k p /\ exists gone, Permutation (po_map st) (po_map st' ++ gone)
              /\ llen gone = N.min (N.max 1 (pc_max cfg / 10)) (llen (filter (fun x => evictable (fst x)) (po_map st)))
              /\ (forall x, In x gone -> evictable (fst x) = true
                    /\ forall y, In y (po_map st') -> evictable (fst y) = true -> en_used (snd x) <= en_used (snd y)))
           /\ ((forall x, In x (po_map st) -> evictable (fst x) = false) -> t = SDone k p None /\ po_map st' = po_map st))).
Proof.
  intros cfg l st k p H. destruct (prun_sinv cfg l _ _ (pool_new_sinv cfg) H) as [Nd E]. clear H l.
  destruct (0 <? po_free st) eqn:F.
  { exists 1%nat, (with_free st (po_free st - 1)), (SConnect k p). cbn [solo task_step]. rewrite F. split; [reflexivity|].
    split; [auto|]. intro Q. lia. }
  assert (po_free st = 0) as F0 by lia.
  destruct (cleanup_map cfg st Nd) as (M1 & B1 & N1 & W1). cbv zeta in *.
  set (st1 := fold_left (drop_idle cfg) (keys (po_map st)) st) in *.
  assert (forall x, idleb cfg (po_now st) x = true <-> idle cfg st x) as Id.
  { intro x. unfold idleb, idle. apply N.ltb_lt. }
  destruct (0 <? po_free st1) eqn:F1.
  { exists (S (length (keys (po_map st)) + 2)), (with_free st1 (po_free st1 - 1)), (SConnect k p). split.
    { cbn [solo task_step]. rewrite F. cbn [N.eqb]. rewrite solo_clean. fold st1. cbn [solo task_step]. rewrite F1. reflexivity. }
    split; [intro Q; lia|]. intros _. split.
    - intros _. split; [reflexivity|]. intro x. cbn. rewrite M1, filter_In, negb_true_iff. rewrite <- Id. destruct (idleb _ _ x); split; intuition congruence.
    - intros No. exfalso. assert (po_map st1 = po_map st) as Q.
      { rewrite M1. rewrite <- (filter_true_id _ (po_map st)) at 2. apply filter_ext_in'. intros x Hx. specialize (No x Hx). rewrite <- Id in No.
        destruct (idleb _ _ x); [now contradiction No|reflexivity]. }
      unfold base in B1. rewrite Q in B1. lia. }
  assert (po_free st1 = 0) as F10 by lia.
  assert (forall x, In x (po_map st) -> ~ idle cfg st x) as No.
  { intros x Hx. rewrite <- Id. unfold base in B1. rewrite F0, F10, M1 in B1.
    pose proof (filter_full _ (fun y => negb (idleb cfg (po_now st) y)) (po_map st) ltac:(lia) x Hx) as Q. cbv beta in Q. apply negb_true_iff in Q. congruence. }
  assert (po_map st1 = po_map st) as Q.
  { rewrite M1. rewrite <- (filter_true_id _ (po_map st)) at 2. apply filter_ext_in'. intros x Hx. specialize (No x Hx). rewrite <- Id in No.
    destruct (idleb _ _ x); [now contradiction No|reflexivity]. }
  set (gone := firstn (evict_count cfg) (sort_used (filter (fun x => evictable (fst x)) (po_map st)))).
  set (st2 := fold_left drop_key (map fst gone) st1).
  destruct (drop_keys_base (map fst gone) st1 N1) as [B2 N2]. fold st2 in B2, N2.
  pose proof (drop_keys_map (map fst gone) st1) as M2. fold st2 in M2. rewrite Q in M2.
  assert (forall x, In x gone -> In x (po_map st) /\ evictable (fst x) = true) as Gi.
  { intros x Hx. unfold gone in Hx. assert (In x (sort_used (filter (fun x => evictable (fst x)) (po_map st)))) as Hs.
    { rewrite <- (firstn_skipn (evict_count cfg)). apply in_or_app. now left. }
    apply (Permutation_in _ (sort_used_perm _)) in Hs. apply filter_In in Hs. exact Hs. }
  assert (forall x, In x (po_map st) -> existsb (key_eqb (fst x)) (map fst gone) = true <-> In x gone) as Ge.
  { intros [x e] Hx. rewrite existsb_exists. cbn [fst]. split.
    - intros (y & Hy & Ky). apply key_eqb_spec in Ky. subst y. apply in_map_iff in Hy. destruct Hy as ([y f] & Ey & Hy). cbn in Ey. subst y.
      destruct (Gi _ Hy) as [Hz _]. apply (in_lookup' _ _ _ _ Nd) in Hx. apply (in_lookup' _ _ _ _ Nd) in Hz. assert (e = f) as -> by congruence. exact Hy.
    - intro Hg. exists x. split; [apply in_map_iff; exists (x, e); auto|apply key_eqb_refl]. }
  assert (forall x, In x (po_map st2) <-> In x (po_map st) /\ ~ In x gone) as Gm.
  { intro x. rewrite M2, filter_In, negb_true_iff. split; intros [A B]; (split; [exact A|]); specialize (Ge x A); destruct (existsb _ _); intuition congruence. }
  assert (NoDup gone) as Ng.
  { apply NoDup_entries in Nd. assert (NoDup (sort_used (filter (fun x => evictable (fst x)) (po_map st)))) as Ns.
    { eapply Permutation_NoDup; [symmetry; apply sort_used_perm|]. now apply NoDup_filter. }
    rewrite <- (firstn_skipn (evict_count cfg)) in Ns. unfold gone. eapply NoDup_firstn. exact Ns. }
  assert (Permutation (po_map st) (po_map st2 ++ gone)) as P.
  { apply NoDup_Permutation.
    - now apply NoDup_entries.
    - apply NoDup_both; [now apply NoDup_entries|exact Ng|]. intros x Hx. now apply Gm in Hx.
    - intro x. rewrite in_app_iff, Gm. split; [|intros [[A _]|A]; [exact A|now apply Gi]]. intro Hx.
      destruct (existsb (key_eqb (fst x)) (map fst gone)) eqn:X; [right; now apply Ge|left; split; [exact Hx|]]. intro Hg. apply (Ge x Hx) in Hg. congruence. }
  assert (llen gone = N.min (N.max 1 (pc_max cfg / 10)) (llen (filter (fun x => evictable (fst x)) (po_map st)))) as Lg.
  { unfold gone, llen. rewrite firstn_length. unfold evict_count. rewrite (Permutation_length (sort_used_perm _)). lia. }
  assert (po_free st2 = llen gone) as F2.
  { unfold base in B2. rewrite Q, F10 in B2. apply Permutation_length in P. rewrite app_length in P. unfold llen in *. lia. }
  destruct (0 <? po_free st2) eqn:F2'.
  - exists (S (length (keys (po_map st)) + S (S (length (map fst gone) + 2)))), (with_free st2 (po_free st2 - 1)), (SConnect k p). split.
    { cbn [solo task_step]. rewrite F. cbn [N.eqb]. rewrite solo_clean. fold st1. cbn [solo task_step]. rewrite F1. cbn [N.eqb Pos.eqb].
      unfold lru. rewrite Q. fold gone. rewrite solo_evict. fold st2. cbn [solo task_step]. rewrite F2'. reflexivity. }
    split; [intro X; lia|]. intros _. split; [intros (x & Hx & Ix); now contradiction (No x Hx)|]. intros _. split.
    + intros _. split; [reflexivity|]. exists gone. cbn [with_free po_map]. split; [exact P|]. split; [exact Lg|]. intros x Hx. split; [now apply Gi|].
      intros y Hy Ey. apply Gm in Hy. destruct Hy as [Hy Gy].
      apply (sorted_split (evict_count cfg) (sort_used (filter (fun x => evictable (fst x)) (po_map st))) x y); [apply sort_used_sorted|exact Hx|].
      assert (In y (sort_used (filter (fun x => evictable (fst x)) (po_map st)))) as Hs.
      { apply (Permutation_in _ (Permutation_sym (sort_used_perm _))). apply filter_In. auto. }
      rewrite <- (firstn_skipn (evict_count cfg)) in Hs. apply in_app_or in Hs. destruct Hs as [Hs|Hs]; [contradiction|exact Hs].
    + intros Ne. exfalso. destruct gone as [|x g] eqn:G; [change (llen (@nil (key * entry))) with 0 in F2; rewrite F2 in F2'; discriminate|]. destruct (Gi x (or_introl eq_refl)) as [Hx Hy]. specialize (Ne x Hx). congruence.
  - assert (gone = []) as G0. { destruct gone as [|x g] eqn:G; [reflexivity|]. rewrite llen_cons in F2. lia. }
    exists (S (length (keys (po_map st)) + S (S (length (map fst gone) + 2)))), st2, (SDone k p None). split.
    { cbn [solo task_step]. rewrite F. cbn [N.eqb]. rewrite solo_clean. fold st1. cbn [solo task_step]. rewrite F1. cbn [N.eqb Pos.eqb].
      unfold lru. rewrite Q. fold gone. rewrite solo_evict. fold st2. cbn [solo task_step]. rewrite F2'. reflexivity. }
    split; [intro X; lia|]. intros _. split; [intros (x & Hx & Ix); now contradiction (No x Hx)|]. intros _. split.
    + intros (x & Hx & Ex). exfalso. rewrite G0 in Lg. cbn in Lg. assert (In x (filter (fun x => evictable (fst x)) (po_map st))) as Hf by (apply filter_In; auto).
      destruct (filter (fun x => evictable (fst x)) (po_map st)) as [|y f]; [destruct Hf|]. rewrite llen_cons in Lg. lia.
    + intros _. split; [reflexivity|]. rewrite M2, G0. apply filter_true_id.
Qed.
Print Assumptions C105_room.
(** two slots, used by TCP connections at times 0 and 5: a third call closes the older *)
Definition cfg2 : pcfg := mkPcfg 2 300.
Definition ex_full : list action := ASend K1 [10] :: opens 0 ++ ATick 5 :: ASend K2 [20] :: opens 1.
Example C105_ex : exists st st', prun cfg2 (pool_new cfg2) ex_full = Some st
  /\ llen (po_map st) + in_progress st = pc_max cfg2 /\ (forall x, In x (po_map st) -> ~ idle cfg2 st x)
  /\ solo 20 cfg2 st (SReserve (KTcp 3) [30] 0) = Some (st', SConnect (KTcp 3) [30]) /\ keys (po_map st') = [K2].
Proof.
  do 2 eexists. split; [vm_compute; reflexivity|]. split; [reflexivity|]. split.
  - intros x [<-|[<-|[]]]; unfold idle; cbn; lia.
  - split; [vm_compute; reflexivity|reflexivity].
Qed.
