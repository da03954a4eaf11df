(** Properties of the rate limiter: C12-C15, C71, C72. *)
From Coq Require Import FinFun Arith NArith Bool List Lia ZifyBool ZifyN ZifyNat.
Import ListNotations.
From Verif Require Import Base BaseFacts RateLimit RateLimitSpec RateLimitProofs.
Open Scope N_scope.

Lemma init_good : forall c, good_limiter c 0 limiter_init.
Proof. intros. split; [constructor|]. intros k b E. discriminate. Qed.
Fixpoint chronob (t0 : N) (h : list (N * rl_op)) : bool :=
  match h with [] => true | (t, _) :: r => (t0 <=? t) && chronob t r end.
Lemma chronob_ok : forall h t0, chronob t0 h = true -> chrono t0 h.
Proof.
  induction h as [|[t o] h IH]; intros t0 H; [exact I|]. cbn [chronob] in H. apply andb_true_iff in H.
  split; [lia|]. now apply IH.
Qed.
Lemma chrono_app : forall h1 h2 t0, chrono t0 (h1 ++ h2) ->
  chrono t0 h1 /\ exists t1, t0 <= t1 /\ chrono t1 h2 /\ (forall x, In x h1 -> fst x <= t1)
  /\ (h1 = [] -> t1 = t0).
Proof.
  induction h1 as [|[t o] h1 IH]; intros h2 t0 H.
  - split; [exact I|]. exists t0. split; [lia|]. split; [exact H|]. split; [intros x []|auto].
  - destruct H as [Ht H]. destruct (IH h2 t H) as [A [t1 [B [C [D E]]]]].
    split; [split; assumption|]. exists t1. split; [lia|]. split; [exact C|]. split; [|discriminate].
    intros x [<-|Hx]; [cbn; lia|auto].
Qed.
Lemma good_at : forall c h t0 s t1, good_limiter c t0 s -> chrono t0 h -> t0 <= t1 ->
  (forall x, In x h -> fst x <= t1) -> good_limiter c t1 (fst (rl_run c s h)).
Proof.
  intros c h. induction h as [|[t o] h IH]; intros t0 s t1 Hg Hc Ht Hb.
  - now apply (good_mono c t0).
  - destruct Hc as [H1 H2]. rewrite rl_run_cons. cbn [fst]. apply (IH t); auto.
    + now apply (step_good c t0).
    + apply (Hb (t, o)). now left.
    + intros x Hx. apply Hb. now right.
Qed.

(** ** C12 *)

(** C12: after any past, in any window not longer than the idle timeout in
    which the key is not reset by hand, at most burst + per-refill * (window /
    interval + 1) requests of the key are admitted. *)
Theorem C12_window_bound : forall c k past window lo hi,
  rl_enabled c = true -> chrono 0 (past ++ window) ->
  lo <= hi -> within lo hi window -> hi - lo <= rl_idle c * SEC -> unreset k window ->
  admitted k c (fst (rl_run c limiter_init past)) window
  <= rl_burst c + rl_per_refill c * ((hi - lo) / (rl_interval c * MS) + 1).
Proof.
  intros c k past window lo hi He Hc Hlh Hw Hi Hu.
  destruct (chrono_app past window 0 Hc) as [H1 [t1 [H2 [H3 [H4 _]]]]].
  apply (window_bound c k lo hi He Hlh Hi window _ t1); auto.
  apply (good_at c past 0); auto. apply init_good.
Qed.
Print Assumptions C12_window_bound.

(** C12: what a caller is told about its remaining tokens never exceeds the
    burst capacity. *)
Theorem C12_tokens_capped : forall c k past t n, chrono 0 (past ++ [(t, RRemaining k)]) ->
  snd (remaining c t k (fst (rl_run c limiter_init past))) = Some n -> n <= rl_burst c.
Proof.
  intros c k past t n Hc H. destruct (chrono_app past _ 0 Hc) as [H1 [t1 [H2 [H3 [H4 _]]]]].
  pose proof (good_at c past 0 limiter_init t1 (init_good c) H1 H2 H4) as G.
  unfold remaining in H. set (s := fst (rl_run c limiter_init past)) in *.
  destruct (lookup str_eqb k (lm_buckets s)) as [b|] eqn:E; [|discriminate]. cbn [snd] in H. injection H as <-.
  destruct H3 as [H3 _]. exact (proj1 (refill_good c t1 t b (proj2 G k b E) H3)).
Qed.
Print Assumptions C12_tokens_capped.

Lemma rl_run_app : forall c h1 h2 s, rl_run c s (h1 ++ h2)
  = (fst (rl_run c (fst (rl_run c s h1)) h2), snd (rl_run c s h1) ++ snd (rl_run c (fst (rl_run c s h1)) h2)).
Proof.
  intros c h1. induction h1 as [|x h1 IH]; intros h2 s; [cbn; now destruct (rl_run c s h2)|].
  cbn [app]. rewrite !rl_run_cons, IH. reflexivity.
Qed.
Lemma verdicts_app : forall k h1 h2 v1 v2, length v1 = length h1 ->
  verdicts k (h1 ++ h2) (v1 ++ v2) = verdicts k h1 v1 ++ verdicts k h2 v2.
Proof.
  intros k h1. induction h1 as [|[t o] h1 IH]; intros h2 v1 v2 H.
  - destruct v1; [reflexivity|discriminate].
  - destruct v1 as [|v v1]; [discriminate|]. cbn [app verdicts]. injection H as H. rewrite IH by assumption.
    now destruct (is_check k o).
Qed.
Lemma run_length : forall c h s, length (snd (rl_run c s h)) = length h.
Proof. intros c h. induction h as [|x h IH]; intros s; [reflexivity|]. rewrite rl_run_cons. cbn. now rewrite IH. Qed.

Lemma solo_idle : forall c k X h b, solo (with_idle X c) k b h = solo c k b h.
Proof.
  intros c k X h. induction h as [|[t o] h IH]; intros b; [reflexivity|].
  assert (Hr : forall x, refill (with_idle X c) t x = refill c t x) by reflexivity.
  assert (Hn : bucket_new (with_idle X c) t = bucket_new c t) by reflexivity.
  assert (Ht : forall x, try_consume (with_idle X c) t x = try_consume c t x) by reflexivity.
  destruct o as [k'|k'|k'| |]; cbn [solo]; rewrite ?Hn, ?Ht.
  - destruct (str_eqb k k'); [|apply IH].
    destruct (try_consume c t _) as [b' v]. now rewrite IH.
  - destruct (str_eqb k k'); [|apply IH]. rewrite IH. destruct b; [rewrite Hr|]; reflexivity.
  - destruct (str_eqb k k'); apply IH.
  - apply IH.
  - apply IH.
Qed.

Lemma covers_idle : forall c X, idle_covers c -> rl_idle c <= X -> idle_covers (with_idle X c).
Proof.
  intros c X [H1 [H2 [H3 H4]]] HX. unfold idle_covers. cbn [with_idle rl_interval rl_per_refill rl_burst rl_idle].
  repeat split; auto. unfold SEC in *. lia.
Qed.

Lemma run_solo' : forall c k h, rl_enabled c = true -> valid_key k = true -> idle_covers c ->
  chrono 0 h -> few_keys h -> unqueried k h ->
  verdicts k h (snd (rl_run c limiter_init h)) = solo c k None h.
Proof.
  intros c k h He Hv Hcov Hc [ks [Hk Ha]] Hu.
  apply (run_solo c k ks He Hv Hcov Hk h limiter_init 0 None); auto.
  - intros x [].
  - apply init_good.
  - exact I.
  - discriminate.
Qed.

(** ** C14 (used for long windows of C12 too) *)

(** C14: when the idle timeout is at least the time a bucket needs to refill
    from empty, dropping idle keys changes no verdict: the limiter answers
    exactly as with any longer idle timeout (in particular one so long that
    nothing is ever dropped). *)
Theorem C14_cleanup_harmless_partial : forall c k h X,
  rl_enabled c = true -> valid_key k = true -> idle_covers c -> rl_idle c <= X ->
  chrono 0 h -> few_keys h -> unqueried k h ->
  verdicts k h (snd (rl_run c limiter_init h))
  = verdicts k h (snd (rl_run (with_idle X c) limiter_init h)).
Proof.
  intros c k h X He Hv Hcov HX Hc Hf Hu.
  rewrite (run_solo' c) by assumption.
  rewrite (run_solo' (with_idle X c)); auto; [now rewrite solo_idle|now apply covers_idle].
Qed.
Print Assumptions C14_cleanup_harmless_partial.

(** C14 is false of the shipped configuration for REGISTER (60 per hour,
    burst 10, idle timeout 300 s): a client that used up its burst and waited
    301 s is owed 5 tokens, but cleanup gives it 10. *)
Theorem C14_cleanup_refuted : exists c k h,
  register_preset = Some c /\ chrono 0 h
  /\ verdicts k h (snd (rl_run (with_idle 100000 c) limiter_init h)) = repeat true 10 ++ repeat true 5 ++ [false]
  /\ verdicts k h (snd (rl_run c limiter_init h)) = repeat true 16.
Proof.
  exists (mkRl 60 3600 10 60000 1 300 true), (lit "10.0.0.1"),
    (repeat (0, RCheck (lit "10.0.0.1")) 10 ++ [(301 * SEC, RCleanup)]
     ++ repeat (301 * SEC, RCheck (lit "10.0.0.1")) 6).
  split; [reflexivity|]. split; [vm_compute; intuition discriminate|]. split; vm_compute; reflexivity.
Qed.
Print Assumptions C14_cleanup_refuted.
(** and the condition on queries is needed: asking for the remaining tokens
    loses the fraction of an interval already waited *)
Theorem C14_query_refuted : exists c k h,
  idle_covers c /\ chrono 0 h
  /\ verdicts k h (snd (rl_run (with_idle 100000 c) limiter_init h)) = repeat true 10 ++ repeat true 9 ++ [false]
  /\ verdicts k h (snd (rl_run c limiter_init h)) = repeat true 20.
Proof.
  exists (mkRl 10 300 10 30000 1 300 true), (lit "a"),
    (repeat (0, RCheck (lit "a")) 10 ++ [(59 * SEC, RRemaining (lit "a")); (301 * SEC, RCleanup)]
     ++ repeat (301 * SEC, RCheck (lit "a")) 10).
  split; [vm_compute; repeat split; discriminate|].
  split; [vm_compute; intuition discriminate|]. split; vm_compute; reflexivity.
Qed.
Print Assumptions C14_query_refuted.
Example C14_example : exists c, invite_preset = Some c /\ idle_covers c
  /\ auth_preset <> None /\ ~ (forall c, register_preset = Some c -> idle_covers c).
Proof.
  eexists. split; [reflexivity|]. split; [vm_compute; repeat split; discriminate|].
  split; [discriminate|]. intros H. specialize (H _ eq_refl). destruct H as [_ [_ [_ H]]]. vm_compute in H. now apply H.
Qed.

(** C12 for windows of any length, when the idle timeout covers a refill. *)
Theorem C12_any_window : forall c k past window lo hi,
  rl_enabled c = true -> valid_key k = true -> idle_covers c ->
  chrono 0 (past ++ window) -> few_keys (past ++ window) -> unqueried k (past ++ window) ->
  lo <= hi -> within lo hi window -> unreset k window ->
  admitted k c (fst (rl_run c limiter_init past)) window
  <= rl_burst c + rl_per_refill c * ((hi - lo) / (rl_interval c * MS) + 1).
Proof.
  intros c k past window lo hi He Hv Hcov Hc Hf Hu Hlh Hw Hr.
  set (X := rl_idle c + (hi - lo)). set (c' := with_idle X c).
  assert (Hcp : chrono 0 past) by (now destruct (chrono_app past window 0 Hc)).
  assert (Hfp : few_keys past).
  { destruct Hf as [ks [H1 H2]]. exists ks. split; [assumption|]. intros x [t Hx]. apply H2. exists t.
    apply in_app_iff. now left. }
  assert (Hup : unqueried k past) by (intros t Hx; apply (Hu t); apply in_app_iff; now left).
  pose proof (C14_cleanup_harmless_partial c k (past ++ window) X He Hv Hcov ltac:(lia) Hc Hf Hu) as E1.
  pose proof (C14_cleanup_harmless_partial c k past X He Hv Hcov ltac:(lia) Hcp Hfp Hup) as E2.
  rewrite !rl_run_app in E1. cbn [snd] in E1. rewrite !verdicts_app in E1 by apply run_length.
  rewrite E2 in E1. apply app_inv_head in E1. unfold admitted. rewrite E1.
  change (admitted k c' (fst (rl_run c' limiter_init past)) window
          <= rl_burst c' + rl_per_refill c' * ((hi - lo) / (rl_interval c' * MS) + 1)).
  apply C12_window_bound; auto. cbn [c' with_idle rl_idle]. unfold X, SEC. lia.
Qed.
Print Assumptions C12_any_window.
(** the bound is reached: burst 3 and one token per second, 2 s window *)
Example C12_example :
  let c := mkRl 60 60 3 1000 1 300 true in
  let k := lit "k" in
  let h := [(0, RCheck k)] in
  let w := repeat (5 * SEC, RCheck k) 4 ++ repeat (6 * SEC, RCheck k) 2 ++ repeat (7 * SEC, RCheck k) 2 in
  chrono 0 (h ++ w) /\ within (5 * SEC) (7 * SEC) w
  /\ admitted k c (fst (rl_run c limiter_init h)) w = 5
  /\ rl_burst c + rl_per_refill c * ((7 * SEC - 5 * SEC) / (rl_interval c * MS) + 1) = 6.
Proof.
  split; [vm_compute; intuition discriminate|]. split; [|vm_compute; auto].
  unfold within. repeat constructor; vm_compute; discriminate.
Qed.

(** ** C13 *)
Lemma solo_mine : forall c k h b, solo c k b h = solo c k b (filter (mine k) h).
Proof.
  intros c k h. induction h as [|[t o] h IH]; intros b; [reflexivity|].
  destruct o as [k'|k'|k'| |]; cbn [filter mine snd]; destruct (str_eqb k k') eqn:E || idtac;
    cbn [solo]; rewrite ?E; auto.
  - destruct (try_consume c t _). now rewrite IH.
Qed.

(** C13: the verdicts a key gets depend only on the calls made for it and
    their times: two histories that agree on those give it the same verdicts,
    whatever the other keys do. *)
Theorem C13_independent_partial : forall c k h1 h2,
  rl_enabled c = true -> valid_key k = true -> idle_covers c ->
  chrono 0 h1 -> few_keys h1 -> unqueried k h1 ->
  chrono 0 h2 -> few_keys h2 -> unqueried k h2 ->
  filter (mine k) h1 = filter (mine k) h2 ->
  verdicts k h1 (snd (rl_run c limiter_init h1)) = verdicts k h2 (snd (rl_run c limiter_init h2)).
Proof.
  intros. rewrite !run_solo' by assumption. rewrite (solo_mine c k h1), (solo_mine c k h2). now f_equal.
Qed.
Print Assumptions C13_independent_partial.

(** Without the condition on the idle timeout other keys' traffic can change
    a verdict, because it triggers the sweep: the REGISTER preset again. *)
Theorem C13_independent_refuted : exists c k h1 h2,
  register_preset = Some c /\ chrono 0 h1 /\ chrono 0 h2
  /\ filter (mine k) h1 = filter (mine k) h2
  /\ verdicts k h1 (snd (rl_run c limiter_init h1)) <> verdicts k h2 (snd (rl_run c limiter_init h2)).
Proof.
  pose (k := lit "10.0.0.1"). pose (o := lit "10.0.0.2").
  exists (mkRl 60 3600 10 60000 1 300 true), k,
    (repeat (0, RCheck k) 10 ++ repeat (301 * SEC, RCheck k) 6),
    (repeat (0, RCheck k) 10 ++ repeat (301 * SEC, RCheck o) 1014 ++ repeat (301 * SEC, RCheck k) 6).
  split; [reflexivity|]. split; [vm_compute; intuition discriminate|].
  split; [apply chronob_ok; vm_compute; reflexivity|].
  split; [vm_compute; reflexivity|]. vm_compute. discriminate.
Qed.
Print Assumptions C13_independent_refuted.
Example C13_example :
  let c := mkRl 30 60 10 2000 1 300 true in
  let k := lit "k" in
  let h1 := repeat (0, RCheck k) 11 ++ [(5 * SEC, RCheck k)] in
  let h2 := repeat (0, RCheck k) 11 ++ [(1, RCheck (lit "o")); (2 * SEC, RCleanup); (5 * SEC, RCheck k)] in
  idle_covers c /\ chrono 0 h2 /\ filter (mine k) h1 = filter (mine k) h2
  /\ verdicts k h2 (snd (rl_run c limiter_init h2)) = repeat true 10 ++ [false; true].
Proof.
  split; [vm_compute; repeat split; discriminate|]. split; [vm_compute; intuition discriminate|].
  split; vm_compute; reflexivity.
Qed.

(** ** C15 *)
Lemma step_count : forall c s x, llen (lm_buckets s) <= MAX_TRACKED_KEYS -> NoDup (keys (lm_buckets s)) ->
  llen (lm_buckets (fst (rl_step c s x))) <= MAX_TRACKED_KEYS /\ NoDup (keys (lm_buckets (fst (rl_step c s x)))).
Proof.
  intros c s [t o] H Hn.
  assert (Hsw : llen (lm_buckets (swept c t s)) <= MAX_TRACKED_KEYS /\ NoDup (keys (lm_buckets (swept c t s)))).
  { assert (Hd : NoDup (keys (lm_buckets (swept c t s)))).
    { unfold swept. cbv zeta. destruct (_ =? 0); [|exact Hn]. unfold cleanup. destruct (rl_enabled c); [|exact Hn].
      now apply nodup_filter. }
    split; [|exact Hd]. eapply llen_le_keys; [exact Hd|apply keys_swept|]. unfold keys, llen in *. now rewrite map_length. }
  assert (Hup : forall k b b0 (m : list (str * bucket)), lookup str_eqb k m = Some b0 -> NoDup (keys m) -> llen m <= MAX_TRACKED_KEYS ->
            llen (insert str_eqb k b m) <= MAX_TRACKED_KEYS /\ NoDup (keys (insert str_eqb k b m))).
  { intros k b b0 m E Hd HL. split; [|now apply (insert_nodup _ str_eqb_spec)].
    eapply llen_le_keys; [now apply (insert_nodup _ str_eqb_spec)| |].
    - intros x Hx. apply keys_insert in Hx. destruct Hx as [<-|Hx]; [|exact Hx].
      apply (lookup_in _ str_eqb_spec) in E. unfold keys. apply in_map_iff. now exists (k, b0).
    - unfold keys, llen in *. now rewrite map_length. }
  destruct o as [k|k|k| |]; cbn [rl_step].
  - rewrite check_eq. destruct (negb (valid_key k)); [now split|]. destruct (negb (rl_enabled c)); [now split|].
    cbv zeta. destruct Hsw as [S1 S2]. destruct (skey k (swept c t s)) as [b|] eqn:E; cbn [fst lm_buckets].
    + exact (Hup _ _ _ _ E S2 S1).
    + destruct (MAX_TRACKED_KEYS <=? llen (lm_buckets (swept c t s))) eqn:EL; cbn [fst lm_buckets]; [now split|].
      split; [|now apply (insert_nodup _ str_eqb_spec)]. unfold insert. rewrite llen_cons.
      assert (llen (remove_key str_eqb k (lm_buckets (swept c t s))) <= llen (lm_buckets (swept c t s))).
      { pose proof (remove_key_length _ str_eqb_spec k (lm_buckets (swept c t s))). unfold llen. lia. }
      lia.
  - cbn [fst]. unfold remaining. destruct (lookup str_eqb k (lm_buckets s)) as [b|] eqn:E; [|now split].
    cbn [fst lm_buckets]. exact (Hup _ _ _ _ E Hn H).
  - cbn [fst lm_buckets]. split; [|now apply remove_key_nodup].
    pose proof (remove_key_length _ str_eqb_spec k (lm_buckets s)). unfold llen in *. lia.
  - cbn. split; [lia|constructor].
  - cbn [fst]. unfold cleanup. destruct (rl_enabled c); [|now split]. cbn [lm_buckets].
    split; [|now apply nodup_filter]. eapply llen_le_keys; [now apply nodup_filter| |].
    + intros x Hx. unfold keys in Hx. apply in_map_iff in Hx. destruct Hx as [y [<- Hy]]. apply filter_In in Hy.
      unfold keys. apply in_map. exact (proj1 Hy).
    + unfold keys, llen in *. now rewrite map_length.
Qed.

(** C15: whatever is asked, at most 100000 keys are tracked. *)
Theorem C15_bounded : forall c h, llen (lm_buckets (fst (rl_run c limiter_init h))) <= 100000.
Proof.
  intros c h.
  assert (H : forall h s, llen (lm_buckets s) <= MAX_TRACKED_KEYS -> NoDup (keys (lm_buckets s)) ->
            llen (lm_buckets (fst (rl_run c s h))) <= MAX_TRACKED_KEYS).
  { clear h. induction h as [|x h IH]; intros s H1 H2; [exact H1|]. rewrite rl_run_cons. cbn [fst].
    destruct (step_count c s x H1 H2). now apply IH. }
  apply H; [apply N.le_0_l|constructor].
Qed.
Print Assumptions C15_bounded.

(** C15: at capacity a key that is not tracked is refused and not stored,
    while a tracked key that is not idle gets the answer of its own bucket. *)
Theorem C15_full : forall c s t k, NoDup (keys (lm_buckets s)) ->
  rl_enabled c = true -> valid_key k = true ->
  ((lm_checks s + 1) mod CLEANUP_EVERY_CHECKS <> 0 -> MAX_TRACKED_KEYS <= llen (lm_buckets s) ->
   lookup str_eqb k (lm_buckets s) = None ->
   snd (check c t k s) = false /\ lm_buckets (fst (check c t k s)) = lm_buckets s)
  /\ (forall b, lookup str_eqb k (lm_buckets s) = Some b -> is_idle c t b = false ->
      snd (check c t k s) = (1 <=? bk_tokens (refill c t b))).
Proof.
  intros c s t k Hn He Hv. split.
  - intros Hm Hf E. rewrite check_eq, He, Hv. cbn [negb]. cbv zeta.
    assert (Hs : lm_buckets (swept c t s) = lm_buckets s).
    { unfold swept. cbv zeta. destruct (_ =? 0) eqn:Ez; [lia|reflexivity]. }
    assert (Hk : skey k (swept c t s) = None) by (unfold skey; now rewrite Hs).
    rewrite Hk, Hs. destruct (MAX_TRACKED_KEYS <=? llen (lm_buckets s)) eqn:El; [|lia]. cbn [fst snd]. auto.
  - intros b E Hi. rewrite check_eq, He, Hv. cbn [negb]. cbv zeta.
    assert (Hk : skey k (swept c t s) = Some b).
    { destruct (swept_sweeps c t s k Hn) as [Hs|[b0 [E0 [Hi0 _]]]]; [rewrite Hs; exact E|].
      unfold skey in E0. rewrite E in E0. injection E0 as <-. congruence. }
    rewrite Hk. cbn [snd]. unfold try_consume. now destruct (1 <=? bk_tokens (refill c t b)).
Qed.
Print Assumptions C15_full.
(** a full limiter: 100000 one-character keys *)
Definition full_limiter : limiter :=
  mkL (map (fun i => ([N.of_nat i], mkB 1 0 0 0)) (seq 0 (N.to_nat 100000))) 7.
Example C15_example :
  NoDup (keys (lm_buckets full_limiter)) /\ MAX_TRACKED_KEYS <= llen (lm_buckets full_limiter)
  /\ lookup str_eqb (lit "new") (lm_buckets full_limiter) = None
  /\ (lm_checks full_limiter + 1) mod CLEANUP_EVERY_CHECKS <> 0.
Proof.
  unfold full_limiter. cbn [lm_buckets lm_checks]. remember (N.to_nat 100000) as n eqn:En.
  assert (Hn : N.of_nat n = 100000) by (rewrite En; apply N2Nat.id). clear En.
  split; [|split; [|split]].
  - unfold keys. rewrite map_map. cbn [fst].
    apply Injective_map_NoDup; [|apply seq_NoDup]. intros x y H. injection H as H. lia.
  - unfold llen. rewrite map_length, seq_length, Hn. unfold MAX_TRACKED_KEYS. lia.
  - clear Hn. generalize 0%nat. induction n as [|n IH]; intros m; [reflexivity|].
    cbn [seq map lookup]. rewrite IH. destruct (str_eqb (lit "new") [N.of_nat m]) eqn:E; [|reflexivity].
    apply str_eqb_spec in E. discriminate.
  - vm_compute. discriminate.
Qed.

(** ** C71 *)
Definition quiet (c : rl_config) (t : N) (b : bucket) : Prop :=
  (rl_interval c = 0 \/ rl_per_refill c = 0 \/ rl_burst c = 0) \/ t - bk_refill b < rl_interval c * MS.
Lemma quiet_refill : forall c t b, quiet c t b -> refill c t b = b.
Proof.
  intros c t b H. destruct (refill_spec c t b) as [_ [[E _]|[H1 [H2 [H3 [H4 _]]]]]]; [exact E|].
  exfalso. unfold quiet, Ins in *. lia.
Qed.
Lemma refill_quiet : forall c t b, quiet c t (refill c t b).
Proof.
  intros c t b. destruct (refill_spec c t b) as [_ [[E Hw]|[H1 [H2 [H3 [H4 [H5 _]]]]]]].
  - rewrite E. unfold quiet, Ins in *. lia.
  - right. rewrite H5, N.sub_diag. unfold MS. lia.
Qed.

Lemma checks_now : forall c t k j s b, rl_enabled c = true -> valid_key k = true ->
  NoDup (keys (lm_buckets s)) -> skey k s = Some b -> is_idle c t b = false -> quiet c t b ->
  snd (rl_run c s (repeat (t, RCheck k) j))
  = repeat true (N.to_nat (N.min (N.of_nat j) (bk_tokens b))) ++ repeat false (j - N.to_nat (bk_tokens b)).
Proof.
  intros c t k j. induction j as [|j IH]; intros s b He Hv Hn E Hi Hq; [cbn; now destruct (bk_tokens b)|].
  cbn [repeat]. rewrite rl_run_cons. cbn [snd].
  destruct (step_check c s t k Hn He Hv) as [old [Hs [_ Hcase]]].
  assert (Ho : old = Some b).
  { destruct Hs as [->|[b0 [E0 [Hi0 _]]]]; [assumption|]. rewrite E in E0. injection E0 as <-. congruence. }
  rewrite Ho in Hcase. destruct Hcase as [[Hx _]|[Hk Hvd]]; [discriminate|]. rewrite Hvd.
  assert (Hn' : NoDup (keys (lm_buckets (fst (rl_step c s (t, RCheck k)))))).
  { cbn [rl_step]. rewrite check_eq, He, Hv. cbn [negb]. cbv zeta.
    assert (Hd : NoDup (keys (lm_buckets (swept c t s)))).
    { unfold swept. cbv zeta. destruct (_ =? 0); [|exact Hn]. unfold cleanup. destruct (rl_enabled c); [|exact Hn].
      now apply nodup_filter. }
    destruct (skey k (swept c t s)); cbn [fst lm_buckets]; [now apply (insert_nodup _ str_eqb_spec)|].
    destruct (MAX_TRACKED_KEYS <=? _); cbn [fst lm_buckets]; [assumption|now apply (insert_nodup _ str_eqb_spec)]. }
  set (b' := fst (try_consume c t b)) in *.
  assert (Hb' : bk_refill b' = bk_refill b /\ bk_access b' = t
                /\ bk_tokens b' = bk_tokens b - 1 /\ snd (try_consume c t b) = (1 <=? bk_tokens b)).
  { subst b'. unfold try_consume. rewrite (quiet_refill c t b Hq).
    destruct (1 <=? bk_tokens b) eqn:E1; cbn; repeat split; auto. lia. }
  destruct Hb' as [B1 [B2 [B3 B4]]]. rewrite B4.
  assert (Hi' : is_idle c t b' = false) by (unfold is_idle; rewrite B2, N.sub_diag; lia).
  assert (Hq' : quiet c t b') by (unfold quiet; now rewrite B1).
  rewrite (IH _ b'); auto. rewrite B3.
  destruct (1 <=? bk_tokens b) eqn:E1.
  - replace (N.to_nat (N.min (N.of_nat (S j)) (bk_tokens b)))
      with (S (N.to_nat (N.min (N.of_nat j) (bk_tokens b - 1)))) by lia.
    replace (S j - N.to_nat (bk_tokens b))%nat with (j - N.to_nat (bk_tokens b - 1))%nat by lia. reflexivity.
  - replace (bk_tokens b) with 0 by lia. cbn [N.sub]. rewrite !N.min_0_r. cbn [N.to_nat repeat app].
    rewrite !Nat.sub_0_r. reflexivity.
Qed.

(** C71: [remaining_tokens] tells the truth: if it answers n, then of the
    requests made for the key at that moment exactly the first n are admitted
    (for a key seen within the idle timeout). *)
Theorem C71_remaining : forall c k past t n, chrono 0 (past ++ [(t, RRemaining k)]) ->
  rl_enabled c = true -> valid_key k = true ->
  let s := fst (rl_run c limiter_init past) in
  (forall b, lookup str_eqb k (lm_buckets s) = Some b -> is_idle c t b = false) ->
  snd (remaining c t k s) = Some n ->
  forall j, snd (rl_run c (fst (remaining c t k s)) (repeat (t, RCheck k) j))
            = repeat true (N.to_nat (N.min (N.of_nat j) n)) ++ repeat false (j - N.to_nat n).
Proof.
  intros c k past t n Hc He Hv s Hi H j. destruct (chrono_app past _ 0 Hc) as [H1 [t1 [H2 [H3 [H4 _]]]]].
  pose proof (good_at c past 0 limiter_init t1 (init_good c) H1 H2 H4) as G. fold s in G.
  unfold remaining in *. destruct (lookup str_eqb k (lm_buckets s)) as [b|] eqn:E; [|discriminate].
  cbn [fst snd] in *. injection H as <-. specialize (Hi b eq_refl).
  apply checks_now; auto.
  - cbn [lm_buckets]. apply (insert_nodup _ str_eqb_spec). exact (proj1 G).
  - unfold skey. cbn [lm_buckets]. apply (lookup_insert_same _ str_eqb_spec).
  - unfold is_idle in *. destruct (refill_spec c t b) as [-> _]. exact Hi.
  - apply refill_quiet.
Qed.
Print Assumptions C71_remaining.
Example C71_example :
  let c := mkRl 60 60 5 1000 1 300 true in let k := lit "k" in
  let s := fst (rl_run c limiter_init (repeat (0, RCheck k) 5)) in
  snd (remaining c (2 * SEC) k s) = Some 2
  /\ snd (rl_run c (fst (remaining c (2 * SEC) k s)) (repeat (2 * SEC, RCheck k) 4)) = [true; true; false; false].
Proof. split; vm_compute; reflexivity. Qed.

(** ** C72 *)
(** C72 (partial): [retry_after] is rounded down, so what holds is that after
    waiting one second longer than announced the bucket is full again. *)
Theorem C72_retry_after_partial : forall c k past t n r t', chrono 0 (past ++ [(t, RRemaining k)]) ->
  rl_interval c <> 0 -> rl_per_refill c <> 0 -> rl_burst c <> 0 ->
  let s := fst (rl_run c limiter_init past) in
  snd (limit_info c t k s) = Some (n, r) -> t + (r + 1) * SEC <= t' ->
  snd (remaining c t' k (fst (limit_info c t k s))) = Some (rl_burst c).
Proof.
  intros c k past t n r t' Hc Z1 Z2 Z3 s H Ht. destruct (chrono_app past _ 0 Hc) as [H1 [t1 [H2 [H3 [H4 _]]]]].
  pose proof (good_at c past 0 limiter_init t1 (init_good c) H1 H2 H4) as G. fold s in G.
  unfold limit_info in *. destruct (negb (rl_enabled c)); [discriminate|].
  destruct (lookup str_eqb k (lm_buckets s)) as [b|] eqn:E; [|discriminate]. cbv zeta in *.
  destruct H3 as [H3 _]. pose proof (refill_good c t1 t b (proj2 G k b E) H3) as Gb.
  destruct ((rl_interval c =? 0) || (rl_per_refill c =? 0) || (rl_burst c =? 0)) eqn:Ez; [lia|].
  cbn [fst snd] in *. injection H as <- <-. set (b1 := refill c t b) in *.
  unfold remaining. cbn [lm_buckets]. rewrite (lookup_insert_same _ str_eqb_spec). cbn [snd]. f_equal.
  destruct Gb as [G1 [G2 G3]].
  assert (Ht' : t <= t') by (unfold SEC in Ht; lia).
  destruct (refill_spec c t' b1) as [_ [[-> Hw]|[_ [_ [_ [Hle [_ ->]]]]]]].
  - (* too short a wait for any refill: nothing is missing *)
    destruct Hw as [Hw|Hw]; [lia|]. destruct (bk_tokens b1 <? rl_burst c) eqn:El; [exfalso|lia].
    set (q := (rl_burst c - bk_tokens b1 + rl_per_refill c - 1) / rl_per_refill c) in *.
    assert (Hq : 1 <= q) by (subst q; apply N.div_le_lower_bound; lia).
    assert (Hm : q * rl_interval c < (q * rl_interval c / 1000 + 1) * 1000).
    { pose proof (N.div_mod (q * rl_interval c) 1000 ltac:(lia)).
      pose proof (N.mod_lt (q * rl_interval c) 1000 ltac:(lia)). lia. }
    unfold Ins, MS, SEC in *. nia.
  - apply N.min_r. destruct (bk_tokens b1 <? rl_burst c) eqn:El; [|apply N.le_trans with (bk_tokens b1); [lia|apply N.le_add_r]].
    set (q := (rl_burst c - bk_tokens b1 + rl_per_refill c - 1) / rl_per_refill c) in *.
    assert (Hm : q * rl_interval c < (q * rl_interval c / 1000 + 1) * 1000).
    { pose proof (N.div_mod (q * rl_interval c) 1000 ltac:(lia)).
      pose proof (N.mod_lt (q * rl_interval c) 1000 ltac:(lia)). lia. }
    assert (Hk : q <= (t' - bk_refill b1) / Ins c).
    { apply N.div_le_lower_bound; [unfold Ins, MS; nia|]. unfold Ins, MS, SEC in *. nia. }
    assert (Hc' : rl_burst c - bk_tokens b1 <= q * rl_per_refill c).
    { subst q. pose proof (N.div_mod (rl_burst c - bk_tokens b1 + rl_per_refill c - 1) (rl_per_refill c) Z2).
      pose proof (N.mod_lt (rl_burst c - bk_tokens b1 + rl_per_refill c - 1) (rl_per_refill c) Z2). nia. }
    nia.
Qed.
Print Assumptions C72_retry_after_partial.

(** Waiting exactly the announced time is not always enough: with a refill
    every half second the announced wait is 0 s and the next request is
    refused again. *)
Theorem C72_retry_after_refuted : exists c k s t,
  preset 2 1 1 300 = Some c /\ s = fst (rl_run c limiter_init [(0, RCheck k)])
  /\ snd (limit_info c t k s) = Some (0, 0)
  /\ snd (check c (t + 0 * SEC) k (fst (limit_info c t k s))) = false.
Proof.
  exists (mkRl 2 1 1 500 1 300 true), (lit "k").
  eexists. exists 0. split; [vm_compute; reflexivity|]. split; [reflexivity|]. split; vm_compute; reflexivity.
Qed.
Print Assumptions C72_retry_after_refuted.
Example C72_example :
  let c := mkRl 60 60 5 1500 2 300 true in let k := lit "k" in
  let s := fst (rl_run c limiter_init (repeat (0, RCheck k) 5)) in
  snd (limit_info c 0 k s) = Some (0, 4)
  /\ snd (remaining c (4 * SEC) k (fst (limit_info c 0 k s))) = Some 4
  /\ snd (remaining c (5 * SEC) k (fst (limit_info c 0 k s))) = Some 5.
Proof. repeat split; vm_compute; reflexivity. Qed.
