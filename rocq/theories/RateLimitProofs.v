(** Lemmas on the rate limiter. *)
From Coq Require Import Arith NArith Bool List Lia ZifyBool ZifyN ZifyNat.
Import ListNotations.
From Verif Require Import Base BaseFacts RateLimit RateLimitSpec.
Open Scope N_scope.

Definition skey (k : str) (s : limiter) := lookup str_eqb k (lm_buckets s).

Definition good_bucket (c : rl_config) (now : N) (b : bucket) : Prop :=
  bk_tokens b <= rl_burst c /\ bk_refill b <= now /\ bk_access b <= now.
Definition good_limiter (c : rl_config) (now : N) (s : limiter) : Prop :=
  NoDup (keys (lm_buckets s)) /\ (forall k b, skey k s = Some b -> good_bucket c now b).

Definition Ins (c : rl_config) : N := rl_interval c * MS.

Lemma intervals_eq : forall c e, rl_interval c <> 0 -> (e / MS) / rl_interval c = e / Ins c.
Proof. intros. unfold Ins. rewrite N.div_div by (unfold MS; lia). f_equal. lia. Qed.

(** what a refill does *)
Lemma refill_spec : forall c now b,
  let b' := refill c now b in
  bk_access b' = bk_access b
  /\ ((b' = b /\ ((rl_interval c = 0 \/ rl_per_refill c = 0 \/ rl_burst c = 0)
                  \/ now - bk_refill b < Ins c))
      \/ (rl_interval c <> 0 /\ rl_per_refill c <> 0 /\ rl_burst c <> 0
          /\ Ins c <= now - bk_refill b /\ bk_refill b' = now
          /\ bk_tokens b' = N.min (bk_tokens b + (now - bk_refill b) / Ins c * rl_per_refill c) (rl_burst c))).
Proof.
  intros c now b. cbv zeta. unfold refill.
  destruct (rl_interval c =? 0) eqn:E1; [cbn [orb]; split; [reflexivity|left; split; [reflexivity|left; lia]]|].
  destruct (rl_per_refill c =? 0) eqn:E2; [cbn [orb]; split; [reflexivity|left; split; [reflexivity|left; lia]]|].
  destruct (rl_burst c =? 0) eqn:E3; [cbn [orb]; split; [reflexivity|left; split; [reflexivity|left; lia]]|].
  cbn [orb]. destruct (rl_interval c * MS <=? now - bk_refill b) eqn:E4.
  - cbn [bk_access bk_refill bk_tokens]. split; [reflexivity|]. right. rewrite intervals_eq by lia.
    unfold Ins. repeat split; auto; lia.
  - split; [reflexivity|]. left. split; [reflexivity|]. right. unfold Ins. lia.
Qed.

Lemma refill_good : forall c t0 now b, good_bucket c t0 b -> t0 <= now -> good_bucket c now (refill c now b).
Proof.
  intros c t0 now b [H1 [H2 H3]] Ht. destruct (refill_spec c now b) as [Ha [[-> _]|[_ [_ [_ [_ [Hr Hk]]]]]]].
  - repeat split; lia.
  - repeat split; [rewrite Hk|rewrite Hr|rewrite Ha]; lia.
Qed.
Lemma try_consume_good : forall c t0 now b, good_bucket c t0 b -> t0 <= now ->
  good_bucket c now (fst (try_consume c now b)).
Proof.
  intros c t0 now b H Ht. pose proof (refill_good c t0 now b H Ht) as [G1 [G2 G3]]. unfold try_consume.
  destruct (1 <=? bk_tokens (refill c now b)); cbn [fst]; repeat split; cbn [bk_tokens bk_refill bk_access]; lia.
Qed.
Lemma new_good : forall c now, good_bucket c now (bucket_new c now).
Proof. intros. unfold bucket_new, good_bucket. cbn. lia. Qed.

Lemma skey_filter : forall (p : str * bucket -> bool) (l : list (str * bucket)) k, NoDup (keys l) ->
  lookup str_eqb k (filter p l)
  = match lookup str_eqb k l with Some b => if p (k, b) then Some b else None | None => None end.
Proof.
  induction l as [|[k' b] l IH]; intros k Hn; [reflexivity|].
  inversion Hn as [|? ? Hn1 Hn2]; subst. cbn [filter lookup].
  destruct (str_eqb k k') eqn:E.
  - apply str_eqb_spec in E. subst k'. destruct (p (k, b)) eqn:Ep.
    + cbn [lookup]. now rewrite str_eqb_refl.
    + rewrite IH by assumption.
      assert (lookup str_eqb k l = None) by (now apply (lookup_none _ str_eqb_spec)). now rewrite H.
  - destruct (p (k', b)); cbn [lookup]; rewrite ?E; now apply IH.
Qed.
Lemma nodup_filter : forall (p : str * bucket -> bool) l, NoDup (keys l) -> NoDup (keys (filter p l)).
Proof.
  induction l as [|e l IH]; intros Hn; [constructor|]. inversion Hn as [|? ? Hn1 Hn2]; subst.
  cbn [filter]. destruct (p e); [|auto]. cbn [keys map]. constructor; [|auto].
  intros Hi. apply Hn1. apply in_map_iff in Hi. destruct Hi as [x [<- Hx]]. apply filter_In in Hx.
  apply in_map. tauto.
Qed.

Lemma skey_cleanup : forall c now s k, NoDup (keys (lm_buckets s)) ->
  skey k (cleanup c now s)
  = match skey k s with
    | Some b => if rl_enabled c && is_idle c now b then None else Some b
    | None => None
    end.
Proof.
  intros c now s k Hn. unfold skey, cleanup. destruct (rl_enabled c); cbn [andb lm_buckets].
  - rewrite skey_filter by assumption. destruct (lookup str_eqb k (lm_buckets s)); [|reflexivity].
    cbn [snd]. now destruct (is_idle c now b).
  - now destruct (lookup str_eqb k (lm_buckets s)).
Qed.
Lemma cleanup_good : forall c now s, good_limiter c now s -> good_limiter c now (cleanup c now s).
Proof.
  intros c now s [H1 H2]. split.
  - unfold cleanup. destruct (rl_enabled c); [now apply nodup_filter|assumption].
  - intros k b E. rewrite skey_cleanup in E by assumption. destruct (skey k s) eqn:Ek; [|discriminate].
    destruct (rl_enabled c && is_idle c now b0); [discriminate|]. injection E as <-. eauto.
Qed.
Lemma good_mono : forall c t0 now s, good_limiter c t0 s -> t0 <= now -> good_limiter c now s.
Proof.
  intros c t0 now s [H1 H2] Ht. split; [assumption|]. intros k b E. destruct (H2 k b E) as [A [B C]].
  repeat split; lia.
Qed.
Lemma insert_good : forall c now k b s n, good_limiter c now s -> good_bucket c now b ->
  good_limiter c now (mkL (insert str_eqb k b (lm_buckets s)) n).
Proof.
  intros c now k b s n [H1 H2] Hb. split; [now apply (insert_nodup _ str_eqb_spec)|].
  intros k' b' E. unfold skey in E. cbn [lm_buckets] in E.
  destruct (str_eq_dec k' k) as [->|Hne].
  - rewrite (lookup_insert_same _ str_eqb_spec) in E. now injection E as <-.
  - rewrite (lookup_insert_other _ str_eqb_spec) in E by assumption. exact (H2 _ _ E).
Qed.

(** the state a check works on, after the periodic sweep *)
Definition swept (c : rl_config) (now : N) (s : limiter) : limiter :=
  let s1 := mkL (lm_buckets s) (lm_checks s + 1) in
  if (lm_checks s + 1) mod CLEANUP_EVERY_CHECKS =? 0 then cleanup c now s1 else s1.
Lemma swept_good : forall c now s, good_limiter c now s -> good_limiter c now (swept c now s).
Proof.
  intros c now s H. unfold swept. cbv zeta. destruct (_ =? 0); [apply cleanup_good|]; exact H.
Qed.

Lemma check_eq : forall c now k s, check c now k s =
  if negb (valid_key k) then (s, false)
  else if negb (rl_enabled c) then (mkL (lm_buckets s) (lm_checks s + 1), true)
  else let s2 := swept c now s in
       match skey k s2 with
       | None => if MAX_TRACKED_KEYS <=? llen (lm_buckets s2) then (s2, false)
                 else (mkL (insert str_eqb k (fst (try_consume c now (bucket_new c now))) (lm_buckets s2)) (lm_checks s2),
                       snd (try_consume c now (bucket_new c now)))
       | Some b0 => (mkL (insert str_eqb k (fst (try_consume c now b0)) (lm_buckets s2)) (lm_checks s2),
                     snd (try_consume c now b0))
       end.
Proof.
  intros. unfold check, swept, skey. cbv zeta. destruct (negb (valid_key k)); [reflexivity|].
  destruct (negb (rl_enabled c)); [reflexivity|].
  match goal with |- context [lookup str_eqb k (lm_buckets ?x)] => set (s2 := x) end.
  destruct (lookup str_eqb k (lm_buckets s2)) as [b|].
  - now destruct (try_consume c now b).
  - destruct (MAX_TRACKED_KEYS <=? llen (lm_buckets s2)); [reflexivity|].
    now destruct (try_consume c now (bucket_new c now)).
Qed.

Lemma step_good : forall c t0 t o s, good_limiter c t0 s -> t0 <= t ->
  good_limiter c t (fst (rl_step c s (t, o))).
Proof.
  intros c t0 t o s H Ht. pose proof (good_mono _ _ _ _ H Ht) as G. destruct o; cbn [rl_step fst].
  - rewrite check_eq. destruct (negb (valid_key k)); [exact G|]. destruct (negb (rl_enabled c)); [exact G|].
    pose proof (swept_good c t s G) as G2. cbv zeta.
    destruct (skey k (swept c t s)) as [b|] eqn:E.
    + cbn [fst]. apply insert_good; [assumption|]. apply (try_consume_good c t t); [|lia]. now apply (proj2 G2 k).
    + destruct (MAX_TRACKED_KEYS <=? llen (lm_buckets (swept c t s))); [assumption|].
      cbn [fst]. apply insert_good; [assumption|]. apply (try_consume_good c t t); [apply new_good|lia].
  - unfold remaining. destruct (lookup str_eqb k (lm_buckets s)) as [b|] eqn:E; [|exact G].
    cbn [fst]. apply insert_good; [assumption|]. apply (refill_good c t t); [|lia]. exact (proj2 G k b E).
  - destruct G as [G1 G2]. split; [now apply remove_key_nodup|]. intros k' b' E.
    unfold skey in E. cbn [lm_buckets] in E. destruct (str_eq_dec k' k) as [->|Hne].
    + rewrite lookup_remove_same in E. discriminate.
    + rewrite (lookup_remove_other _ str_eqb_spec) in E by assumption. exact (G2 _ _ E).
  - split; [constructor|]. intros k b E. discriminate.
  - now apply cleanup_good.
Qed.

Lemma rl_run_cons : forall c s x h, rl_run c s (x :: h)
  = (fst (rl_run c (fst (rl_step c s x)) h), snd (rl_step c s x) :: snd (rl_run c (fst (rl_step c s x)) h)).
Proof.
  intros. cbn [rl_run]. destruct (rl_step c s x) as [s1 v]. cbn [fst snd].
  now destruct (rl_run c s1 h).
Qed.

Lemma run_good : forall c h t0 s, good_limiter c t0 s -> chrono t0 h ->
  exists t1, t0 <= t1 /\ good_limiter c t1 (fst (rl_run c s h)) /\ (forall x, In x h -> fst x <= t1).
Proof.
  induction h as [|[t o] h IH]; intros t0 s H Hc.
  - exists t0. split; [lia|]. split; [exact H|]. intros x [].
  - destruct Hc as [Ht Hc]. rewrite rl_run_cons. cbn [fst].
    destruct (IH t _ (step_good c t0 t o s H Ht) Hc) as [t1 [L [G A]]].
    exists t1. split; [lia|]. split; [exact G|]. intros x [<-|Hx]; [cbn; lia|auto].
Qed.

(** ** Bucket movement for one key *)
Definition sweep_of (c : rl_config) (t : N) (old new : option bucket) : Prop :=
  new = old \/ exists b, old = Some b /\ is_idle c t b = true /\ new = None.

Lemma cleanup_sweeps : forall c t s k, NoDup (keys (lm_buckets s)) ->
  sweep_of c t (skey k s) (skey k (cleanup c t s)).
Proof.
  intros c t s k Hn. rewrite skey_cleanup by assumption. unfold sweep_of.
  destruct (skey k s) as [b|]; [|now left].
  destruct (is_idle c t b) eqn:E; destruct (rl_enabled c); cbn [andb]; auto. right. exists b. auto.
Qed.
Lemma swept_sweeps : forall c t s k, NoDup (keys (lm_buckets s)) ->
  sweep_of c t (skey k s) (skey k (swept c t s)).
Proof.
  intros c t s k Hn. unfold swept. cbv zeta. destruct (_ =? 0); [|now left].
  exact (cleanup_sweeps c t (mkL (lm_buckets s) (lm_checks s + 1)) k Hn).
Qed.

(** a call that is not a check of [k] and does not reset it *)
Lemma step_not_check : forall c s t o k, NoDup (keys (lm_buckets s)) ->
  is_check k o = false -> o <> RReset k -> o <> RClear ->
  let s' := fst (rl_step c s (t, o)) in
  sweep_of c t (skey k s) (skey k s')
  \/ (o = RRemaining k /\ exists b, skey k s = Some b /\ skey k s' = Some (refill c t b)).
Proof.
  intros c s t o k Hn Hc Hr Hcl. cbv zeta. destruct o as [k'|k'|k'| |]; cbn [is_check] in Hc.
  - left. apply str_eqb_neq in Hc. cbn [rl_step]. rewrite check_eq.
    destruct (negb (valid_key k')); [now left|]. destruct (negb (rl_enabled c)); [now left|]. cbv zeta.
    pose proof (swept_sweeps c t s k Hn) as Hs.
    assert (Hi : forall b0 n, skey k (mkL (insert str_eqb k' b0 (lm_buckets (swept c t s))) n) = skey k (swept c t s)).
    { intros. unfold skey. cbn [lm_buckets]. now rewrite (lookup_insert_other _ str_eqb_spec). }
    destruct (skey k' (swept c t s)); cbn [fst]; [now rewrite Hi|].
    destruct (MAX_TRACKED_KEYS <=? _); cbn [fst]; [assumption|now rewrite Hi].
  - cbn [rl_step fst]. unfold remaining. destruct (str_eq_dec k k') as [<-|Hne].
    + fold (skey k s). destruct (skey k s) as [b|] eqn:E.
      * right. split; [reflexivity|]. exists b. split; [reflexivity|]. unfold skey. cbn [fst lm_buckets].
        now rewrite (lookup_insert_same _ str_eqb_spec).
      * left. left. exact E.
    + left. left. destruct (lookup str_eqb k' (lm_buckets s)); [|reflexivity]. unfold skey. cbn [fst lm_buckets].
      now rewrite (lookup_insert_other _ str_eqb_spec).
  - left. left. cbn [rl_step fst]. unfold skey. cbn [lm_buckets].
    apply (lookup_remove_other _ str_eqb_spec). intros ->. now apply Hr.
  - now elim Hcl.
  - left. now apply cleanup_sweeps.
Qed.

Lemma step_check : forall c s t k, NoDup (keys (lm_buckets s)) ->
  rl_enabled c = true -> valid_key k = true ->
  exists old, sweep_of c t (skey k s) old /\ old = skey k (swept c t s)
  /\ ((old = None /\ MAX_TRACKED_KEYS <= llen (lm_buckets (swept c t s))
       /\ skey k (fst (rl_step c s (t, RCheck k))) = None /\ snd (rl_step c s (t, RCheck k)) = false)
      \/ (let b := match old with Some b => b | None => bucket_new c t end in
          skey k (fst (rl_step c s (t, RCheck k))) = Some (fst (try_consume c t b))
          /\ snd (rl_step c s (t, RCheck k)) = snd (try_consume c t b))).
Proof.
  intros c s t k Hn He Hv. exists (skey k (swept c t s)). split; [now apply swept_sweeps|]. split; [reflexivity|].
  cbn [rl_step]. rewrite check_eq, He, Hv. cbn [negb]. cbv zeta.
  destruct (skey k (swept c t s)) as [b|] eqn:E.
  - right. cbn [fst snd]. split; [|reflexivity]. unfold skey. cbn [lm_buckets].
    now rewrite (lookup_insert_same _ str_eqb_spec).
  - destruct (MAX_TRACKED_KEYS <=? llen (lm_buckets (swept c t s))) eqn:E2; cbn [fst snd].
    + left. repeat split; auto. lia.
    + right. split; [|reflexivity]. unfold skey. cbn [lm_buckets].
      now rewrite (lookup_insert_same _ str_eqb_spec).
Qed.
Lemma invalid_check : forall c s t k, valid_key k = false -> rl_step c s (t, RCheck k) = (s, false).
Proof. intros. cbn [rl_step]. rewrite check_eq, H. reflexivity. Qed.

(** ** The throughput bound *)
(** allowance of a bucket up to time [hi] *)
Definition allowance (c : rl_config) (hi : N) (b : bucket) : N :=
  bk_tokens b + rl_per_refill c * ((hi - bk_refill b) / Ins c).

Lemma div_split : forall x y d, x / d + y / d <= (x + y) / d.
Proof.
  intros. destruct (N.eq_dec d 0) as [->|Hd]; [now destruct x, y|].
  apply N.div_le_lower_bound; [assumption|].
  pose proof (N.mul_div_le x d Hd). pose proof (N.mul_div_le y d Hd). lia.
Qed.

Lemma refill_allowance : forall c t hi b, bk_refill b <= t -> t <= hi ->
  allowance c hi (refill c t b) <= allowance c hi b.
Proof.
  intros c t hi b H1 H2. unfold allowance.
  destruct (refill_spec c t b) as [_ [[-> _]|[_ [_ [_ [Hge [Hr Hk]]]]]]]; [lia|].
  rewrite Hr, Hk.
  pose proof (div_split (t - bk_refill b) (hi - t) (Ins c)) as D.
  replace (t - bk_refill b + (hi - t)) with (hi - bk_refill b) in D by lia.
  set (q1 := (t - bk_refill b) / Ins c) in *. set (q2 := (hi - t) / Ins c) in *.
  set (q := (hi - bk_refill b) / Ins c) in *. nia.
Qed.
Lemma consume_allowance : forall c t hi b, bk_refill b <= t -> t <= hi ->
  (if snd (try_consume c t b) then 1 else 0) + allowance c hi (fst (try_consume c t b)) <= allowance c hi b.
Proof.
  intros c t hi b H1 H2. pose proof (refill_allowance c t hi b H1 H2) as R. unfold try_consume.
  destruct (1 <=? bk_tokens (refill c t b)) eqn:E; cbn [fst snd]; unfold allowance in *;
    cbn [bk_tokens bk_refill]; lia.
Qed.
Lemma consume_times : forall c t b, bk_refill b <= t ->
  bk_refill (fst (try_consume c t b)) <= t /\ bk_access (fst (try_consume c t b)) = t.
Proof.
  intros c t b H. unfold try_consume.
  assert (bk_refill (refill c t b) <= t)
    by (destruct (refill_spec c t b) as [_ [[-> _]|[_ [_ [_ [_ [Hr _]]]]]]]; lia).
  destruct (1 <=? bk_tokens (refill c t b)); cbn; auto.
Qed.

Lemma admitted_cons : forall k c s t o h,
  admitted k c s ((t, o) :: h)
  = (if is_check k o then if snd (rl_step c s (t, o)) then 1 else 0 else 0)
    + admitted k c (fst (rl_step c s (t, o))) h.
Proof.
  intros. unfold admitted. rewrite rl_run_cons. cbn [snd verdicts].
  destruct (is_check k o); reflexivity.
Qed.

Lemma is_check_eq : forall k o, is_check k o = true -> o = RCheck k.
Proof. intros k o H. destruct o; cbn in H; try discriminate. apply str_eqb_spec in H. now subst. Qed.

(** once [k] has been checked inside the window *)
Lemma segment_bound : forall c k lo hi, rl_enabled c = true -> hi - lo <= rl_idle c * SEC ->
  forall h s now b, chrono now h -> within lo hi h -> unreset k h -> good_limiter c now s ->
  skey k s = Some b -> lo <= bk_access b -> now <= hi ->
  admitted k c s h <= allowance c hi b.
Proof.
  intros c k lo hi He Hidle. induction h as [|[t o] h IH]; intros s now b Hc Hw Hu Hg E Ha Hnow.
  - apply N.le_0_l.
  - destruct Hc as [Ht Hc]. inversion Hw as [|? ? Hw1 Hw2]; subst. cbn [fst] in Hw1.
    inversion Hu as [|? ? [Hu1 Hu1'] Hu2]; subst. cbn [snd] in Hu1, Hu1'.
    pose proof (step_good c now t o s Hg Ht) as Hg'. pose proof (proj2 Hg _ _ E) as [B1 [B2 B3]].
    assert (Hni : is_idle c t b = false) by (unfold is_idle; lia).
    rewrite admitted_cons. destruct (is_check k o) eqn:Eo.
    + apply is_check_eq in Eo. subst o. destruct (valid_key k) eqn:Ev.
      2: { rewrite invalid_check by assumption. cbn [fst snd]. rewrite N.add_0_l.
           apply (IH s t b); auto; [now apply (good_mono c now)|lia]. }
      destruct (step_check c s t k (proj1 Hg) He Ev) as [old [Hs [_ Hcase]]].
      assert (old = Some b).
      { destruct Hs as [->|[b0 [E0 [Hi _]]]]; [assumption|]. rewrite E in E0. injection E0 as <-. congruence. }
      subst old. destruct Hcase as [[Hx _]|[Hk Hv]]; [discriminate|].
      rewrite Hv. pose proof (consume_allowance c t hi b ltac:(lia) ltac:(lia)) as CA.
      destruct (consume_times c t b ltac:(lia)) as [CT1 CT2].
      assert (HR : admitted k c (fst (rl_step c s (t, RCheck k))) h
                   <= allowance c hi (fst (try_consume c t b))).
      { apply (IH _ t); auto; [rewrite CT2|]; lia. }
      lia.
    + rewrite N.add_0_l. destruct (step_not_check c s t o k (proj1 Hg) Eo Hu1 Hu1') as [Hs|[_ [b0 [E0 E1]]]].
      * assert (E' : skey k (fst (rl_step c s (t, o))) = Some b).
        { destruct Hs as [->|[b0 [E0 [Hi _]]]]; [assumption|]. rewrite E in E0. injection E0 as <-. congruence. }
        apply (IH _ t b); auto; lia.
      * rewrite E in E0. injection E0 as <-.
        assert (HR : admitted k c (fst (rl_step c s (t, o))) h <= allowance c hi (refill c t b)).
        { apply (IH _ t); auto; [|lia]. rewrite (proj1 (refill_spec c t b)). exact Ha. }
        pose proof (refill_allowance c t hi b ltac:(lia) ltac:(lia)). lia.
Qed.

Lemma div0 : forall x, x / 0 = 0.
Proof. now destruct x. Qed.

(** the first check inside the window starts from at most a full bucket *)
Lemma first_allowance : forall c t lo hi b, rl_burst c <> 0 ->
  lo <= t -> t <= hi -> bk_refill b <= t -> bk_tokens b <= rl_burst c ->
  allowance c hi (refill c t b) <= rl_burst c + rl_per_refill c * ((hi - lo) / Ins c + 1).
Proof.
  intros c t lo hi b Hnz H0 H1 H2 H3. unfold allowance.
  destruct (refill_spec c t b) as [_ [[-> Hw]|[_ [_ [_ [Hge [Hr Hk]]]]]]].
  - destruct Hw as [Hw|Hw].
    + destruct (N.eq_dec (rl_interval c) 0) as [Hi|Hi].
      { assert (Hz : Ins c = 0) by (unfold Ins; rewrite Hi; reflexivity). rewrite Hz, !div0. lia. }
      destruct Hw as [Hw|[Hw|Hw]]; [lia|rewrite Hw; lia|contradiction].
    + assert (Ins c <> 0) by lia.
      assert ((hi - bk_refill b) / Ins c <= (hi - lo) / Ins c + 1).
      { replace ((hi - lo) / Ins c + 1) with ((hi - lo + 1 * Ins c) / Ins c) by (rewrite N.div_add by assumption; lia).
        apply N.div_le_mono; lia. }
      nia.
  - rewrite Hr, Hk. assert ((hi - t) / Ins c <= (hi - lo) / Ins c).
    { destruct (N.eq_dec (Ins c) 0) as [Hz|Hz]; [rewrite Hz, !div0; lia|]. apply N.div_le_mono; lia. }
    nia.
Qed.

(** a limiter with no burst admits nothing *)
Lemma zero_burst : forall c k, rl_enabled c = true -> rl_burst c = 0 ->
  forall h s now, chrono now h -> good_limiter c now s -> admitted k c s h = 0.
Proof.
  intros c k He Hb. induction h as [|[t o] h IH]; intros s now Hc Hg; [reflexivity|].
  destruct Hc as [Ht Hc]. rewrite admitted_cons.
  rewrite (IH _ t Hc (step_good c now t o s Hg Ht)).
  destruct (is_check k o) eqn:Eo; [|reflexivity]. apply is_check_eq in Eo. subst o.
  destruct (valid_key k) eqn:Ev; [|rewrite invalid_check by assumption; reflexivity].
  destruct (step_check c s t k (proj1 Hg) He Ev) as [old [Hs [_ [[_ [_ [_ Hv]]]|[_ Hv]]]]]; rewrite Hv; [reflexivity|].
  set (b := match old with Some b => b | None => bucket_new c t end).
  assert (Hz : bk_tokens b = 0).
  { subst b. destruct old as [b|]; [|exact Hb].
    destruct Hs as [Hs|[b0 [_ [_ Hs]]]]; [|discriminate].
    symmetry in Hs. destruct (proj2 Hg _ _ Hs) as [B1 _]. lia. }
  unfold try_consume, refill. rewrite Hb. cbn [N.eqb]. rewrite !orb_true_r, Hz. reflexivity.
Qed.

Lemma try_consume_refill : forall c t b, bk_refill b <= t ->
  try_consume c t b = try_consume c t (refill c t b).
Proof.
  intros c t b H. unfold try_consume. replace (refill c t (refill c t b)) with (refill c t b); [reflexivity|].
  destruct (refill_spec c t b) as [_ [[E Hw]|[Hi [_ [_ [_ [Hr _]]]]]]]; [now rewrite E|].
  set (b' := refill c t b) in *. unfold refill. destruct (_ || _ || _); [reflexivity|]. rewrite Hr, N.sub_diag.
  destruct (rl_interval c * MS <=? 0) eqn:E; [unfold MS in E; lia|reflexivity].
Qed.

(** the whole window *)
Lemma window_bound : forall c k lo hi, rl_enabled c = true -> lo <= hi -> hi - lo <= rl_idle c * SEC ->
  forall h s now, chrono now h -> within lo hi h -> unreset k h -> good_limiter c now s ->
  admitted k c s h <= rl_burst c + rl_per_refill c * ((hi - lo) / Ins c + 1).
Proof.
  intros c k lo hi He Hlh Hidle h s now Hc Hw Hu Hg.
  destruct (N.eq_dec (rl_burst c) 0) as [Hz|Hnz].
  { rewrite (zero_burst c k He Hz h s now Hc Hg). apply N.le_0_l. }
  revert s now Hc Hw Hu Hg. induction h as [|[t o] h IH]; intros s now Hc Hw Hu Hg.
  - apply N.le_0_l.
  - destruct Hc as [Ht Hc]. inversion Hw as [|? ? Hw1 Hw2]; subst. cbn [fst] in Hw1.
    inversion Hu as [|? ? [Hu1 Hu1'] Hu2]; subst. cbn [snd] in Hu1, Hu1'.
    pose proof (step_good c now t o s Hg Ht) as Hg'.
    rewrite admitted_cons. destruct (is_check k o) eqn:Eo; [|rewrite N.add_0_l; now apply (IH _ t)].
    apply is_check_eq in Eo. subst o. destruct (valid_key k) eqn:Ev.
    2: { rewrite invalid_check by assumption. cbn [fst snd]. rewrite N.add_0_l.
         apply (IH s t); auto. now apply (good_mono c now). }
    destruct (step_check c s t k (proj1 Hg) He Ev) as [old [Hs [_ Hcase]]].
    destruct Hcase as [[_ [_ [_ Hv]]]|[Hk Hv]]; rewrite Hv; [rewrite N.add_0_l; now apply (IH _ t)|].
    set (b := match old with Some b => b | None => bucket_new c t end) in *.
    assert (Hb : good_bucket c t b).
    { subst b. destruct old as [b|]; [|apply new_good].
      destruct Hs as [Hs|[b0 [_ [_ Hs]]]]; [|discriminate]. symmetry in Hs.
      destruct (proj2 Hg _ _ Hs) as [B1 [B2 B3]]. repeat split; lia. }
    destruct Hb as [B1 [B2 B3]].
    assert (HR : admitted k c (fst (rl_step c s (t, RCheck k))) h
                 <= allowance c hi (fst (try_consume c t b))).
    { destruct (consume_times c t b B2) as [CT1 CT2].
      apply (segment_bound c k lo hi He Hidle h _ t); auto; [rewrite CT2|]; lia. }
    pose proof (first_allowance c t lo hi b Hnz ltac:(lia) ltac:(lia) B2 B1) as FA.
    rewrite try_consume_refill in HR |- * by assumption.
    assert (Hr : bk_refill (refill c t b) <= t)
      by (destruct (refill_spec c t b) as [_ [[-> _]|[_ [_ [_ [_ [Hr _]]]]]]]; lia).
    pose proof (consume_allowance c t hi (refill c t b) Hr ltac:(lia)) as CA. lia.
Qed.

(** ** Independence and cleanup *)
(** the verdicts a key would get from a bucket of its own that is never
    dropped for being idle *)
Fixpoint solo (c : rl_config) (k : str) (b : option bucket) (h : list (N * rl_op)) : list bool :=
  match h with
  | [] => []
  | (t, RCheck k') :: r =>
      if str_eqb k k' then
        let '(b', v) := try_consume c t (match b with Some x => x | None => bucket_new c t end) in
        v :: solo c k (Some b') r
      else solo c k b r
  | (t, RReset k') :: r => if str_eqb k k' then solo c k None r else solo c k b r
  | (t, RClear) :: r => solo c k None r
  | (t, RRemaining k') :: r =>
      if str_eqb k k' then solo c k (match b with Some x => Some (refill c t x) | None => None end) r
      else solo c k b r
  | (_, RCleanup) :: r => solo c k b r
  end.

Definition same (a b : bucket) : Prop :=
  bk_tokens a = bk_tokens b /\ bk_refill a = bk_refill b /\ bk_access a = bk_access b.
(** the real bucket agrees with the solo one, or was dropped after a wait that
    fills the solo one again *)
Definition rel (c : rl_config) (now : N) (real ideal : option bucket) : Prop :=
  match real, ideal with
  | Some a, Some b => same a b /\ bk_refill b <= bk_access b
  | None, None => True
  | None, Some b => bk_refill b <= bk_access b /\ rl_idle c * SEC < now - bk_access b
  | Some _, None => False
  end.

Lemma same_refill : forall c t a b, same a b -> same (refill c t a) (refill c t b).
Proof.
  intros c t a b [H1 [H2 H3]]. unfold refill. destruct (_ || _ || _); [repeat split; auto|].
  rewrite H2. destruct (_ <=? _); repeat split; cbn; auto; now rewrite H1.
Qed.
Lemma same_consume : forall c t a b, same a b ->
  same (fst (try_consume c t a)) (fst (try_consume c t b))
  /\ snd (try_consume c t a) = snd (try_consume c t b).
Proof.
  intros c t a b H. destruct (same_refill c t a b H) as [H1 [H2 H3]]. unfold try_consume. rewrite H1.
  destruct (1 <=? bk_tokens (refill c t b)); split; try reflexivity; repeat split; cbn; auto; congruence.
Qed.

(** a wait longer than the idle timeout refills completely *)
Lemma full_again : forall c t b, idle_covers c -> bk_refill b <= bk_access b ->
  rl_idle c * SEC < t - bk_access b -> bk_tokens b <= rl_burst c ->
  same (fst (try_consume c t b)) (fst (try_consume c t (bucket_new c t)))
  /\ snd (try_consume c t b) = snd (try_consume c t (bucket_new c t)).
Proof.
  intros c t b [Hi [Hp [Hz Hcov]]] Hr Hw Ht.
  assert (Hn : refill c t (bucket_new c t) = bucket_new c t).
  { unfold refill, bucket_new. destruct (_ || _ || _); [reflexivity|]. cbn [bk_refill]. rewrite N.sub_diag.
    destruct (rl_interval c * MS <=? 0) eqn:E; [unfold MS in E; lia|reflexivity]. }
  assert (Hb : bk_tokens (refill c t b) = rl_burst c /\
               (rl_burst c <> 0 -> bk_refill (refill c t b) = t)).
  { destruct (refill_spec c t b) as [_ [[E Hcase]|[_ [_ [Hb [Hge [Hr' Hk]]]]]]].
    - exfalso. destruct Hcase as [Hcase|Hcase]; [tauto|]. unfold Ins in Hcase. nia.
    - rewrite Hk. split; [|auto]. apply N.min_r.
      assert (rl_burst c <= (t - bk_refill b) / Ins c).
      { apply N.div_le_lower_bound; [unfold Ins, MS; lia|]. unfold Ins. nia. }
      nia. }
  destruct Hb as [Hb1 Hb2]. unfold try_consume. rewrite Hn, Hb1. cbn [bk_tokens bucket_new].
  destruct (1 <=? rl_burst c) eqn:E; cbn [fst snd]; split; try reflexivity.
  - unfold same. cbn. rewrite Hb2 by lia. auto.
  - lia.
Qed.

(** one call, related *)
Lemma rel_mono : forall c t0 t a b, rel c t0 a b -> t0 <= t -> rel c t a b.
Proof.
  intros c t0 t a b H Ht. unfold rel in *. destruct a, b; auto. destruct H as [H1 H2]. split; [assumption|lia].
Qed.
Lemma rel_sweep : forall c t0 t real new ideal, rel c t0 real ideal -> t0 <= t ->
  sweep_of c t real new -> rel c t new ideal.
Proof.
  intros c t0 t real new ideal H Ht [->|[b [-> [Hi ->]]]]; [now apply (rel_mono c t0)|].
  unfold rel in *. destruct ideal as [b'|]; [|exact I]. destruct H as [[H1 [H2 H3]] H4].
  split; [assumption|]. unfold is_idle in Hi. rewrite <- H3. lia.
Qed.

Lemma llen_le_keys : forall V (m : list (str * V)) (ks : list str) n, NoDup (keys m) ->
  incl (keys m) ks -> llen ks <= n -> llen m <= n.
Proof.
  intros V m ks n Hn Hi Hl. pose proof (NoDup_incl_length Hn Hi) as H. unfold keys in H.
  rewrite map_length in H. unfold llen in *. lia.
Qed.

Lemma keys_swept : forall c t s, incl (keys (lm_buckets (swept c t s))) (keys (lm_buckets s)).
Proof.
  intros c t s x Hx. unfold swept in Hx. cbv zeta in Hx. destruct (_ =? 0); [|exact Hx].
  unfold cleanup in Hx. destruct (rl_enabled c); [|exact Hx]. cbn [lm_buckets] in Hx.
  unfold keys in *. apply in_map_iff in Hx. destruct Hx as [y [<- Hy]]. apply filter_In in Hy.
  apply in_map. tauto.
Qed.
Lemma keys_insert : forall (k : str) (b : bucket) m, incl (keys (insert str_eqb k b m)) (k :: keys m).
Proof.
  intros k b m x Hx. unfold insert in Hx. cbn [keys map fst] in Hx. destruct Hx as [Hx|Hx]; [now left|right].
  unfold keys in *. apply in_map_iff in Hx. destruct Hx as [y [<- Hy]].
  apply (remove_key_in _ str_eqb_spec) in Hy. apply in_map. tauto.
Qed.
Lemma keys_step : forall c s t o, incl (keys (lm_buckets (fst (rl_step c s (t, o)))))
  (match o with RCheck k => k :: keys (lm_buckets s) | _ => keys (lm_buckets s) end).
Proof.
  intros c s t o. destruct o as [k|k|k| |]; cbn [rl_step].
  - rewrite check_eq. destruct (negb (valid_key k)); [apply incl_tl, incl_refl|].
    destruct (negb (rl_enabled c)); [apply incl_tl, incl_refl|]. cbv zeta.
    assert (Hi : forall b n, incl (keys (lm_buckets (mkL (insert str_eqb k b (lm_buckets (swept c t s))) n)))
                                  (k :: keys (lm_buckets s))).
    { intros b n x Hx. apply keys_insert in Hx. destruct Hx as [<-|Hx]; [now left|right]. now apply (keys_swept c t). }
    destruct (skey k (swept c t s)); cbn [fst]; [apply Hi|].
    destruct (MAX_TRACKED_KEYS <=? _); cbn [fst]; [|apply Hi].
    intros x Hx. right. now apply (keys_swept c t).
  - cbn [fst]. unfold remaining. destruct (lookup str_eqb k (lm_buckets s)) as [b|] eqn:E; [|apply incl_refl].
    cbn [fst lm_buckets]. intros x Hx. apply keys_insert in Hx. destruct Hx as [<-|Hx]; [|exact Hx].
    apply (lookup_in _ str_eqb_spec) in E. unfold keys. apply in_map_iff. now exists (k, b).
  - cbn [fst lm_buckets]. intros x Hx. unfold keys in *. apply in_map_iff in Hx. destruct Hx as [y [<- Hy]].
    apply (remove_key_in _ str_eqb_spec) in Hy. apply in_map. tauto.
  - intros x [].
  - cbn [fst]. unfold cleanup. destruct (rl_enabled c); [|apply incl_refl]. cbn [lm_buckets].
    intros x Hx. unfold keys in *. apply in_map_iff in Hx. destruct Hx as [y [<- Hy]]. apply filter_In in Hy.
    apply in_map. tauto.
Qed.

Lemma consume_order : forall c t b, bk_refill b <= t ->
  bk_refill (fst (try_consume c t b)) <= bk_access (fst (try_consume c t b)).
Proof. intros c t b H. destruct (consume_times c t b H) as [H1 H2]. lia. Qed.

(** every verdict given to [k] is the solo one *)
Lemma run_solo : forall c k ks, rl_enabled c = true -> valid_key k = true -> idle_covers c ->
  llen ks <= MAX_TRACKED_KEYS ->
  forall h s now ideal, chrono now h -> unqueried k h -> (forall x, asked h x -> In x ks) ->
  incl (keys (lm_buckets s)) ks -> good_limiter c now s ->
  rel c now (skey k s) ideal -> (forall b, ideal = Some b -> good_bucket c now b) ->
  verdicts k h (snd (rl_run c s h)) = solo c k ideal h.
Proof.
  intros c k ks He Hv Hcov Hks. induction h as [|[t o] h IH]; intros s now ideal Hc Hu Ha Hin Hg Hr Hi; [reflexivity|].
  destruct Hc as [Ht Hc]. rewrite rl_run_cons. cbn [snd verdicts].
  pose proof (step_good c now t o s Hg Ht) as Hg'.
  assert (Hu' : unqueried k h) by (intros t' H'; apply (Hu t'); now right).
  assert (Ha' : forall x, asked h x -> In x ks) by (intros x [t' H']; apply Ha; exists t'; now right).
  assert (Hin' : incl (keys (lm_buckets (fst (rl_step c s (t, o))))) ks).
  { intros x Hx. apply keys_step in Hx. destruct o as [k0|k0|k0| |]; auto.
    destruct Hx as [<-|Hx]; [|auto]. apply Ha. exists t. now left. }
  assert (Hi' : forall b, ideal = Some b -> good_bucket c t b).
  { intros b E. destruct (Hi b E) as [A [B C]]. repeat split; lia. }
  destruct (is_check k o) eqn:Eo.
  - apply is_check_eq in Eo. subst o. cbn [solo]. rewrite str_eqb_refl.
    destruct (step_check c s t k (proj1 Hg) He Hv) as [old [Hs [Hold Hcase]]].
    pose proof (rel_sweep c now t _ _ _ Hr Ht Hs) as Hr2.
    destruct Hcase as [[-> [Hfull _]]|[Hk Hvd]].
    + exfalso.
      (* a free slot exists: the tracked keys and [k] are all among [ks] *)
      assert (Hn2 : NoDup (keys (lm_buckets (swept c t s)))).
      { apply (swept_good c t s). now apply (good_mono c now). }
      assert (HkN : skey k (swept c t s) = None) by (symmetry; exact Hold).
      apply (lookup_none _ str_eqb_spec) in HkN.
      assert (Hnd : NoDup (k :: keys (lm_buckets (swept c t s)))) by (now constructor).
      assert (Hinc : incl (k :: keys (lm_buckets (swept c t s))) ks).
      { intros x [<-|Hx]; [apply Ha; exists t; now left|]. apply Hin. now apply (keys_swept c t). }
      pose proof (NoDup_incl_length Hnd Hinc) as HL. cbn [length] in HL. unfold keys in HL.
      rewrite map_length in HL. unfold llen in *. lia.
    + cbv zeta in Hk, Hvd. rewrite Hvd.
      set (ib := match ideal with Some x => x | None => bucket_new c t end).
      set (rb := match old with Some x => x | None => bucket_new c t end) in *.
      assert (Hsame : same (fst (try_consume c t rb)) (fst (try_consume c t ib))
                      /\ snd (try_consume c t rb) = snd (try_consume c t ib)).
      { subst rb ib. unfold rel in Hr2. destruct old as [a|], ideal as [b|]; try (destruct Hr2; fail).
        - apply same_consume. tauto.
        - destruct Hr2 as [R1 R2]. destruct (full_again c t b Hcov R1 R2 (proj1 (Hi' b eq_refl))) as [[S1 [S2 S3]] S4].
          split; [repeat split; congruence|congruence].
        - split; [repeat split|reflexivity]. }
      destruct Hsame as [HS HV]. rewrite HV.
      assert (Hgi : good_bucket c t ib) by (subst ib; destruct ideal; [auto|apply new_good]).
      pose proof (try_consume_good c t t ib Hgi ltac:(lia)) as Hgi2.
      pose proof (consume_order c t ib (proj1 (proj2 Hgi))) as Hord.
      destruct (try_consume c t ib) as [ib' vi] eqn:Ei. cbn [fst snd] in *.
      f_equal. apply (IH _ t (Some ib')); auto.
      * rewrite Hk. split; assumption.
      * intros b E. now injection E as <-.
  - destruct o as [k0|k0|k0| |]; cbn [solo].
    + cbn [is_check] in Eo. rewrite Eo. apply (IH _ t); auto.
      destruct (step_not_check c s t (RCheck k0) k (proj1 Hg) Eo ltac:(discriminate) ltac:(discriminate)) as [Hs|[Hx _]]; [|discriminate].
      exact (rel_sweep c now t _ _ _ Hr Ht Hs).
    + destruct (str_eqb k k0) eqn:Ek.
      * apply str_eqb_spec in Ek. subst k0. exfalso. apply (Hu t). now left.
      * apply (IH _ t); auto.
        destruct (step_not_check c s t (RRemaining k0) k (proj1 Hg) Eo ltac:(discriminate) ltac:(discriminate)) as [Hs|[Hx _]].
        -- exact (rel_sweep c now t _ _ _ Hr Ht Hs).
        -- injection Hx as ->. rewrite str_eqb_refl in Ek. discriminate.
    + destruct (str_eqb k k0) eqn:Ek.
      * apply str_eqb_spec in Ek. subst k0. apply (IH _ t); auto; [|discriminate].
        cbn [rl_step fst]. unfold skey. cbn [lm_buckets]. rewrite lookup_remove_same. exact I.
      * apply (IH _ t); auto. apply str_eqb_neq in Ek.
        destruct (step_not_check c s t (RReset k0) k (proj1 Hg) Eo ltac:(congruence) ltac:(discriminate)) as [Hs|[Hx _]]; [|discriminate].
        exact (rel_sweep c now t _ _ _ Hr Ht Hs).
    + apply (IH _ t); auto; [exact I|discriminate].
    + apply (IH _ t); auto.
      destruct (step_not_check c s t RCleanup k (proj1 Hg) Eo ltac:(discriminate) ltac:(discriminate)) as [Hs|[Hx _]]; [|discriminate].
      exact (rel_sweep c now t _ _ _ Hr Ht Hs).
Qed.
