(** Lemmas about session timers. *)
From Coq Require Import Arith NArith Bool String List Lia ZifyBool ZifyN ZifyNat.
Import ListNotations.
From Verif Require Import Base BaseFacts Headers Method Msg Dialog DialogProofs SessionTimer.
Open Scope N_scope.
Open Scope list_scope.

Definition live_step (d : dialog_id) (acc : option (N * N * bool)) (x : N * sevent) : option (N * N * bool) :=
  match snd x with
  | EvStarted d' e r => if did_eqb d' d then Some (fst x, e, r) else acc
  | EvStopped d' | EvExpired d' => if did_eqb d' d then None else acc
  | EvRefused _ | EvRefresh _ => acc
  end.
Definition live (d : dialog_id) (tr : list (N * sevent)) : option (N * N * bool) := fold_left (live_step d) tr None.
Lemma live_app : forall d tr x, live d (tr ++ [x]) = live_step d (live d tr) x.
Proof. intros. unfold live. now rewrite fold_left_app. Qed.

(** [ends d x]: the event ends or replaces the timer of [d] *)
Definition touches (d : dialog_id) (x : sevent) : Prop :=
  (exists e r, x = EvStarted d e r) \/ x = EvStopped d \/ x = EvExpired d.
Lemma live_some : forall d tr t0 e r, live d tr = Some (t0, e, r) ->
  exists ta tb, tr = ta ++ (t0, EvStarted d e r) :: tb /\ forall x, In x tb -> ~ touches d (snd x).
Proof.
  intros d tr. induction tr as [|x tr IH] using rev_ind; intros t0 e r H; [discriminate|]. rewrite live_app in H.
  assert (K : live d tr = Some (t0, e, r) -> ~ touches d (snd x) -> exists ta tb, tr ++ [x] = ta ++ (t0, EvStarted d e r) :: tb /\ forall y, In y tb -> ~ touches d (snd y)).
  { intros E N. destruct (IH t0 e r E) as (ta & tb & -> & F). exists ta, (tb ++ [x]). split; [now rewrite <- app_assoc|].
    intros y Hy. apply in_app_or in Hy. destruct Hy as [Hy|[<-|[]]]; auto. }
  destruct x as [t ev]. unfold live_step in H. cbn [fst snd] in *. destruct ev as [d' e' r'|d'|d'|d'|d']; unfold touches in *.
  - destruct (did_eqb d' d) eqn:E.
    + apply did_eqb_spec in E. injection H as <- <- <-. subst d'. exists tr, []. split; [reflexivity|intros ? []].
    + apply K; [assumption|]. intros [(a & b & X)|[X|X]]; try discriminate. injection X as -> _ _. rewrite did_eqb_refl in E. discriminate.
  - apply K; [assumption|]. intros [(a & b & X)|[X|X]]; discriminate.
  - destruct (did_eqb d' d) eqn:E; [discriminate|]. apply K; [assumption|]. intros [(a & b & X)|[X|X]]; try discriminate. injection X as ->. rewrite did_eqb_refl in E. discriminate.
  - apply K; [assumption|]. intros [(a & b & X)|[X|X]]; discriminate.
  - destruct (did_eqb d' d) eqn:E; [discriminate|]. apply K; [assumption|]. intros [(a & b & X)|[X|X]]; try discriminate. injection X as ->. rewrite did_eqb_refl in E. discriminate.
Qed.
Lemma live_start : forall d ta t0 e r tb, (forall x, In x tb -> ~ touches d (snd x)) -> live d (ta ++ (t0, EvStarted d e r) :: tb) = Some (t0, e, r).
Proof.
  intros d ta t0 e r tb. induction tb as [|x tb IH] using rev_ind; intros H.
  - rewrite live_app. unfold live_step. cbn. now rewrite did_eqb_refl.
  - change (ta ++ (t0, EvStarted d e r) :: tb ++ [x]) with (ta ++ ((t0, EvStarted d e r) :: tb) ++ [x]). rewrite app_assoc, live_app, IH.
    + assert (N : ~ touches d (snd x)) by (apply H, in_or_app; right; now left). unfold touches in N. destruct x as [t ev]. unfold live_step. cbn [snd] in *.
      destruct ev as [d' e' r'|d'|d'|d'|d']; try reflexivity; destruct (did_eqb d' d) eqn:E; try reflexivity; apply did_eqb_spec in E; subst d'; exfalso; apply N; eauto.
    + intros y Hy. apply H, in_or_app. now left.
Qed.

(** least time of the next event of a task *)
Definition total (e : N) (r : bool) : N := if r then e / 2 + e / 2 else e.
Definition timing (t0 now : N) (t : stask) : Prop :=
  match st_stage t with
  | SNew => t0 <= now
  | SWaitRefresh dl => st_ref t = true /\ t0 <= now /\ t0 + st_e t / 2 <= dl
  | SWaitExpire dl => t0 <= now /\ t0 + total (st_e t) (st_ref t) <= dl
  | SRemove => False
  end.
Definition task_inv (s : sts) (tr : list (N * sevent)) (t : stask) : Prop :=
  2 <= st_e t /\ st_gen t < ss_next s
  /\ (current s t = false -> not_due (ss_now s) t)
  /\ (current s t = true ->
      match st_stage t with
      | SRemove => live (st_dlg t) tr = None
      | _ => exists t0, live (st_dlg t) tr = Some (t0, st_e t, st_ref t) /\ timing t0 (ss_now s) t
      end).
Record inv (s : sts) (tr : list (N * sevent)) : Prop := mkInv {
  i_nodup : NoDup (map st_gen (ss_tasks s));
  i_task : forall t, In t (ss_tasks s) -> task_inv s tr t;
  i_table : forall d x g, lookup did_eqb d (ss_table s) = Some (x, g) -> exists t, In t (ss_tasks s) /\ st_gen t = g /\ st_dlg t = d;
  i_live : forall d t0 e r, live d tr = Some (t0, e, r) -> exists g, lookup did_eqb d (ss_table s) = Some (t0 + e, g) }.

Lemma NoDup_app_snoc : forall A (l : list A) x, NoDup l -> ~ In x l -> NoDup (l ++ [x]).
Proof.
  intros A l x. induction l as [|y l IH]; intros N X; [repeat constructor; auto|]. inversion N as [|? ? N1 N2]; subst. cbn. constructor.
  - intros H. apply in_app_or in H. destruct H as [H|[->|[]]]; [auto|]. apply X. now left.
  - apply IH; [assumption|]. intros H. apply X. now right.
Qed.
Lemma find_task_in : forall g l t, find_task g l = Some t -> In t l /\ st_gen t = g.
Proof. intros g l t H. apply find_some in H. destruct H as [H1 H2]. apply N.eqb_eq in H2. auto. Qed.
Lemma gen_inj : forall l t u, NoDup (map st_gen l) -> In t l -> In u l -> st_gen t = st_gen u -> t = u.
Proof.
  induction l as [|x l IH]; intros t u N Ht Hu E; [destruct Ht|]. cbn in N. inversion N as [|? ? N1 N2]; subst.
  destruct Ht as [<-|Ht], Hu as [<-|Hu]; [reflexivity| | |auto].
  - exfalso. apply N1. rewrite E. now apply in_map.
  - exfalso. apply N1. rewrite <- E. now apply in_map.
Qed.
Lemma put_gens : forall t l, map st_gen (put_task t l) = map st_gen l.
Proof.
  intros t l. unfold put_task. rewrite map_map. apply map_ext. intros u. destruct (st_gen u =? st_gen t) eqn:E; [lia|reflexivity].
Qed.
Lemma put_in : forall t l u, In u (put_task t l) -> u = t \/ (In u l /\ st_gen u <> st_gen t).
Proof.
  intros t l u H. unfold put_task in H. apply in_map_iff in H. destruct H as (v & E & Hv). destruct (st_gen v =? st_gen t) eqn:G; [now left|].
  subst v. right. split; [assumption|lia].
Qed.
Lemma put_keeps : forall t l u, In u l -> exists v, In v (put_task t l) /\ st_gen v = st_gen u /\ (v = u \/ v = t).
Proof.
  intros t l u H. exists (if st_gen u =? st_gen t then t else u). split; [|destruct (st_gen u =? st_gen t) eqn:E; split; auto; lia].
  unfold put_task. apply in_map_iff. exists u. auto.
Qed.
Lemma drop_in : forall g l u, In u (drop_task g l) <-> In u l /\ st_gen u <> g.
Proof. intros g l u. unfold drop_task. rewrite filter_In. rewrite negb_true_iff, N.eqb_neq. reflexivity. Qed.
Lemma drop_nodup : forall g l, NoDup (map st_gen l) -> NoDup (map st_gen (drop_task g l)).
Proof.
  intros g l. induction l as [|x l IH]; intros N; [constructor|]. cbn in *. inversion N as [|? ? N1 N2]; subst.
  destruct (negb _); [|auto]. cbn. constructor; [|auto]. intros X. apply N1. apply in_map_iff in X. destruct X as (y & E & Hy).
  apply drop_in in Hy. rewrite <- E. apply in_map. tauto.
Qed.
Lemma current_lookup : forall s t, current s t = true -> exists x, lookup did_eqb (st_dlg t) (ss_table s) = Some (x, st_gen t).
Proof. intros s t H. unfold current in H. destruct (lookup _ _ _) as [[x g]|]; [|discriminate]. apply N.eqb_eq in H. subst. eauto. Qed.
Lemma not_due_mono : forall n m t, m <= n -> not_due n t -> not_due m t.
Proof. intros n m t H. unfold not_due. destruct (st_stage t); lia || auto. Qed.
Lemma timing_mono : forall t0 n m t, n <= m -> timing t0 n t -> timing t0 m t.
Proof. intros t0 n m t H. unfold timing. destruct (st_stage t); intuition lia. Qed.
Lemma half_pos : forall e, 2 <= e -> 1 <= e / 2.
Proof. intros e H. apply N.div_le_lower_bound; lia. Qed.
Lemma half_le : forall e, e / 2 + e / 2 <= e.
Proof. intros e. pose proof (N.mul_div_le e 2 ltac:(lia)). lia. Qed.

Lemma inv_init : inv sts_init [].
Proof. constructor; [constructor|intros t []|intros d x g H; discriminate H|intros d t0 e r H; discriminate H]. Qed.

(** a task that is due is the current one *)
Lemma due_current : forall s tr t, inv s tr -> In t (ss_tasks s) -> ~ not_due (ss_now s) t -> current s t = true.
Proof.
  intros s tr t I Ht D. destruct (current s t) eqn:C; [reflexivity|]. exfalso. apply D. now apply (i_task _ _ I t Ht).
Qed.

Lemma inv_step : forall s tr a s' evs, inv s tr -> prompt s a -> sstep s a = Some (s', evs) ->
  inv s' (tr ++ map (fun e => (ss_now s, e)) evs).
Proof.
  intros s tr a s' evs I P H. destruct a as [n|d|d e r|g|g]; cbn [sstep] in H.
  - (* tick *)
    injection H as <- <-. cbn [map]. rewrite app_nil_r. destruct I as [I1 I2 I3 I4]. constructor; cbn [ss_now ss_table ss_tasks ss_next]; try assumption.
    intros t Ht. destruct (I2 t Ht) as (A & B & C & D). repeat split; try assumption.
    + change (current _ t) with (current s t). intros Hc. now apply P.
    + change (current _ t) with (current s t). intros Hc. specialize (D Hc). cbn [ss_now]. destruct (st_stage t) eqn:S; try assumption.
      all: destruct D as (t0 & D1 & D2); exists t0; (split; [assumption|]); revert D2; apply timing_mono; lia.
  - (* stop *)
    injection H as <- <-. cbn [map]. destruct I as [I1 I2 I3 I4]. constructor; cbn [ss_now ss_table ss_tasks ss_next]; try assumption.
    + intros t Ht. destruct (I2 t Ht) as (A & B & C & D). split; [assumption|]. split; [assumption|].
      destruct (did_eqb d (st_dlg t)) eqn:E.
      * apply did_eqb_spec in E. split; [|].
        { intros _. apply P; [assumption|congruence]. }
        { unfold current. cbn [ss_table]. rewrite E, lookup_remove_same. discriminate. }
      * assert (N : st_dlg t <> d) by (intros X; rewrite X, did_eqb_refl in E; discriminate).
        assert (CE : current (mkSts (ss_now s) (remove_key did_eqb d (ss_table s)) (ss_tasks s) (ss_next s)) t = current s t).
        { unfold current. cbn [ss_table]. now rewrite (lookup_remove_other _ did_eqb_spec). }
        rewrite CE. split; [exact C|]. rewrite live_app. unfold live_step. cbn [snd]. rewrite E. exact D.
    + intros d' x g Hl. destruct (did_eqb d' d) eqn:E.
      * apply did_eqb_spec in E. subst. rewrite lookup_remove_same in Hl. discriminate.
      * rewrite (lookup_remove_other _ did_eqb_spec) in Hl; [eauto|]. intros ->. rewrite did_eqb_refl in E. discriminate.
    + intros d' t0 e r Hv. rewrite live_app in Hv. unfold live_step in Hv. cbn [snd] in Hv. destruct (did_eqb d d') eqn:E; [discriminate|].
      rewrite (lookup_remove_other _ did_eqb_spec); [eauto|]. intros ->. rewrite did_eqb_refl in E. discriminate.
  - (* insert *)
    destruct (_ <=? llen _).
    { injection H as <- <-. cbn [map]. destruct I as [I1 I2 I3 I4]. constructor; try assumption.
      - intros t Ht. destruct (I2 t Ht) as (A & B & C & D). repeat split; try assumption. now rewrite live_app.
      - intros d' t0 e' r' Hv. rewrite live_app in Hv. now apply (I4 d' t0 e' r'). }
    injection H as <- <-. cbn [map]. destruct I as [I1 I2 I3 I4]. destruct P as [PE P].
    assert (FR : forall t, In t (ss_tasks s) -> st_gen t <> ss_next s) by (intros t Ht; destruct (I2 t Ht) as (_ & B & _); lia).
    constructor; cbn [ss_now ss_table ss_tasks ss_next].
    + rewrite map_app. cbn [map st_gen]. apply NoDup_app_snoc; [assumption|]. intros X. apply in_map_iff in X. destruct X as (t & E & Ht). now apply (FR t Ht).
    + intros t Ht. apply in_app_or in Ht. destruct Ht as [Ht|[<-|[]]].
      * destruct (I2 t Ht) as (A & B & C & D). split; [assumption|]. split; [cbn; lia|].
        destruct (did_eqb d (st_dlg t)) eqn:E.
        { apply did_eqb_spec in E. split.
          - intros _. apply P; [assumption|congruence].
          - unfold current. cbn [ss_table]. rewrite E, (lookup_insert_same _ did_eqb_spec). intros X. apply N.eqb_eq in X. exfalso. now apply (FR t Ht). }
        { assert (N : st_dlg t <> d) by (intros X; rewrite X, did_eqb_refl in E; discriminate).
          match goal with |- context [current ?S t] => assert (CE : current S t = current s t) end.
          { unfold current. cbn [ss_table]. now rewrite (lookup_insert_other _ did_eqb_spec). }
          rewrite CE. split; [exact C|]. rewrite live_app. unfold live_step. cbn [snd]. rewrite E. exact D. }
      * split; [exact PE|]. split; [cbn; lia|]. split; [intros _; exact Logic.I|]. intros _. cbn [st_stage st_dlg]. exists (ss_now s).
        rewrite live_app. unfold live_step. cbn [fst snd]. rewrite did_eqb_refl. split; [reflexivity|]. cbn. lia.
    + intros d' x g Hl. destruct (did_eqb d' d) eqn:E.
      * apply did_eqb_spec in E. subst. rewrite (lookup_insert_same _ did_eqb_spec) in Hl. injection Hl as <- <-.
        eexists. split; [apply in_or_app; right; now left|]. split; reflexivity.
      * rewrite (lookup_insert_other _ did_eqb_spec) in Hl; [|intros ->; rewrite did_eqb_refl in E; discriminate].
        destruct (I3 d' x g Hl) as (t & Ht & E1 & E2). exists t. split; [apply in_or_app; now left|auto].
    + intros d' t0 e' r' Hv. rewrite live_app in Hv. unfold live_step in Hv. cbn [snd fst] in Hv. destruct (did_eqb d d') eqn:E.
      * apply did_eqb_spec in E. subst. injection Hv as <- <- <-. rewrite (lookup_insert_same _ did_eqb_spec). eauto.
      * rewrite (lookup_insert_other _ did_eqb_spec); [eauto|]. intros ->. rewrite did_eqb_refl in E. discriminate.
  - (* poll *)
    destruct (find_task g (ss_tasks s)) as [t|] eqn:F; [|discriminate]. apply find_task_in in F. destruct F as [Ht Hg].
    pose proof (i_task _ _ I t Ht) as (A & B & C & D).
    (* what all the stage changes share *)
    assert (STG : forall st tr', (forall d, live d tr' = live d tr \/ (d = st_dlg t /\ live d tr' = None /\ st = SRemove /\ current s t = true)) ->
              (current s t = false -> not_due (ss_now s) (set_stage t st)) ->
              (current s t = true -> match st with SRemove => live (st_dlg t) tr' = None | _ => exists t0, live (st_dlg t) tr' = Some (t0, st_e t, st_ref t) /\ timing t0 (ss_now s) (set_stage t st) end) ->
              inv (mkSts (ss_now s) (ss_table s) (put_task (set_stage t st) (ss_tasks s)) (ss_next s)) tr').
    { intros st tr' L N1 N2. destruct I as [I1 I2 I3 I4]. constructor; cbn [ss_now ss_table ss_tasks ss_next].
      - now rewrite put_gens.
      - intros u Hu. apply put_in in Hu. destruct Hu as [->|[Hu Hn]].
        + split; [exact A|]. split; [exact B|]. split; [exact N1|]. intros Hc. specialize (N2 Hc). cbn [set_stage st_stage st_dlg st_e st_ref]. exact N2.
        + destruct (I2 u Hu) as (A' & B' & C' & D'). split; [exact A'|]. split; [exact B'|]. split; [exact C'|]. intros Hc.
          change (current _ u) with (current s u) in Hc. specialize (D' Hc).
          destruct (L (st_dlg u)) as [->|(X & _ & _ & Y)]; [exact D'|].
          exfalso. apply current_lookup in Y. destruct Y as (y & Y). apply current_lookup in Hc. destruct Hc as (z & Hc). cbn [set_stage st_gen] in Hn. rewrite X in Hc. rewrite Y in Hc. congruence.
      - intros d x g' Hl. destruct (I3 d x g' Hl) as (u & Hu & E1 & E2). destruct (put_keeps (set_stage t st) _ u Hu) as (v & Hv & G1 & G2).
        exists v. split; [assumption|]. split; [congruence|]. destruct G2 as [-> | ->]; [assumption|]. cbn [set_stage st_dlg st_gen] in *.
        assert (t = u) by (apply (gen_inj (ss_tasks s)); assumption). congruence.
      - intros d t0 e r Hv. destruct (L d) as [X|(_ & X & _)]; rewrite X in Hv; [eauto|discriminate]. }
    destruct (st_stage t) as [|dl|dl|] eqn:S.
    + (* first poll *)
      injection H as <- <-. cbn [map]. rewrite app_nil_r. pose proof (half_pos _ A) as HP. apply STG.
      * intros d. now left.
      * intros _. unfold not_due. cbn [set_stage st_stage]. destruct (st_ref t); lia.
      * intros Hc. destruct (D Hc) as (t0 & D1 & D2). unfold timing in D2. rewrite S in D2. unfold timing, total. destruct (st_ref t) eqn:R.
        { exists t0. split; [assumption|]. cbn [set_stage st_stage st_ref st_e]. repeat split; try assumption; lia. }
        { exists t0. split; [assumption|]. cbn [set_stage st_stage st_ref st_e]. rewrite R. repeat split; try assumption; lia. }
    + destruct (dl <=? ss_now s) eqn:DL; [|discriminate]. injection H as <- <-. cbn [map].
      assert (Hc : current s t = true) by (apply (due_current s tr); [assumption..|]; unfold not_due; rewrite S; lia).
      pose proof (half_pos _ A) as HP. apply STG.
      * intros d. left. rewrite live_app. reflexivity.
      * congruence.
      * intros _. destruct (D Hc) as (t0 & D1 & D2). exists t0. rewrite live_app. split; [exact D1|]. unfold timing in D2. rewrite S in D2.
        unfold timing, total. cbn [set_stage st_stage st_ref st_e]. destruct D2 as (R & D2 & D3). rewrite R. lia.
    + destruct (dl <=? ss_now s) eqn:DL; [|discriminate]. injection H as <- <-. cbn [map].
      assert (Hc : current s t = true) by (apply (due_current s tr); [assumption..|]; unfold not_due; rewrite S; lia).
      apply STG.
      * intros d. rewrite live_app. unfold live_step. cbn [snd]. destruct (did_eqb (st_dlg t) d) eqn:E; [|now left].
        apply did_eqb_spec in E. right. auto.
      * congruence.
      * intros _. rewrite live_app. unfold live_step. cbn [snd]. now rewrite did_eqb_refl.
    + (* removal *)
      injection H as <- <-. cbn [map]. rewrite app_nil_r.
      assert (Hc : current s t = true) by (apply (due_current s tr); [assumption..|]; unfold not_due; rewrite S; auto).
      pose proof (D Hc) as LV. destruct (current_lookup _ _ Hc) as (x0 & LK). destruct I as [I1 I2 I3 I4].
      constructor; cbn [ss_now ss_table ss_tasks ss_next].
      * now apply drop_nodup.
      * intros u Hu. apply drop_in in Hu. destruct Hu as [Hu Hn]. destruct (I2 u Hu) as (A' & B' & C' & D'). split; [exact A'|]. split; [exact B'|].
        destruct (did_eqb (st_dlg u) (st_dlg t)) eqn:E.
        { apply did_eqb_spec in E.
          assert (CF : current s u = false) by (unfold current; rewrite E, LK; apply N.eqb_neq; congruence).
          split; [intros _; now apply C'|]. unfold current. cbn [ss_table]. rewrite E, lookup_remove_same. discriminate. }
        { match goal with |- context [current ?S u] => assert (CE : current S u = current s u) end.
          { unfold current. cbn [ss_table]. rewrite (lookup_remove_other _ did_eqb_spec); [reflexivity|]. intros X. rewrite X, did_eqb_refl in E. discriminate. }
          rewrite CE. split; [exact C'|exact D']. }
      * intros d x g' Hl. destruct (did_eqb d (st_dlg t)) eqn:E.
        { apply did_eqb_spec in E. subst d. rewrite lookup_remove_same in Hl. discriminate. }
        { assert (N : d <> st_dlg t) by (intros ->; rewrite did_eqb_refl in E; discriminate). rewrite (lookup_remove_other _ did_eqb_spec) in Hl by assumption.
          destruct (I3 d x g' Hl) as (u & Hu & E1 & E2). exists u. split; [|auto]. apply drop_in. split; [assumption|].
          intros X. assert (u = t) by (apply (gen_inj (ss_tasks s)); [assumption..|congruence]). congruence. }
      * intros d t0 e r Hv. assert (d <> st_dlg t) by (intros ->; congruence). rewrite (lookup_remove_other _ did_eqb_spec) by assumption. eauto.
  - (* cancelled *)
    destruct (find_task g (ss_tasks s)) as [t|] eqn:F; [|discriminate]. apply find_task_in in F. destruct F as [Ht Hg].
    assert (K : current s t = false /\ s' = mkSts (ss_now s) (ss_table s) (drop_task g (ss_tasks s)) (ss_next s) /\ evs = []).
    { destruct (st_stage t); try discriminate; destruct (current s t); try discriminate; injection H as <- <-; auto. }
    destruct K as (Hc & -> & ->). cbn [map]. rewrite app_nil_r. destruct I as [I1 I2 I3 I4].
    constructor; cbn [ss_now ss_table ss_tasks ss_next]; [now apply drop_nodup| | |assumption].
    + intros u Hu. apply drop_in in Hu. now apply I2.
    + intros d x g' Hl. destruct (I3 d x g' Hl) as (u & Hu & E1 & E2). exists u. split; [|auto]. apply drop_in. split; [assumption|].
      intros X. assert (u = t) by (apply (gen_inj (ss_tasks s)); [assumption..|congruence]). subst u. unfold current in Hc. rewrite E2, Hl in Hc. apply N.eqb_neq in Hc. congruence.
Qed.
Lemma srun_inv : forall s tr, srun prompt s tr -> inv s tr.
Proof. intros s tr H. induction H; [apply inv_init|]. eapply inv_step; eassumption. Qed.

(** ** Schedules that poll in time *)
Definition exact (t0 now : N) (t : stask) : Prop :=
  match st_stage t with
  | SNew => now = t0
  | SWaitRefresh dl => dl = t0 + st_e t / 2 /\ now <= dl
  | SWaitExpire dl => dl = t0 + total (st_e t) (st_ref t) /\ now <= dl
  | SRemove => True
  end.
Definition exacts (s : sts) (tr : list (N * sevent)) : Prop :=
  forall t t0 e r, In t (ss_tasks s) -> current s t = true -> live (st_dlg t) tr = Some (t0, e, r) -> exact t0 (ss_now s) t.
Lemma on_time_prompt : forall s tr, srun on_time s tr -> srun prompt s tr.
Proof. intros s tr H. induction H as [|s tr a s' evs H IH [P _] ST]; [constructor|]. now apply (srun_step prompt s tr a). Qed.
Lemma exact_step : forall s tr a s' evs, inv s tr -> exacts s tr -> on_time s a -> sstep s a = Some (s', evs) ->
  exacts s' (tr ++ map (fun e => (ss_now s, e)) evs).
Proof.
  intros s tr a s' evs I X [P Q] H. destruct a as [n|d|d e r|g|g]; cbn [sstep] in H.
  - injection H as <- <-. cbn [map]. rewrite app_nil_r. intros t t0 e r Ht Hc L. cbn [ss_tasks ss_now] in *.
    specialize (X t t0 e r Ht Hc L). specialize (Q t Ht). unfold exact in *. destruct (st_stage t); lia.
  - injection H as <- <-. cbn [map]. intros t t0 e r Ht Hc L. cbn [ss_tasks ss_now] in *. rewrite live_app in L. unfold live_step in L. cbn [snd] in L.
    destruct (did_eqb d (st_dlg t)) eqn:E; [discriminate|]. apply (X t t0 e r Ht); [|exact L]. unfold current in *. cbn [ss_table] in Hc.
    rewrite (lookup_remove_other _ did_eqb_spec) in Hc; [exact Hc|]. intros K. rewrite K, did_eqb_refl in E. discriminate.
  - destruct (_ <=? llen _).
    { injection H as <- <-. cbn [map]. intros t t0 e0 r0 Ht Hc L. rewrite live_app in L. exact (X t t0 e0 r0 Ht Hc L). }
    injection H as <- <-. cbn [map]. intros t t0 e0 r0 Ht Hc L. cbn [ss_tasks ss_now] in *. rewrite live_app in L. unfold live_step in L. cbn [snd fst] in L.
    apply in_app_or in Ht. destruct Ht as [Ht|[<- | []]].
    + destruct (did_eqb d (st_dlg t)) eqn:E.
      * exfalso. apply did_eqb_spec in E. unfold current in Hc. cbn [ss_table] in Hc. rewrite E, (lookup_insert_same _ did_eqb_spec) in Hc.
        destruct (i_task _ _ I t Ht) as (_ & B & _). apply N.eqb_eq in Hc. lia.
      * apply (X t t0 e0 r0 Ht); [|exact L]. unfold current in *. cbn [ss_table] in Hc.
        rewrite (lookup_insert_other _ did_eqb_spec) in Hc; [exact Hc|]. intros K. rewrite K, did_eqb_refl in E. discriminate.
    + cbn [st_dlg] in L. rewrite did_eqb_refl in L. injection L as <- <- <-. reflexivity.
  - destruct (find_task g (ss_tasks s)) as [t|] eqn:F; [|discriminate]. apply find_task_in in F. destruct F as [Ht Hg].
    pose proof (i_task _ _ I t Ht) as (A & B & C & D).
    assert (STG : forall st tr', (forall d, live d tr' = live d tr \/ live d tr' = None) ->
       (forall t0 e r, current s t = true -> live (st_dlg t) tr = Some (t0, e, r) -> exact t0 (ss_now s) (set_stage t st)) ->
       exacts (mkSts (ss_now s) (ss_table s) (put_task (set_stage t st) (ss_tasks s)) (ss_next s)) tr').
    { intros st tr' L N u t0 e r Hu Hc Lu. cbn [ss_tasks ss_now] in *. apply put_in in Hu.
      destruct (L (st_dlg u)) as [El|El]; rewrite El in Lu; [|discriminate]. destruct Hu as [->|[Hu _]].
      - exact (N t0 e r Hc Lu).
      - exact (X u t0 e r Hu Hc Lu). }
    destruct (st_stage t) as [|dl|dl|] eqn:S.
    + injection H as <- <-. cbn [map]. rewrite app_nil_r. apply STG; [now left|]. intros t0 e r Hc L. pose proof (X t t0 e r Ht Hc L) as E. unfold exact in *. rewrite S in E.
      subst t0. cbn [set_stage st_stage st_ref st_e]. unfold total. destruct (st_ref t); cbn [set_stage st_stage st_ref st_e]; lia.
    + destruct (dl <=? ss_now s) eqn:DL; [|discriminate]. injection H as <- <-. cbn [map]. apply STG; [intros; left; now rewrite live_app|].
      intros t0 e r Hc L. pose proof (X t t0 e r Ht Hc L) as E. destruct (D Hc) as (t1 & L1 & T). unfold timing in T. rewrite S in T.
      unfold exact in *. rewrite S in E. cbn [set_stage st_stage st_ref st_e]. unfold total. destruct T as (R & _). rewrite R. lia.
    + destruct (dl <=? ss_now s) eqn:DL; [|discriminate]. injection H as <- <-. cbn [map]. apply STG; [|intros; exact Logic.I].
      intros d. rewrite live_app. unfold live_step. cbn [snd]. destruct (did_eqb (st_dlg t) d); auto.
    + injection H as <- <-. cbn [map]. rewrite app_nil_r. intros u t0 e r Hu Hc L. cbn [ss_tasks ss_now] in *. apply drop_in in Hu. destruct Hu as [Hu _].
      apply (X u t0 e r Hu); [|exact L]. unfold current in *. cbn [ss_table] in Hc.
      destruct (did_eqb (st_dlg u) (st_dlg t)) eqn:E.
      * apply did_eqb_spec in E. rewrite E, lookup_remove_same in Hc. discriminate.
      * rewrite (lookup_remove_other _ did_eqb_spec) in Hc; [exact Hc|]. intros K. rewrite K, did_eqb_refl in E. discriminate.
  - destruct (find_task g (ss_tasks s)) as [t|] eqn:F; [|discriminate].
    assert (K : s' = mkSts (ss_now s) (ss_table s) (drop_task g (ss_tasks s)) (ss_next s) /\ evs = []).
    { destruct (st_stage t); try discriminate; destruct (current s t); try discriminate; injection H as <- <-; auto. }
    destruct K as [-> ->]. cbn [map]. rewrite app_nil_r. intros u t0 e r Hu Hc L. cbn [ss_tasks ss_now] in *. apply drop_in in Hu.
    exact (X u t0 e r (proj1 Hu) Hc L).
Qed.
Lemma on_time_exact : forall s tr, srun on_time s tr -> exacts s tr.
Proof.
  intros s tr H. induction H as [|s tr a s' evs H IH P ST]; [intros t ? ? ? []|].
  apply (exact_step s tr a s' evs); try assumption. now apply srun_inv, on_time_prompt.
Qed.
