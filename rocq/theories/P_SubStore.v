(** C180: the store of subscriptions, shared by any number of threads. *)
From Coq Require Import NArith Bool String List Lia ZifyBool ZifyN ZifyNat.
Import ListNotations.
From Verif Require Import Base BaseFacts Headers Method Uri Msg Dialog Subs SubsSpec P_Subs.
Open Scope N_scope.
Open Scope list_scope.


(** ** What is always so *)
Definition sound (m : smap) : Prop := llen m <= 10000 /\ NoDup (keys m) /\ forall i s, In (i, s) m -> s_id s = i.
Lemma remove_sound : forall m i, sound m -> sound (sm_remove m i).
Proof.
  intros m i (L & D & O). unfold sm_remove. split; [|split].
  - pose proof (remove_key_length sid_eqb sid_eqb_spec i m). unfold llen in *. lia.
  - now apply (remove_key_nodup sid_eqb).
  - intros j s H. apply (remove_key_in sid_eqb sid_eqb_spec) in H. now apply O.
Qed.
Lemma insert_sound : forall m s m', sound m -> sm_insert m s = Some m' -> sound m'.
Proof.
  intros m s m' (L & D & O) H. unfold sm_insert, MAX_SUBS in H. destruct (10000 <=? llen m) eqn:E; [discriminate|]. injection H as <-.
  split; [|split].
  - unfold insert. unfold llen in *. cbn [length]. pose proof (remove_key_length sid_eqb sid_eqb_spec (s_id s) m). lia.
  - now apply (insert_nodup sid_eqb sid_eqb_spec).
  - intros i x [X | X]; [injection X as <- <-; reflexivity|]. apply (remove_key_in sid_eqb sid_eqb_spec) in X. now apply O.
Qed.
Lemma run1_sound : forall x o, sound (ms_map x) -> sound (ms_map (run1 x o)).
Proof.
  intros x o S. destruct o as [s|i| |k]; cbn [run1].
  - destruct (sm_insert (ms_map x) s) eqn:E; [cbn; now apply (insert_sound (ms_map x) s)|exact S].
  - now apply remove_sound.
  - exact S.
  - destruct (nth_error (ms_due x) k); [cbn; now apply remove_sound|exact S].
Qed.
Lemma run_sound_from : forall l x, sound (ms_map x) -> sound (ms_map (run l x)).
Proof. induction l as [|o l IH]; intros x S; [exact S|]. cbn. apply IH. now apply run1_sound. Qed.
Lemma run_sound : forall l, sound (ms_map (run l empty)).
Proof. intros l. apply run_sound_from. split; [cbn; lia|]. split; [constructor|intros i s []]. Qed.

(** ** C180 *)
(** At most 10000 subscriptions, one for each identifier, in every history. *)
Theorem C180_bounded : forall l, let m := ms_map (run l empty) in
  llen (sm_all m) <= 10000 /\ NoDup (map s_id (sm_all m)) /\ forall i s, sm_get m i = Some s -> s_id s = i.
Proof.
  intros l m. destruct (run_sound l) as (L & D & O). fold m in L, D, O. split; [unfold sm_all, llen in *; now rewrite map_length|]. split.
  - unfold sm_all. rewrite map_map. replace (map (fun p => s_id (snd p)) m) with (keys m); [exact D|]. unfold keys. apply map_ext_in.
    intros [i s] I. cbn. symmetry. now apply O.
  - intros i s G. apply O. now apply (lookup_in sid_eqb sid_eqb_spec).
Qed.
Print Assumptions C180_bounded.
(** A new subscription is stored exactly when there is room; nothing else changes. *)
Theorem C180_insert : forall l s, let m := ms_map (run l empty) in
  match sm_insert m s with
  | Some m' => llen (sm_all m) < 10000 /\ forall i, sm_get m' i = if sid_eqb i (s_id s) then Some s else sm_get m i
  | None => llen (sm_all m) = 10000
  end.
Proof.
  intros l s m. destruct (run_sound l) as (L & D & O). fold m in L, D, O. unfold sm_insert, MAX_SUBS. assert (A : llen (sm_all m) = llen m) by (unfold sm_all, llen; now rewrite map_length).
  destruct (10000 <=? llen m) eqn:E; [lia|]. split; [lia|]. intros i. unfold sm_get. destruct (sid_eqb i (s_id s)) eqn:Q.
  - apply sid_eqb_spec in Q. subst i. apply (lookup_insert_same sid_eqb sid_eqb_spec).
  - apply (lookup_insert_other sid_eqb sid_eqb_spec). intros X. subst i. rewrite (proj2 (sid_eqb_spec _ _) eq_refl) in Q. discriminate.
Qed.
Print Assumptions C180_insert.
Theorem C180_remove : forall m i j, sm_get (sm_remove m i) j = if sid_eqb j i then None else sm_get m j.
Proof.
  intros m i j. unfold sm_get, sm_remove. destruct (sid_eqb j i) eqn:Q.
  - apply sid_eqb_spec in Q. subst j. apply (lookup_remove_same sid_eqb).
  - apply (lookup_remove_other sid_eqb sid_eqb_spec). intros X. subst j. rewrite (proj2 (sid_eqb_spec _ _) eq_refl) in Q. discriminate.
Qed.
Print Assumptions C180_remove.
(** The lists hold every subscription, or every one for the event named, once. *)
Theorem C180_lists : forall l e s, let m := ms_map (run l empty) in
  (In s (sm_all m) <-> sm_get m (s_id s) = Some s)
  /\ (In s (sm_by_event m e) <-> sm_get m (s_id s) = Some s /\ si_event (s_id s) = e)
  /\ NoDup (sm_all m) /\ NoDup (sm_by_event m e).
Proof.
  intros l e s m. destruct (run_sound l) as (L & D & O). fold m in L, D, O.
  assert (A : In s (sm_all m) <-> sm_get m (s_id s) = Some s).
  { unfold sm_all, sm_get. rewrite in_map_iff. split.
    - intros ([i x] & E & I). cbn in E. subst x. rewrite (O i s I). now apply (in_lookup sid_eqb sid_eqb_spec).
    - intros G. exists (s_id s, s). split; [reflexivity|]. now apply (lookup_in sid_eqb sid_eqb_spec). }
  assert (U : NoDup (sm_all m)).
  { apply (NoDup_map_inv s_id). exact (proj1 (proj2 (C180_bounded l))). }
  split; [exact A|]. split; [|split; [exact U|unfold sm_by_event; now apply NoDup_filter]].
  unfold sm_by_event. rewrite filter_In, A, str_eqb_spec. tauto.
Qed.
Print Assumptions C180_lists.

(** ** Cleaning up *)
Lemma fold_remove : forall ks m i, sm_get (fold_left sm_remove ks m) i = if existsb (sid_eqb i) ks then None else sm_get m i.
Proof.
  induction ks as [|k ks IH]; intros m i; [reflexivity|]. cbn [fold_left existsb]. rewrite IH, C180_remove.
  destruct (sid_eqb i k), (existsb (sid_eqb i) ks); reflexivity.
Qed.
Lemma collect_in : forall m i, NoDup (keys m) -> (In i (collect m) <-> exists s, sm_get m i = Some s /\ s_state s = Ended).
Proof.
  intros m i D. unfold collect, sm_get. rewrite in_map_iff. split.
  - intros ([j s] & E & I). cbn in E. subst j. apply filter_In in I. destruct I as [I X]. cbn in X. exists s. split; [now apply (in_lookup sid_eqb sid_eqb_spec)|].
    destruct (s_state s); [discriminate|discriminate|reflexivity].
  - intros (s & G & X). exists (i, s). split; [reflexivity|]. apply filter_In. split; [now apply (lookup_in sid_eqb sid_eqb_spec)|]. cbn. now rewrite X.
Qed.
(** With nobody else at work, a cleanup removes exactly the terminated subscriptions
    and says how many there were. *)
Theorem C180_cleanup : forall l i s, let m := ms_map (run l empty) in
  (sm_get (fst (cleanup m)) i = Some s <-> sm_get m i = Some s /\ s_state s <> Ended)
  /\ snd (cleanup m) = llen (filter (fun s => is_ended (s_state s)) (sm_all m)).
Proof.
  intros l i s m. destruct (run_sound l) as (L & D & O). fold m in L, D, O. split.
  - cbn [cleanup fst]. rewrite fold_remove. destruct (existsb (sid_eqb i) (collect m)) eqn:E.
    + split; [discriminate|]. intros [G N]. apply existsb_exists in E. destruct E as (j & I & Q). apply sid_eqb_spec in Q. subst j.
      apply (collect_in m i D) in I. destruct I as (s' & G' & X). congruence.
    + split; [|tauto]. intros G. split; [exact G|]. intros X. assert (I : In i (collect m)) by (apply (collect_in m i D); eauto).
      assert (existsb (sid_eqb i) (collect m) = true) by (apply existsb_exists; exists i; split; [exact I|now apply sid_eqb_spec]). congruence.
  - cbn [cleanup snd]. unfold collect, sm_all, llen. rewrite map_length. f_equal. clear. induction m as [|[j x] m IH]; [reflexivity|]. cbn. destruct (is_ended (s_state x)); cbn; congruence.
Qed.
Print Assumptions C180_cleanup.
(** the steps of such a cleanup, one after the other, make the same *)
Lemma drops : forall ks m, run (repeat (Drop 0) (length ks)) (mkShared m ks) = mkShared (fold_left sm_remove ks m) [].
Proof. induction ks as [|k ks IH]; intros m; [reflexivity|]. cbn [length repeat run fold_left]. cbn [run1 nth_error ms_due]. apply IH. Qed.
Theorem C180_cleanup_steps : forall m, run (Collect :: repeat (Drop 0) (length (collect m))) (mkShared m []) = mkShared (fst (cleanup m)) [].
Proof. intros m. cbn [run fold_left]. cbn [run1 ms_map ms_due app]. apply drops. Qed.
Print Assumptions C180_cleanup_steps.

Lemma without_in : forall A k (l : list A) x, In x (without k l) -> In x l.
Proof.
  intros A k l x H. unfold without in H. apply in_app_or in H. rewrite <- (firstn_skipn k l). apply in_or_app. destruct H as [H | H]; [now left|right].
  destruct (skipn k l) as [|y r] eqn:E.
  - replace (skipn (S k) l) with (@nil A) in H; [destruct H|]. symmetry. apply skipn_all2. assert (length (skipn k l) = 0)%nat by now rewrite E. rewrite skipn_length in H0. lia.
  - right. replace (skipn (S k) l) with r in H; [exact H|]. clear - E. revert l E. induction k as [|k IH]; intros l E; [destruct l; cbn in *; [discriminate|now injection E]|].
    destruct l as [|a l]; [discriminate|]. cbn [skipn] in E |- *. now apply IH.
Qed.
Definition held (i : sub_id) (s : sub) (x : shared) : Prop := sound (ms_map x) /\ sm_get (ms_map x) i = Some s /\ ~ In i (ms_due x).
Lemma held_step : forall i s x o, s_state s <> Ended -> held i s x -> leaves_alone i o -> held i s (run1 x o).
Proof.
  intros i s x o N (S & G & F) A. split; [now apply run1_sound|]. destruct o as [s'|j| |k]; cbn [run1].
  - destruct (sm_insert (ms_map x) s') as [m|] eqn:E; [|now split]. cbn [ms_map ms_due]. split; [|exact F]. unfold sm_insert in E. destruct (_ <=? _); [discriminate|]. injection E as <-.
    unfold sm_get. rewrite (lookup_insert_other sid_eqb sid_eqb_spec); [exact G|]. cbn in A. congruence.
  - cbn [ms_map ms_due]. split; [|exact F]. rewrite C180_remove. destruct (sid_eqb i j) eqn:Q; [|exact G]. apply sid_eqb_spec in Q. cbn in A. congruence.
  - cbn [ms_map ms_due]. split; [exact G|]. rewrite in_app_iff. intros [I | I]; [now apply F|]. apply (collect_in (ms_map x) i (proj1 (proj2 S))) in I. destruct I as (s' & G' & X). congruence.
  - destruct (nth_error (ms_due x) k) as [j|] eqn:E; [|now split]. cbn [ms_map ms_due]. split.
    + rewrite C180_remove. destruct (sid_eqb i j) eqn:Q; [|exact G]. apply sid_eqb_spec in Q. subst j. apply nth_error_In in E. now elim F.
    + intros I. apply F. now apply (without_in _ k).
Qed.
(** A subscription that is not terminated stays until it is replaced or removed by
    name, whatever other threads do, if no cleanup that is under way had collected its
    identifier before. *)
Theorem C180_kept : forall before s after, let x := run before empty in
  llen (sm_all (ms_map x)) < 10000 -> s_state s <> Ended -> ~ In (s_id s) (ms_due x) -> Forall (leaves_alone (s_id s)) after ->
  sm_get (ms_map (run (before ++ Insert s :: after) empty)) (s_id s) = Some s.
Proof.
  intros before s after x L N F A. unfold run. rewrite fold_left_app. fold (run before empty). fold x. cbn [fold_left].
  assert (H : held (s_id s) s (run1 x (Insert s))).
  { split; [apply run1_sound; apply run_sound|]. cbn [run1]. unfold sm_insert, MAX_SUBS. unfold sm_all, llen in L. rewrite map_length in L. fold (llen (ms_map x)) in L.
    replace (10000 <=? llen (ms_map x)) with false by lia. cbn. split; [apply (lookup_insert_same sid_eqb sid_eqb_spec)|exact F]. }
  clear - N A H. revert A H. generalize (run1 x (Insert s)). induction after as [|o after IH]; intros y A H; [apply H|].
  cbn [fold_left]. apply IH; [exact (Forall_inv_tail A)|]. apply held_step; [exact N|exact H|exact (Forall_inv A)].
Qed.
Print Assumptions C180_kept.
(** some subscriptions *)
Definition ex_sub (n : nat) (x : sub_state) (e : str) : sub := mkSub (mkSid (repeat 97 n) (lit "f") (lit "t") e) x ex_a ex_a ex_a 600 1 0.
Example C180_kept_example : sm_get (ms_map (run ([Insert (ex_sub 1 Ended (lit "reg")); Collect] ++ Insert (ex_sub 2 Active (lit "reg")) :: [Drop 0; Collect; Remove (s_id (ex_sub 3 Active (lit "reg")))]) empty))
    (s_id (ex_sub 2 Active (lit "reg"))) = Some (ex_sub 2 Active (lit "reg"))
  /\ ~ In (s_id (ex_sub 2 Active (lit "reg"))) (ms_due (run [Insert (ex_sub 1 Ended (lit "reg")); Collect] empty)).
Proof. split; [vm_compute; reflexivity|]. intros [H | []]. discriminate. Qed.
(** Without that condition it may be lost: a cleanup removes what has just been
    renewed. *)
Theorem C180_kept_refuted : exists before s after, let x := run before empty in
  llen (sm_all (ms_map x)) < 10000 /\ s_state s = Active /\ Forall (leaves_alone (s_id s)) after
  /\ sm_get (ms_map (run (before ++ [Insert s]) empty)) (s_id s) = Some s
  /\ sm_get (ms_map (run (before ++ Insert s :: after) empty)) (s_id s) = None.
Proof.
  exists [Insert (ex_sub 1 Ended (lit "reg")); Collect], (ex_sub 1 Active (lit "reg")), [Drop 0].
  split; [vm_compute; reflexivity|]. split; [reflexivity|]. split; [constructor; [exact I|constructor]|]. split; vm_compute; reflexivity.
Qed.
Print Assumptions C180_kept_refuted.
(** Subscriptions to a package are not all found under its name: the whole header is
    compared, with its parameters. *)
Theorem C180_package_refuted : exists l s, sm_get (ms_map (run l empty)) (s_id s) = Some s
  /\ (exists more, si_event (s_id s) = lit "presence" ++ 59 :: more) /\ sm_by_event (ms_map (run l empty)) (lit "presence") = [].
Proof.
  exists [Insert (ex_sub 1 Active (lit "presence;id=1"))], (ex_sub 1 Active (lit "presence;id=1")).
  split; [vm_compute; reflexivity|]. split; [exists (lit "id=1"); reflexivity|vm_compute; reflexivity].
Qed.
Print Assumptions C180_package_refuted.

(** ** The full store *)
Definition fill (n : nat) : list step := map (fun k => Insert (ex_sub k Active (lit "reg"))) (seq 0 n).
Lemma filled : forall n, (n <= N.to_nat 10000)%nat -> llen (ms_map (run (fill n) empty)) = N.of_nat n
  /\ (forall i s, In (i, s) (ms_map (run (fill n) empty)) -> (length (si_call i) < n)%nat)
  /\ forall k, (k < n)%nat -> sm_get (ms_map (run (fill n) empty)) (s_id (ex_sub k Active (lit "reg"))) = Some (ex_sub k Active (lit "reg")).
Proof.
  induction n as [|n IH]; intros L; [split; [reflexivity|split; [intros i s []|intros k K; lia]]|].
  assert (E : fill (S n) = fill n ++ [Insert (ex_sub n Active (lit "reg"))]) by (unfold fill; rewrite seq_S, map_app; reflexivity).
  rewrite E. unfold run. rewrite fold_left_app. fold (run (fill n) empty). cbn [fold_left run1].
  destruct IH as (A & B & C); [lia|]. set (x := run (fill n) empty) in *. clearbody x. unfold sm_insert, MAX_SUBS. replace (10000 <=? llen (ms_map x)) with false by lia. cbn [ms_map].
  assert (Fresh : ~ In (s_id (ex_sub n Active (lit "reg"))) (keys (ms_map x))).
  { intros I. unfold keys in I. apply in_map_iff in I. destruct I as ([i s] & Q & I). cbn [fst] in Q. apply B in I. rewrite Q in I. cbn [ex_sub s_id si_call] in I. rewrite repeat_length in I. lia. }
  unfold insert. rewrite (remove_key_notin sid_eqb sid_eqb_spec) by exact Fresh. split; [|split].
  - unfold llen in *. cbn [length]. lia.
  - intros i s [Q | Q]; [injection Q as <- <-; cbn [ex_sub s_id si_call]; rewrite repeat_length; lia|]. apply B in Q. lia.
  - intros k K. unfold sm_get. cbn [lookup]. destruct (sid_eqb (s_id (ex_sub k Active (lit "reg"))) (s_id (ex_sub n Active (lit "reg")))) eqn:Q.
    + apply sid_eqb_spec in Q. apply (f_equal (fun i => length (si_call i))) in Q. cbn [ex_sub s_id si_call] in Q. rewrite !repeat_length in Q. now subst k.
    + apply C. assert (k <> n); [|lia]. intros ->. rewrite (proj2 (sid_eqb_spec _ _) eq_refl) in Q. discriminate.
Qed.
(** In a full store a subscription that is there cannot be updated. *)
Theorem C180_update_refuted : exists l s old, sm_get (ms_map (run l empty)) (s_id s) = Some old /\ s_state old = Active /\ s_state s = Ended
  /\ sm_insert (ms_map (run l empty)) s = None.
Proof.
  destruct (filled (N.to_nat 10000) (le_n _)) as (A & _ & C). exists (fill (N.to_nat 10000)), (ex_sub 0 Ended (lit "reg")), (ex_sub 0 Active (lit "reg")).
  split; [change (s_id (ex_sub 0 Ended (lit "reg"))) with (s_id (ex_sub 0 Active (lit "reg"))); apply C; lia|]. split; [reflexivity|]. split; [reflexivity|].
  unfold sm_insert, MAX_SUBS. rewrite A. now replace (10000 <=? N.of_nat (N.to_nat 10000)) with true by lia.
Qed.
Print Assumptions C180_update_refuted.
