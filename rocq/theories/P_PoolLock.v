(** C106: waiting for one connection and the threads of the runtime. *)
From Coq Require Import Arith NArith Bool List Lia ZifyBool ZifyN ZifyNat.
Import ListNotations.
From Verif Require Import Base Pool PoolLock.
Open Scope N_scope.
Open Scope list_scope.

Lemma lrun_app s l1 l2 : lrun s (l1 ++ l2) = match lrun s l1 with Some t => lrun t l2 | None => None end.
Proof. revert s. induction l1 as [|a r IH]; intro s; cbn; [reflexivity|]. destruct (lstep s a); [apply IH|reflexivity]. Qed.
(** threads that are blocked or free: none is lost *)
Lemma unblock_sum n : forall s, lk_waiting s = false -> N.of_nat n = lk_blocked s ->
  lk_free (unblock n s) + lk_blocked (unblock n s) = lk_free s + lk_blocked s
  /\ (lk_waiting (unblock n s) = false -> lk_blocked (unblock n s) = 0)
  /\ lk_sent s <= lk_sent (unblock n s) /\ (lk_queue s <= CHANNEL -> lk_queue (unblock n s) <= CHANNEL).
Proof.
  induction n as [|n IH]; intros s W E; cbn [unblock].
  - repeat split; intros; lia.
  - rewrite W. destruct (lk_queue s <? CHANNEL) eqn:K.
    + destruct (IH (mkShard (lk_free s + 1) (lk_queue s + 1) false (lk_blocked s - 1) (lk_sent s + 1))) as (A & B & C & D); cbn in *; [reflexivity|lia|].
      repeat split; [lia|exact B|lia|lia].
    + cbn. repeat split; try lia; try discriminate.
Qed.
Definition linv (w : N) (s : shard) : Prop :=
  lk_free s + lk_blocked s = w /\ (lk_waiting s = false -> lk_blocked s = 0) /\ lk_queue s <= CHANNEL.
Lemma lstep_inv w s a s' : linv w s -> lstep s a = Some s' -> linv w s'.
Proof.
  intros (E & B & Q). unfold lstep. destruct (lk_free s =? 0) eqn:F; [discriminate|]. destruct a.
  - destruct (lk_waiting s) eqn:W.
    + intro H. injection H as <-. repeat split; cbn; [lia|discriminate|exact Q].
    + destruct (lk_queue s <? CHANNEL) eqn:K; intro H; injection H as <-; repeat split; cbn; auto; try discriminate; lia.
  - destruct (0 <? lk_queue s); intro H; [|discriminate]. injection H as <-. repeat split; cbn; auto. lia.
  - destruct (lk_waiting s && (lk_queue s <? CHANNEL)) eqn:G; [|discriminate]. intro H. injection H as <-.
    destruct (unblock_sum (N.to_nat (lk_blocked s)) (mkShard (lk_free s) (lk_queue s + 1) false (lk_blocked s) (lk_sent s + 1))) as (A & C & _ & D); cbn; [reflexivity|lia|].
    split; [cbn in A; lia|]. split; [exact C|]. apply D. cbn. lia.
Qed.
Lemma lrun_inv w l : forall s s', linv w s -> lrun s l = Some s' -> linv w s'.
Proof.
  induction l as [|a r IH]; cbn; intros s s' I H; [now injection H as <-|].
  destruct (lstep s a) eqn:E; [|discriminate]. eapply IH; [|exact H]. eapply lstep_inv; eauto.
Qed.
Lemma fill n : forall s, 0 < lk_free s -> lk_waiting s = false -> lk_queue s + N.of_nat n <= CHANNEL ->
  lrun s (List.repeat LCall n) = Some (mkShard (lk_free s) (lk_queue s + N.of_nat n) false (lk_blocked s) (lk_sent s + N.of_nat n)).
Proof.
  induction n as [|n IH]; intros s F W Q; cbn [List.repeat lrun].
  - destruct s; cbn in *. subst. now rewrite !N.add_0_r.
  - unfold lstep. replace (lk_free s =? 0) with false by lia. rewrite W. replace (lk_queue s <? CHANNEL) with true by lia.
    rewrite IH; cbn; [|lia|reflexivity|lia]. do 2 f_equal; lia.
Qed.
Lemma block n : forall s, N.of_nat n = lk_free s -> lk_waiting s = true ->
  lrun s (List.repeat LCall n) = Some (mkShard 0 (lk_queue s) true (lk_blocked s + N.of_nat n) (lk_sent s)).
Proof.
  induction n as [|n IH]; intros s F W; cbn [List.repeat lrun].
  - destruct s; cbn in *. subst. now rewrite N.add_0_r.
  - unfold lstep. replace (lk_free s =? 0) with false by lia. rewrite W. rewrite IH; cbn; [|lia|reflexivity]. do 2 f_equal; lia.
Qed.

(** C106 refuted: however many threads the runtime has, enough calls for a connection
    whose channel is full block all of them; then nothing ever runs again, not even the
    writer that would make room, though the peer would take what is written *)
Theorem C106_refuted : forall threads, 0 < threads -> exists l s, lrun (shard_new threads) l = Some s
  /\ llen l = 65 + threads /\ lk_queue s = 64 /\ forall a, lstep s a = None.
Proof.
  intros w W. exists (List.repeat LCall 64 ++ LCall :: List.repeat LCall (N.to_nat w)).
  eexists. rewrite lrun_app, fill; [|exact W|reflexivity|cbn; unfold CHANNEL; lia]. cbn [shard_new lk_free lk_queue lk_blocked lk_sent lrun].
  unfold lstep at 1. cbn [lk_free lk_queue lk_waiting lk_blocked lk_sent]. replace (w =? 0) with false by lia.
  replace (0 + N.of_nat 64 <? CHANNEL) with false by reflexivity.
  rewrite block; [|cbn; lia|reflexivity]. split; [reflexivity|]. split; [|split; [reflexivity|intros a; reflexivity]].
  unfold llen. rewrite app_length. cbn [length]. rewrite !repeat_length. lia.
Qed.
Print Assumptions C106_refuted.
(** C106 (partial): as long as fewer calls are blocked than there are threads, a waiting
    call gets on: once the writer has written a payload, the call can go on and a
    payload more has been sent.  Missing: any bound on the calls that block. *)
Theorem C106_partial : forall threads l s, lrun (shard_new threads) l = Some s -> lk_waiting s = true ->
  lk_blocked s < threads ->
  exists l' s', lrun s l' = Some s' /\ (length l' <= 2)%nat /\ lk_sent s < lk_sent s'.
Proof.
  intros w l s R W B. assert (linv w s) as (E & _ & Q). { eapply lrun_inv; [|exact R]. repeat split; cbn; auto; unfold CHANNEL; lia. }
  assert (forall q, q < CHANNEL -> exists s', lstep (mkShard (lk_free s) q true (lk_blocked s) (lk_sent s)) LResume = Some s' /\ lk_sent s < lk_sent s') as X.
  { intros q Hq. unfold lstep. cbn [lk_free lk_queue lk_waiting lk_blocked lk_sent]. replace (lk_free s =? 0) with false by lia. replace (q <? CHANNEL) with true by lia. cbn [andb].
    eexists. split; [reflexivity|].
    destruct (unblock_sum (N.to_nat (lk_blocked s)) (mkShard (lk_free s) (q + 1) false (lk_blocked s) (lk_sent s + 1))) as (_ & _ & C & _); cbn; [reflexivity|lia|]. cbn in C. lia. }
  destruct (N.ltb_spec (lk_queue s) CHANNEL) as [H|H].
  - destruct (X _ H) as (s' & S & L). exists [LResume], s'. cbn [lrun]. replace (mkShard (lk_free s) (lk_queue s) true (lk_blocked s) (lk_sent s)) with s in S by (destruct s; cbn in *; now subst).
    rewrite S. split; [reflexivity|]. split; [cbn; lia|exact L].
  - destruct (X (lk_queue s - 1)) as (s' & S & L); [unfold CHANNEL in *; lia|]. exists [LWrite; LResume], s'. cbn [lrun].
    assert (lstep s LWrite = Some (mkShard (lk_free s) (lk_queue s - 1) true (lk_blocked s) (lk_sent s))) as ->.
    { unfold lstep. replace (lk_free s =? 0) with false by lia. rewrite W. replace (0 <? lk_queue s) with true by (unfold CHANNEL in *; lia). reflexivity. }
    rewrite S. split; [reflexivity|]. split; [cbn; lia|exact L].
Qed.
Print Assumptions C106_partial.
(** four threads, a full channel, one call waiting and two blocked *)
Example C106_ex : exists s, lrun (shard_new 4) (List.repeat LCall 67) = Some s /\ lk_waiting s = true /\ lk_blocked s < 4.
Proof. eexists. split; [vm_compute; reflexivity|]. split; [reflexivity|]. cbn. lia. Qed.
