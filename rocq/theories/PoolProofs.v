(** Proofs about the connection pools. *)
From Coq Require Import Arith NArith Bool String List Lia Permutation Sorted ZifyBool ZifyN ZifyNat.
Import ListNotations.
From Verif Require Import Base BaseFacts Pool PoolSpec.
Open Scope N_scope.
Open Scope list_scope.

Lemma key_eqb_spec : forall a b, key_eqb a b = true <-> a = b.
Proof.
  intros a b. destruct a, b; cbn; try (split; congruence).
  - rewrite N.eqb_eq. split; congruence.
  - rewrite str_eqb_spec. split; congruence.
  - rewrite andb_true_iff, N.eqb_eq, str_eqb_spec. split; [intros [-> ->]; reflexivity|intro E; injection E; auto].
Qed.
Lemma key_eqb_refl : forall k, key_eqb k k = true. Proof. intro. now apply key_eqb_spec. Qed.
Lemma key_eqb_neq : forall a b, key_eqb a b = false <-> a <> b.
Proof. intros. rewrite <- key_eqb_spec. destruct (key_eqb a b); split; congruence. Qed.

(** ** Lists *)
Lemma set_nth_length : forall A i (x : A) l, length (set_nth i x l) = length l.
Proof.
  intros A i x l. unfold set_nth. revert i. induction l as [|y l IH]; intros [|i]; cbn; auto.
Qed.
Lemma set_nth_0 : forall A (x y : A) l, set_nth 0 x (y :: l) = x :: l. Proof. reflexivity. Qed.
Lemma set_nth_S : forall A i (x y : A) l, set_nth (S i) x (y :: l) = y :: set_nth i x l. Proof. reflexivity. Qed.
Lemma set_nth_nil : forall A i (x : A), set_nth i x [] = []. Proof. intros A [|i] x; reflexivity. Qed.
Lemma nth_set_nth : forall A i j (x y : A) l, nth_error l i = Some y ->
  nth_error (set_nth i x l) j = if Nat.eqb i j then Some x else nth_error l j.
Proof.
  intros A i. induction i as [|i IH]; intros j x y [|z l] H; try discriminate.
  - rewrite set_nth_0. destruct j; reflexivity.
  - rewrite set_nth_S. destruct j as [|j]; [reflexivity|]. cbn in *. apply (IH j x y l H).
Qed.
Lemma filter_set_nth : forall A (f : A -> bool) i (x y : A) l, nth_error l i = Some y ->
  llen (filter f (set_nth i x l)) + (if f y then 1 else 0) = llen (filter f l) + (if f x then 1 else 0).
Proof.
  intros A f i. induction i as [|i IH]; intros x y [|z l] H; try discriminate.
  - injection H as ->. rewrite set_nth_0. cbn [filter]. destruct (f x), (f y); rewrite ?llen_cons; lia.
  - rewrite set_nth_S. cbn [filter]. cbn [nth_error] in H. specialize (IH x y l H). destruct (f z); rewrite ?llen_cons; lia.
Qed.

(** ** The map *)
Section Map.
Variable V : Type.
Implicit Types m : list (key * V).
Lemma remove_key_notin : forall k m, ~ In k (keys m) -> remove_key key_eqb k m = m.
Proof.
  intros k m. unfold remove_key, keys. induction m as [|[x v] m IH]; intro H; [reflexivity|]. cbn [filter fst map] in *.
  assert (key_eqb k x = false) as ->. { apply key_eqb_neq. intros ->. apply H. now left. }
  cbn [negb]. rewrite IH; [reflexivity|]. intro X. apply H. now right.
Qed.
Lemma remove_key_len : forall k v m, NoDup (keys m) -> lookup key_eqb k m = Some v ->
  llen (remove_key key_eqb k m) + 1 = llen m.
Proof.
  intros k v m. induction m as [|[x w] m IH]; intros N L; [discriminate|]. inversion N; subst. cbn [lookup] in L.
  unfold remove_key in *. cbn [filter fst]. destruct (key_eqb k x) eqn:E.
  - apply key_eqb_spec in E. subst x. cbn [negb]. change (filter _ m) with (remove_key key_eqb k m).
    rewrite remove_key_notin by assumption. rewrite llen_cons. lia.
  - cbn [negb]. rewrite !llen_cons. specialize (IH H2 L). lia.
Qed.
Lemma lookup_remove : forall k k' m,
  lookup key_eqb k (remove_key key_eqb k' m) = if key_eqb k k' then None else lookup key_eqb k m.
Proof.
  intros k k' m. induction m as [|[x w] m IH]; [destruct (key_eqb k k'); reflexivity|].
  unfold remove_key in *. cbn [filter fst lookup]. destruct (key_eqb k' x) eqn:E; cbn [negb].
  - apply key_eqb_spec in E. subst x. rewrite IH. destruct (key_eqb k k'); reflexivity.
  - cbn [lookup]. destruct (key_eqb k x) eqn:F; [|exact IH]. apply key_eqb_spec in F. subst x.
    destruct (key_eqb k k') eqn:G; [|reflexivity]. apply key_eqb_spec in G. subst k'. now rewrite key_eqb_refl in E.
Qed.
Lemma lookup_in' : forall k v m, lookup key_eqb k m = Some v -> In (k, v) m.
Proof. intros k v m H. exact (lookup_in key_eqb key_eqb_spec _ _ _ H). Qed.
Lemma in_lookup' : forall k v m, NoDup (keys m) -> In (k, v) m -> lookup key_eqb k m = Some v.
Proof.
  intros k v m. induction m as [|[x w] m IH]; intros N H; [destruct H|]. destruct H as [H|H]; inversion N; subst; cbn [lookup].
  - injection H as -> ->. now rewrite key_eqb_refl.
  - destruct (key_eqb k x) eqn:E; [|now apply IH]. apply key_eqb_spec in E. subst x. exfalso. apply H2.
    unfold keys. now apply (in_map fst) in H.
Qed.
End Map.

Definition ents (st : pool) := po_map st.
Lemma touch_keys : forall st k e, keys (po_map (touch st k e)) = keys (po_map st).
Proof.
  intros. unfold touch, keys. cbn. rewrite map_map. apply map_ext. intros [x y]. cbn. destruct (key_eqb x k); reflexivity.
Qed.
Lemma touch_len : forall st k e, llen (po_map (touch st k e)) = llen (po_map st).
Proof. intros. unfold touch, llen. cbn. now rewrite map_length. Qed.
Lemma touch_lookup : forall st k e x, lookup key_eqb x (po_map (touch st k e)) =
  match lookup key_eqb x (po_map st) with
  | Some f => Some (if key_eqb x k then mkEntry (en_conn f) (po_now st) else f) | None => None end.
Proof.
  intros st k e x. unfold touch. cbn [with_map po_map]. generalize (po_map st) as m. induction m as [|[y w] m IH]; [reflexivity|].
  cbn [map fst snd]. destruct (key_eqb y k) eqn:E; cbn [lookup]; destruct (key_eqb x y) eqn:F.
  - apply key_eqb_spec in F. subst. now rewrite E.
  - exact IH.
  - apply key_eqb_spec in F. subst. now rewrite E.
  - exact IH.
Qed.
Lemma abort_map : forall st c, po_map (abort_conn st c) = po_map st.
Proof. intros. unfold abort_conn. destruct (nth_error _ _); reflexivity. Qed.
Lemma abort_tasks : forall st c, po_tasks (abort_conn st c) = po_tasks st.
Proof. intros. unfold abort_conn. destruct (nth_error _ _); reflexivity. Qed.
Lemma abort_free : forall st c, po_free (abort_conn st c) = po_free st.
Proof. intros. unfold abort_conn. destruct (nth_error _ _); reflexivity. Qed.
Lemma abort_now : forall st c, po_now (abort_conn st c) = po_now st.
Proof. intros. unfold abort_conn. destruct (nth_error _ _); reflexivity. Qed.
Definition aborted (x : conn) : conn := mkConn (cn_key x) (cn_queue x) (cn_written x) (cn_run x) true (cn_sup x).
Lemma abort_conns : forall st c j, nth_error (po_conns (abort_conn st c)) j =
  if Nat.eqb c j then option_map aborted (nth_error (po_conns st) j) else nth_error (po_conns st) j.
Proof.
  intros st c j. unfold abort_conn. destruct (nth_error (po_conns st) c) as [x|] eqn:E.
  - unfold set_conn. cbn. rewrite (nth_set_nth _ c j _ x) by exact E. destruct (Nat.eqb c j) eqn:Q; [|reflexivity].
    apply Nat.eqb_eq in Q. subst j. now rewrite E.
  - destruct (Nat.eqb c j) eqn:Q; [|reflexivity]. apply Nat.eqb_eq in Q. subst j. now rewrite E.
Qed.
Lemma abort_conns_len : forall st c, length (po_conns (abort_conn st c)) = length (po_conns st).
Proof. intros st c. unfold abort_conn. destruct (nth_error _ _); [|reflexivity]. cbn. apply set_nth_length. Qed.

(** What dropping a key does *)
Lemma drop_key_map : forall st k, po_map (drop_key st k) = remove_key key_eqb k (po_map st).
Proof.
  intros st k. unfold drop_key. destruct (lookup key_eqb k (po_map st)) as [e|] eqn:E.
  - unfold release. cbn [with_free po_map]. rewrite abort_map. reflexivity.
  - symmetry. apply remove_key_notin. intro H. apply (lookup_none key_eqb key_eqb_spec) in E. contradiction.
Qed.
Lemma drop_key_tasks : forall st k, po_tasks (drop_key st k) = po_tasks st.
Proof.
  intros st k. unfold drop_key. destruct (lookup _ _ _); [|reflexivity]. unfold release. cbn [with_free po_tasks]. now rewrite abort_tasks.
Qed.
Lemma drop_key_now : forall st k, po_now (drop_key st k) = po_now st.
Proof.
  intros st k. unfold drop_key. destruct (lookup _ _ _); [|reflexivity]. unfold release. cbn [with_free po_now]. now rewrite abort_now.
Qed.
Lemma drop_key_conns_len : forall st k, length (po_conns (drop_key st k)) = length (po_conns st).
Proof.
  intros st k. unfold drop_key. destruct (lookup _ _ _); [|reflexivity]. unfold release. cbn [with_free po_conns]. now rewrite abort_conns_len.
Qed.
(** dropping only ever sets the stop flag of connections *)
Definition same_conn (x y : conn) : Prop :=
  cn_key x = cn_key y /\ cn_queue x = cn_queue y /\ cn_written x = cn_written y /\ cn_run x = cn_run y /\ cn_sup x = cn_sup y.
Definition same_conns (st st' : pool) : Prop :=
  length (po_conns st') = length (po_conns st) /\
  forall j x, nth_error (po_conns st) j = Some x -> exists y, nth_error (po_conns st') j = Some y /\ same_conn x y.
Lemma same_conns_refl : forall st, same_conns st st.
Proof. intro st. split; [reflexivity|]. intros j x H. exists x. split; [exact H|]. repeat split. Qed.
Lemma same_conns_eq : forall st st', po_conns st' = po_conns st -> same_conns st st'.
Proof. intros st st' E. split; [now rewrite E|]. intros j x H. exists x. rewrite E. split; [exact H|]. repeat split. Qed.
Lemma same_conns_trans : forall a b c, same_conns a b -> same_conns b c -> same_conns a c.
Proof.
  intros a b c [L1 H1] [L2 H2]. split; [congruence|]. intros j x H. destruct (H1 _ _ H) as (y & Hy & S1).
  destruct (H2 _ _ Hy) as (z & Hz & S2). exists z. split; [exact Hz|].
  destruct S1 as (?&?&?&?&?), S2 as (?&?&?&?&?). repeat split; congruence.
Qed.
Lemma drop_key_conns : forall st k, same_conns st (drop_key st k).
Proof.
  intros st k. split; [apply drop_key_conns_len|]. intros j x H. unfold drop_key. destruct (lookup _ _ _) as [e|]; [|exists x; split; [exact H|repeat split]].
  unfold release. cbn [with_free po_conns]. rewrite abort_conns. cbn [with_map po_conns]. rewrite H.
  destruct (Nat.eqb _ _); eexists; (split; [reflexivity|]); repeat split.
Qed.

(** ** Slots (C61) *)
Definition sinv (cfg : pcfg) (st : pool) : Prop :=
  NoDup (keys (po_map st)) /\ llen (po_map st) + in_progress st + po_free st = pc_max cfg.
Lemma drop_key_sinv : forall cfg st k, sinv cfg st -> sinv cfg (drop_key st k).
Proof.
  intros cfg st k [N S]. split.
  - rewrite drop_key_map. now apply remove_key_nodup.
  - unfold in_progress. rewrite drop_key_tasks. fold (in_progress st). rewrite drop_key_map. unfold drop_key.
    destruct (lookup key_eqb k (po_map st)) as [e|] eqn:E.
    + pose proof (remove_key_len _ k e (po_map st) N E). unfold release. cbn [with_free with_map po_free]. lia.
    + rewrite remove_key_notin; [exact S|]. now apply (lookup_none key_eqb key_eqb_spec).
Qed.
Lemma drop_idle_cases : forall cfg st k, drop_idle cfg st k = st \/ drop_idle cfg st k = drop_key st k.
Proof. intros cfg st k. unfold drop_idle. destruct (lookup _ _ _); [destruct (is_idle _ _ _)|]; auto. Qed.
Lemma drop_idle_sinv : forall cfg st k, sinv cfg st -> sinv cfg (drop_idle cfg st k).
Proof. intros cfg st k H. destruct (drop_idle_cases cfg st k) as [-> | ->]; [exact H|now apply drop_key_sinv]. Qed.
Lemma sweep_sinv : forall cfg ks st, sinv cfg st -> sinv cfg (fold_left (drop_idle cfg) ks st).
Proof. induction ks as [|k ks IH]; intros st H; [exact H|]. cbn. apply IH. now apply drop_idle_sinv. Qed.
Lemma drop_idle_tasks : forall cfg st k, po_tasks (drop_idle cfg st k) = po_tasks st.
Proof. intros cfg st k. destruct (drop_idle_cases cfg st k) as [-> | ->]; [reflexivity|apply drop_key_tasks]. Qed.
Lemma sweep_tasks : forall cfg ks st, po_tasks (fold_left (drop_idle cfg) ks st) = po_tasks st.
Proof. induction ks as [|k ks IH]; intro st; [reflexivity|]. cbn. rewrite IH. apply drop_idle_tasks. Qed.
Lemma drop_idle_conns : forall cfg st k, same_conns st (drop_idle cfg st k).
Proof. intros cfg st k. destruct (drop_idle_cases cfg st k) as [-> | ->]; [apply same_conns_refl|apply drop_key_conns]. Qed.
Lemma sweep_conns : forall cfg ks st, same_conns st (fold_left (drop_idle cfg) ks st).
Proof.
  induction ks as [|k ks IH]; intro st; [apply same_conns_refl|]. cbn.
  eapply same_conns_trans; [apply drop_idle_conns|apply IH].
Qed.

(** the slots a pool has outside its calls *)
Definition base (st : pool) : N := llen (po_map st) + po_free st.
Definition hold (t : task) : N := if opening t then 1 else 0.
Lemma drop_key_base : forall st k, NoDup (keys (po_map st)) ->
  base (drop_key st k) = base st /\ NoDup (keys (po_map (drop_key st k))).
Proof.
  intros st k N. split.
  - unfold base. rewrite drop_key_map. unfold drop_key. destruct (lookup key_eqb k (po_map st)) as [e|] eqn:E.
    + pose proof (remove_key_len _ k e (po_map st) N E). unfold release. cbn [with_free with_map po_free]. lia.
    + rewrite remove_key_notin; [reflexivity|]. now apply (lookup_none key_eqb key_eqb_spec).
  - rewrite drop_key_map. now apply remove_key_nodup.
Qed.
Lemma chan_send_same : forall st c p st', chan_send st c p = Some (Some st') ->
  po_map st' = po_map st /\ po_free st' = po_free st /\ po_tasks st' = po_tasks st /\ po_now st' = po_now st.
Proof.
  intros st c p st' H. unfold chan_send in H. destruct (nth_error _ _) as [x|]; [|discriminate]. destruct (cn_run x); [|discriminate].
  destruct (_ <? _); [|discriminate]. injection H as <-. repeat split.
Qed.
Lemma put_entry_map : forall st k e, po_map (put_entry st k e) = (k, e) :: remove_key key_eqb k (po_map st).
Proof.
  intros. unfold put_entry. cbn [with_map po_map]. unfold insert. f_equal. rewrite drop_key_map.
  apply remove_key_notin. rewrite <- (lookup_none key_eqb key_eqb_spec). rewrite lookup_remove. now rewrite key_eqb_refl.
Qed.
Lemma put_entry_base : forall st k e, NoDup (keys (po_map st)) ->
  base (put_entry st k e) = base st + 1 /\ NoDup (keys (po_map (put_entry st k e))).
Proof.
  intros st k e N. destruct (drop_key_base st k N) as [B _]. split.
  - unfold base in *. rewrite put_entry_map. rewrite drop_key_map in B. unfold put_entry. cbn [with_map po_free]. rewrite llen_cons. lia.
  - rewrite put_entry_map. cbn [keys map fst]. constructor; [|now apply remove_key_nodup].
    change (~ In k (keys (remove_key key_eqb k (po_map st)))). rewrite <- (lookup_none key_eqb key_eqb_spec). rewrite lookup_remove. now rewrite key_eqb_refl.
Qed.
Lemma put_entry_tasks : forall st k e, po_tasks (put_entry st k e) = po_tasks st.
Proof. intros. unfold put_entry. cbn [with_map po_tasks]. apply drop_key_tasks. Qed.
Lemma put_entry_conns : forall st k e, same_conns st (put_entry st k e).
Proof. intros st k e. destruct (drop_key_conns st k) as [A B]. split; [exact A|exact B]. Qed.

(** the steps of one call keep the account *)
Lemma task_step_base : forall cfg ks ok st t st' t', NoDup (keys (po_map st)) -> task_step cfg ks ok st t = Some (st', t') ->
  base st' + hold t' = base st + hold t /\ NoDup (keys (po_map st')) /\ po_tasks st' = po_tasks st.
Proof.
  intros cfg ks ok st t st' t' N H. unfold hold.
  destruct t as [k p|k p|k p|k p k'|k p k'|k p n|k p [|x r]|k p [|x r]|k p|k p c u|k p c|k p|k p r]; cbn [task_step] in H.
  - destruct (lookup key_eqb k (po_map st)) as [e|].
    + destruct (chan_send (touch st k e) (en_conn e) p) as [[st1|]|] eqn:C; [| |discriminate]; injection H as <- <-.
      * apply chan_send_same in C. destruct C as (E1 & E2 & E3 & _). unfold base. rewrite E1, E2, E3, touch_len, touch_keys. auto.
      * unfold base. rewrite touch_len, touch_keys. auto.
    + injection H as <- <-. auto.
  - injection H as <- <-. destruct (drop_key_base st k N) as [B1 B2]. rewrite drop_key_tasks. cbn. rewrite B1. auto.
  - destruct (find _ _); injection H as <- <-; auto.
  - destruct (lookup key_eqb k' (po_map st)) as [e|].
    + destruct (chan_send (touch st k' e) (en_conn e) p) as [[st1|]|] eqn:C; [| |discriminate]; injection H as <- <-.
      * apply chan_send_same in C. destruct C as (E1 & E2 & E3 & _). unfold base. rewrite E1, E2, E3, touch_len, touch_keys. auto.
      * unfold base. rewrite touch_len, touch_keys. auto.
    + injection H as <- <-. auto.
  - injection H as <- <-. destruct (drop_key_base st k' N) as [B1 B2]. rewrite drop_key_tasks. cbn. rewrite B1. auto.
  - destruct (0 <? po_free st) eqn:F; [|destruct (n =? 0); [|destruct (n =? 1)]]; injection H as <- <-; auto.
    unfold base. cbn. split; [lia|]. auto.
  - injection H as <- <-. auto.
  - injection H as <- <-. rewrite drop_idle_tasks. destruct (drop_idle_cases cfg st x) as [-> | ->]; [auto|].
    destruct (drop_key_base st x N) as [B1 B2]. cbn. rewrite B1. auto.
  - injection H as <- <-. auto.
  - injection H as <- <-. destruct (drop_key_base st x N) as [B1 B2]. rewrite drop_key_tasks. cbn. rewrite B1. auto.
  - destruct ok; injection H as <- <-; unfold base; cbn; (split; [lia|]); auto.
  - injection H as <- <-. destruct (put_entry_base st k (mkEntry c u) N) as [B1 B2]. rewrite put_entry_tasks, B1. cbn. split; [lia|]. auto.
  - destruct (chan_send st c p) as [[st1|]|] eqn:C; [| |discriminate]; injection H as <- <-; [|auto].
    apply chan_send_same in C. destruct C as (E1 & E2 & E3 & _). unfold base. rewrite E1, E2, E3. auto.
  - injection H as <- <-. destruct (drop_key_base st k N) as [B1 B2]. rewrite drop_key_tasks. cbn. rewrite B1. auto.
  - discriminate.
Qed.
Lemma release_base : forall st c, base (release st c) = base st + 1.
Proof. intros. unfold base, release. cbn [with_free po_map po_free]. rewrite abort_map. lia. Qed.
Lemma task_cancel_base : forall st t st' t', NoDup (keys (po_map st)) -> task_cancel st t = Some (st', t') ->
  base st' + hold t' = base st + hold t /\ NoDup (keys (po_map st')) /\ po_tasks st' = po_tasks st.
Proof.
  intros st t st' t' N H. unfold hold. destruct t; cbn [task_cancel] in H; try discriminate; injection H as <- <-; auto.
  - unfold base. cbn. split; [lia|]. auto.
  - rewrite release_base. unfold release. cbn [with_free po_map po_tasks]. rewrite abort_map, abort_tasks. cbn. split; [lia|]. auto.
Qed.
Lemma sinv_base : forall cfg st, sinv cfg st <-> NoDup (keys (po_map st)) /\ base st + in_progress st = pc_max cfg.
Proof. intros. unfold sinv, base. split; intros [A B]; (split; [exact A|lia]). Qed.
Lemma put_task_sinv : forall cfg st i t r st', sinv cfg st -> nth_error (po_tasks st) i = Some t ->
  (forall s t', r = Some (s, t') -> base s + hold t' = base st + hold t /\ NoDup (keys (po_map s)) /\ po_tasks s = po_tasks st) ->
  put_task i r = Some st' -> sinv cfg st'.
Proof.
  intros cfg st i t r st' I Ht K H. destruct r as [[s t']|]; [|discriminate]. cbn in H. injection H as <-.
  destruct (K s t' eq_refl) as (B & N & T). apply sinv_base in I. destruct I as [_ I]. apply sinv_base. split; [exact N|].
  unfold in_progress in *. cbn [with_tasks po_tasks]. rewrite T.
  pose proof (filter_set_nth _ opening i t' t _ Ht) as F. unfold base, hold in *. cbn [with_tasks po_map po_free]. lia.
Qed.
Lemma set_conn_same : forall st c x, po_map (set_conn st c x) = po_map st /\ po_free (set_conn st c x) = po_free st
  /\ po_tasks (set_conn st c x) = po_tasks st.
Proof. intros. repeat split. Qed.
Lemma pstep_sinv : forall cfg st a st', sinv cfg st -> pstep cfg st a = Some st' -> sinv cfg st'.
Proof.
  intros cfg st a st' I H. destruct a as [k p|i ks ok|i|c|c|c|c|ks|d]; cbn [pstep] in H.
  - injection H as <-. destruct I as [N I]. split; [exact N|]. unfold in_progress in *. cbn [with_tasks po_map po_tasks po_free].
    rewrite filter_app. cbn [filter opening]. rewrite app_nil_r. exact I.
  - destruct (nth_error (po_tasks st) i) as [t|] eqn:E; [|discriminate]. eapply put_task_sinv; [exact I|exact E| |exact H].
    intros s t' R. apply (task_step_base cfg ks ok); [apply I|exact R].
  - destruct (nth_error (po_tasks st) i) as [t|] eqn:E; [|discriminate]. eapply put_task_sinv; [exact I|exact E| |exact H].
    intros s t' R. apply task_cancel_base; [apply I|exact R].
  - destruct (nth_error (po_conns st) c) as [x|]; [|discriminate]. destruct (cn_queue x); [discriminate|]. destruct (cn_run x); [|discriminate]. injection H as <-. exact I.
  - destruct (nth_error (po_conns st) c) as [x|]; [|discriminate]. destruct (cn_run x); [|discriminate]. injection H as <-. exact I.
  - destruct (nth_error (po_conns st) c) as [x|]; [|discriminate]. destruct (_ && _); [|discriminate]. injection H as <-. exact I.
  - destruct (nth_error (po_conns st) c) as [x|]; [|discriminate]. destruct (_ && _); [|discriminate]. injection H as <-. apply drop_key_sinv. exact I.
  - injection H as <-. now apply sweep_sinv.
  - injection H as <-. exact I.
Qed.
Lemma prun_sinv : forall cfg l st st', sinv cfg st -> prun cfg st l = Some st' -> sinv cfg st'.
Proof.
  induction l as [|a l IH]; intros st st' I H; cbn in H; [now injection H as <-|].
  destruct (pstep cfg st a) as [s|] eqn:E; [|discriminate]. eapply IH; [|exact H]. eapply pstep_sinv; eassumption.
Qed.
Lemma pool_new_sinv : forall cfg, sinv cfg (pool_new cfg).
Proof. intro cfg. split; [constructor|]. unfold in_progress. cbn. lia. Qed.

(** ** Where payloads go (C104) *)
Definition task_ok (cs : list conn) (t : task) : Prop :=
  match t with
  | SOpened k _ c _ | SQueue k _ c => exists x, nth_error cs c = Some x /\ cn_key x = k
  | SAltSend k _ k' | SAltRemove k _ k' => serves k k'
  | SDone k _ (Some c) => exists x, nth_error cs c = Some x /\ serves k (cn_key x)
  | _ => True
  end.
Definition map_ok (cs : list conn) (m : list (key * entry)) : Prop :=
  forall k e, In (k, e) m -> exists x, nth_error cs (en_conn e) = Some x /\ cn_key x = k.
Definition wire_ok (cs : list conn) (acc : list (nat * list N)) : Prop :=
  (forall c x, nth_error cs c = Some x -> on c acc = cn_written x ++ cn_queue x)
  /\ (forall c p, In (c, p) acc -> (c < length cs)%nat).
Definition dinv (st : pool) (acc : list (nat * list N)) : Prop :=
  map_ok (po_conns st) (po_map st) /\ Forall (task_ok (po_conns st)) (po_tasks st) /\ wire_ok (po_conns st) acc.

(** conns may grow, keep their keys *)
Definition grows (cs cs' : list conn) : Prop :=
  forall c x, nth_error cs c = Some x -> exists y, nth_error cs' c = Some y /\ cn_key y = cn_key x.
Lemma grows_refl : forall cs, grows cs cs. Proof. intros cs c x H. eauto. Qed.
Lemma task_ok_grows : forall cs cs' t, grows cs cs' -> task_ok cs t -> task_ok cs' t.
Proof.
  intros cs cs' t G H. destruct t; cbn in *; auto.
  - destruct H as (x & E & K). destruct (G _ _ E) as (y & E' & K'). exists y. split; [exact E'|congruence].
  - destruct H as (x & E & K). destruct (G _ _ E) as (y & E' & K'). exists y. split; [exact E'|congruence].
  - destruct res as [c|]; [|exact I]. destruct H as (x & E & K). destruct (G _ _ E) as (y & E' & K'). exists y. split; [exact E'|congruence].
Qed.
Lemma map_ok_grows : forall cs cs' m, grows cs cs' -> map_ok cs m -> map_ok cs' m.
Proof.
  intros cs cs' m G H k e Hi. destruct (H k e Hi) as (x & E & K). destruct (G _ _ E) as (y & E' & K'). exists y. split; [exact E'|congruence].
Qed.
Lemma same_grows : forall st st', same_conns st st' -> grows (po_conns st) (po_conns st').
Proof. intros st st' [_ H] c x E. destruct (H _ _ E) as (y & E' & K & _). exists y. split; [exact E'|congruence]. Qed.
Lemma wire_ok_same : forall st st' acc, same_conns st st' -> wire_ok (po_conns st) acc -> wire_ok (po_conns st') acc.
Proof.
  intros st st' acc [L H] [W B]. split; [|intros c p Hp; rewrite L; eauto].
  intros c y Ey. destruct (nth_error (po_conns st) c) as [x|] eqn:Ex.
  - destruct (H _ _ Ex) as (y' & Ey' & S). rewrite Ey in Ey'. injection Ey' as <-. destruct S as (_ & Q & Wr & _). rewrite <- Q, <- Wr. now apply W.
  - apply nth_error_None in Ex. assert (nth_error (po_conns st') c <> None) as X by congruence. apply nth_error_Some in X. lia.
Qed.
Lemma map_ok_remove : forall cs m k, map_ok cs m -> map_ok cs (remove_key key_eqb k m).
Proof. intros cs m k H x e Hi. apply filter_In in Hi. apply H, Hi. Qed.
Lemma map_ok_touch : forall cs st k e, map_ok cs (po_map st) -> map_ok cs (po_map (touch st k e)).
Proof.
  intros cs st k e H x f Hi. unfold touch in Hi. cbn in Hi. apply in_map_iff in Hi. destruct Hi as ((y & g) & E & Hy). cbn in E.
  destruct (key_eqb y k); injection E as <- <-; [cbn|]; apply (H _ _ Hy).
Qed.
(** putting one payload in a channel *)
Lemma chan_send_conns : forall st c p st', chan_send st c p = Some (Some st') ->
  exists x, nth_error (po_conns st) c = Some x /\ cn_run x = true
    /\ po_conns st' = set_nth c (mkConn (cn_key x) (cn_queue x ++ [p]) (cn_written x) true (cn_abort x) (cn_sup x)) (po_conns st).
Proof.
  intros st c p st' H. unfold chan_send in H. destruct (nth_error _ _) as [x|] eqn:E; [|discriminate]. destruct (cn_run x) eqn:R; [|discriminate].
  destruct (_ <? _); [|discriminate]. injection H as <-. exists x. auto.
Qed.
Lemma set_nth_grows : forall cs c x y, nth_error cs c = Some x -> cn_key y = cn_key x -> grows cs (set_nth c y cs).
Proof.
  intros cs c x y E K j z Ez. rewrite (nth_set_nth _ c j y x) by exact E. destruct (Nat.eqb c j) eqn:Q; [|eauto].
  apply Nat.eqb_eq in Q. subst j. exists y. split; [reflexivity|congruence].
Qed.
Lemma on_app : forall c a b, on c (a ++ b) = on c a ++ on c b.
Proof. intros. unfold on. now rewrite filter_app, map_app. Qed.
Lemma wire_ok_send : forall cs c x p acc, wire_ok cs acc -> nth_error cs c = Some x ->
  wire_ok (set_nth c (mkConn (cn_key x) (cn_queue x ++ [p]) (cn_written x) true (cn_abort x) (cn_sup x)) cs) (acc ++ [(c, p)]).
Proof.
  intros cs c x p acc [W B] E. split.
  - intros j y Ey. rewrite (nth_set_nth _ c j _ x) in Ey by exact E. rewrite on_app. unfold on at 2. cbn [filter fst].
    destruct (Nat.eqb c j) eqn:Q.
    + apply Nat.eqb_eq in Q. subst j. injection Ey as <-. cbn. rewrite (W c x E). now rewrite app_assoc.
    + cbn. rewrite app_nil_r. now apply W.
  - intros j q Hj. rewrite set_nth_length. apply in_app_or in Hj. destruct Hj as [Hj|[Hj|[]]]; [eauto|]. injection Hj as <- <-.
    apply nth_error_Some. congruence.
Qed.
Lemma wire_ok_quiet : forall cs c x y acc, wire_ok cs acc -> nth_error cs c = Some x ->
  cn_written y ++ cn_queue y = cn_written x ++ cn_queue x -> wire_ok (set_nth c y cs) acc.
Proof.
  intros cs c x y acc [W B] E Q. split; [|intros j p Hj; rewrite set_nth_length; eauto].
  intros j z Ez. rewrite (nth_set_nth _ c j _ x) in Ez by exact E. destruct (Nat.eqb c j) eqn:D; [|now apply W].
  apply Nat.eqb_eq in D. subst j. injection Ez as <-. rewrite Q. now apply W.
Qed.
Lemma filter_none : forall A (f : A -> bool) l, (forall x, In x l -> f x = false) -> filter f l = [].
Proof.
  induction l as [|x l IH]; intro H; [reflexivity|]. cbn. rewrite (H x (or_introl eq_refl)). apply IH. intros y Hy. apply H. now right.
Qed.
Lemma wire_ok_new : forall cs k acc, wire_ok cs acc -> wire_ok (cs ++ [mkConn k [] [] true false true]) acc.
Proof.
  intros cs k acc [W B]. split.
  - intros c x E. destruct (Nat.lt_ge_cases c (length cs)) as [L|L].
    + rewrite nth_error_app1 in E by exact L. now apply W.
    + rewrite nth_error_app2 in E by exact L. destruct (c - length cs)%nat eqn:D; [|destruct n; discriminate].
      injection E as <-. cbn. unfold on. rewrite filter_none; [reflexivity|]. intros [j p] Hj. cbn.
      apply Nat.eqb_neq. specialize (B _ _ Hj). lia.
  - intros c p Hc. rewrite app_length. specialize (B _ _ Hc). lia.
Qed.
Definition sent (t : task) : list (nat * list N) := match t with SDone _ p (Some c) => [(c, p)] | _ => [] end.
Lemma serves_refl : forall k, serves k k. Proof. intro. now left. Qed.
Lemma same_addr_serves : forall k k', same_addr k k' = true -> serves k k'.
Proof.
  intros k k' H. destruct k, k'; try discriminate. cbn in H. apply N.eqb_eq in H. subst. right. eauto.
Qed.
Definition step_ok (st : pool) (acc : list (nat * list N)) (st' : pool) (t' : task) : Prop :=
  grows (po_conns st) (po_conns st') /\ map_ok (po_conns st') (po_map st') /\ task_ok (po_conns st') t'
  /\ wire_ok (po_conns st') (acc ++ sent t').
Lemma step_ok_same : forall st acc st' t', same_conns st st' -> map_ok (po_conns st) (po_map st) -> wire_ok (po_conns st) acc ->
  (forall k e, In (k, e) (po_map st') -> In (k, e) (po_map st)) -> task_ok (po_conns st) t' -> sent t' = [] ->
  step_ok st acc st' t'.
Proof.
  intros st acc st' t' S M W I T N. pose proof (same_grows _ _ S) as G. split; [exact G|]. split.
  - intros k e H. apply (map_ok_grows _ _ _ G M). now apply I.
  - split; [now apply (task_ok_grows _ _ _ G)|]. rewrite N, app_nil_r. now apply (wire_ok_same st).
Qed.
Lemma drop_key_in : forall st k x e, In (x, e) (po_map (drop_key st k)) -> In (x, e) (po_map st).
Proof. intros st k x e H. rewrite drop_key_map in H. apply filter_In in H. apply H. Qed.
Lemma drop_idle_in : forall cfg st k x e, In (x, e) (po_map (drop_idle cfg st k)) -> In (x, e) (po_map st).
Proof. intros cfg st k x e H. destruct (drop_idle_cases cfg st k) as [Q|Q]; rewrite Q in H; [exact H|now apply drop_key_in in H]. Qed.
Lemma sweep_in : forall cfg ks st x e, In (x, e) (po_map (fold_left (drop_idle cfg) ks st)) -> In (x, e) (po_map st).
Proof. induction ks as [|k ks IH]; intros st x e H; [exact H|]. cbn in H. apply IH in H. now apply drop_idle_in in H. Qed.
Lemma send_ok : forall st acc c p st' k, map_ok (po_conns st) (po_map st) -> wire_ok (po_conns st) acc ->
  chan_send st c p = Some (Some st') -> (exists x, nth_error (po_conns st) c = Some x /\ serves k (cn_key x)) ->
  step_ok st acc st' (SDone k p (Some c)).
Proof.
  intros st acc c p st' k M W C (x & Ex & Sx). destruct (chan_send_conns _ _ _ _ C) as (x' & Ex' & _ & Ec). rewrite Ex in Ex'. injection Ex' as <-.
  destruct (chan_send_same _ _ _ _ C) as (Em & _).
  assert (grows (po_conns st) (po_conns st')) as G by (rewrite Ec; now apply (set_nth_grows _ _ x)).
  split; [exact G|]. split; [rewrite Em; now apply (map_ok_grows _ _ _ G)|]. split.
  - cbn. destruct (G _ _ Ex) as (y & Ey & Ky). exists y. split; [exact Ey|]. now rewrite Ky.
  - rewrite Ec. now apply wire_ok_send.
Qed.
Lemma task_step_ok : forall cfg ks ok st t st' t' acc,
  map_ok (po_conns st) (po_map st) -> task_ok (po_conns st) t -> wire_ok (po_conns st) acc ->
  task_step cfg ks ok st t = Some (st', t') -> step_ok st acc st' t'.
Proof.
  intros cfg ks ok st t st' t' acc M T W H.
  destruct t as [k p|k p|k p|k p k'|k p k'|k p n|k p [|x r]|k p [|x r]|k p|k p c u|k p c|k p|k p r]; cbn [task_step] in H.
  - destruct (lookup key_eqb k (po_map st)) as [e|] eqn:L.
    + apply lookup_in' in L. destruct (M _ _ L) as (x & Ex & Kx).
      destruct (chan_send (touch st k e) (en_conn e) p) as [[st1|]|] eqn:C; [| |discriminate]; injection H as <- <-.
      * apply (send_ok (touch st k e) acc (en_conn e) p st1 k); auto; [now apply map_ok_touch|]. exists x. split; [exact Ex|]. rewrite Kx. apply serves_refl.
      * split; [apply grows_refl|]. split; [now apply map_ok_touch|]. split; [exact I|]. cbn. now rewrite app_nil_r.
    + injection H as <- <-. apply step_ok_same; auto; try exact I; try (apply same_conns_eq; reflexivity).
  - injection H as <- <-. apply step_ok_same; auto; try exact I; [apply drop_key_conns|apply drop_key_in].
  - destruct (find _ _) as [k'|] eqn:F; injection H as <- <-.
    + apply step_ok_same; auto; [apply same_conns_refl|]. cbn. apply find_some in F. apply same_addr_serves, F.
    + apply step_ok_same; auto; try exact I; try (apply same_conns_eq; reflexivity).
  - destruct (lookup key_eqb k' (po_map st)) as [e|] eqn:L.
    + apply lookup_in' in L. destruct (M _ _ L) as (x & Ex & Kx). cbn in T.
      destruct (chan_send (touch st k' e) (en_conn e) p) as [[st1|]|] eqn:C; [| |discriminate]; injection H as <- <-.
      * apply (send_ok (touch st k' e) acc (en_conn e) p st1 k); auto; [now apply map_ok_touch|]. exists x. split; [exact Ex|]. now rewrite Kx.
      * split; [apply grows_refl|]. split; [now apply map_ok_touch|]. split; [exact T|]. cbn. now rewrite app_nil_r.
    + injection H as <- <-. apply step_ok_same; auto; try exact I; try (apply same_conns_eq; reflexivity).
  - injection H as <- <-. apply step_ok_same; auto; try exact I; [apply drop_key_conns|apply drop_key_in].
  - destruct (0 <? po_free st); [|destruct (n =? 0); [|destruct (n =? 1)]]; injection H as <- <-;
      (apply step_ok_same; auto; try exact I; try (apply same_conns_eq; reflexivity)).
  - injection H as <- <-. apply step_ok_same; auto; try exact I; try (apply same_conns_eq; reflexivity).
  - injection H as <- <-. apply step_ok_same; auto; try exact I; [apply drop_idle_conns|apply drop_idle_in].
  - injection H as <- <-. apply step_ok_same; auto; try exact I; try (apply same_conns_eq; reflexivity).
  - injection H as <- <-. apply step_ok_same; auto; try exact I; [apply drop_key_conns|apply drop_key_in].
  - destruct ok; injection H as <- <-; [|apply step_ok_same; auto; try exact I; try (apply same_conns_eq; reflexivity)].
    assert (grows (po_conns st) (po_conns st ++ [mkConn k [] [] true false true])) as G.
    { intros c x E. exists x. split; [|reflexivity]. rewrite nth_error_app1; [exact E|]. apply nth_error_Some. congruence. }
    split; [exact G|]. split; [now apply (map_ok_grows _ _ _ G)|]. split.
    + cbn. exists (mkConn k [] [] true false true). split; [|reflexivity]. rewrite nth_error_app2, Nat.sub_diag by lia. reflexivity.
    + cbn. rewrite app_nil_r. now apply wire_ok_new.
  - injection H as <- <-. cbn in T. pose proof (put_entry_conns st k (mkEntry c u)) as S. pose proof (same_grows _ _ S) as G.
    split; [exact G|]. split; [|split].
    + intros k' e Hi. rewrite put_entry_map in Hi. destruct Hi as [Hi|Hi].
      * injection Hi as <- <-. destruct T as (x & Ex & Kx). destruct (G _ _ Ex) as (y & Ey & Ky). exists y. split; [exact Ey|congruence].
      * apply (map_ok_grows _ _ _ G M). apply filter_In in Hi. apply Hi.
    + apply (task_ok_grows _ _ (SQueue k p c) G). exact T.
    + cbn. rewrite app_nil_r. now apply (wire_ok_same st).
  - destruct (chan_send st c p) as [[st1|]|] eqn:C; [| |discriminate]; injection H as <- <-.
    + apply send_ok; auto. cbn in T. destruct T as (x & Ex & Kx). exists x. split; [exact Ex|]. rewrite Kx. apply serves_refl.
    + apply step_ok_same; auto; try exact I; try (apply same_conns_eq; reflexivity).
  - injection H as <- <-. apply step_ok_same; auto; try exact I; [apply drop_key_conns|apply drop_key_in].
  - discriminate.
Qed.
Lemma abort_same : forall st c, same_conns st (abort_conn st c).
Proof.
  intros st c. split; [apply abort_conns_len|]. intros j x H. rewrite abort_conns, H. destruct (Nat.eqb c j); eexists; (split; [reflexivity|]); repeat split.
Qed.
Lemma task_cancel_ok : forall st t st' t' acc,
  map_ok (po_conns st) (po_map st) -> wire_ok (po_conns st) acc ->
  task_cancel st t = Some (st', t') -> step_ok st acc st' t'.
Proof.
  intros st t st' t' acc M W H.
  destruct t; cbn [task_cancel] in H; try discriminate; injection H as <- <-; (apply step_ok_same; [|exact M|exact W| |exact I|reflexivity]); auto;
    try (apply same_conns_eq; reflexivity).
  - apply (abort_same st c).
  - intros x e H. unfold release in H. cbn [with_free po_map] in H. now rewrite abort_map in H.
Qed.

(** the sends seen by comparing states *)
Lemma newly_same : forall ts, newly ts ts = [].
Proof. induction ts as [|t ts IH]; [reflexivity|]. cbn. rewrite IH. destruct t; reflexivity. Qed.
Lemma newly_app : forall ts x, newly ts (ts ++ x) = [].
Proof. induction ts as [|t ts IH]; intro x; [reflexivity|]. cbn. rewrite IH. destruct t; reflexivity. Qed.
Lemma newly_set : forall i t t' ts, nth_error ts i = Some t -> is_done t = false -> newly ts (set_nth i t' ts) = sent t'.
Proof.
  induction i as [|i IH]; intros t t' [|x ts] H D; try discriminate.
  - injection H as ->. rewrite set_nth_0. cbn [newly]. rewrite D, newly_same, app_nil_r. destruct t'; reflexivity.
  - rewrite set_nth_S. cbn [newly]. rewrite (IH t t' ts H D). destruct x; reflexivity.
Qed.
Lemma Forall_set_nth : forall A (P : A -> Prop) i x l, Forall P l -> P x -> Forall P (set_nth i x l).
Proof.
  intros A P i x l F. revert i. induction F as [|y l Hy F IH]; intros i Hx; [rewrite set_nth_nil; constructor|].
  destruct i as [|i]; [rewrite set_nth_0|rewrite set_nth_S]; constructor; auto.
Qed.
Lemma put_task_ok : forall st i t r st' acc, dinv st acc -> nth_error (po_tasks st) i = Some t -> is_done t = false ->
  (forall s t', r = Some (s, t') -> step_ok st acc s t' /\ po_tasks s = po_tasks st) ->
  put_task i r = Some st' -> dinv st' (acc ++ newly (po_tasks st) (po_tasks st')).
Proof.
  intros st i t r st' acc (M & T & W) E D K H. destruct r as [[s t']|]; [|discriminate]. cbn in H. injection H as <-.
  destruct (K s t' eq_refl) as [(G & M' & T' & W') Ts]. cbn [with_tasks po_tasks]. rewrite Ts.
  rewrite (newly_set i t t' _ E D). split; [exact M'|]. split; [|exact W']. cbn. apply Forall_set_nth; [|exact T'].
  eapply Forall_impl; [|exact T]. intros x. now apply task_ok_grows.
Qed.
Lemma task_step_done : forall cfg ks ok st t r, task_step cfg ks ok st t = Some r -> is_done t = false.
Proof. intros cfg ks ok st t r H. destruct t; try reflexivity. discriminate. Qed.
Lemma task_cancel_done : forall st t r, task_cancel st t = Some r -> is_done t = false.
Proof. intros st t r H. destruct t; try reflexivity. discriminate. Qed.
Lemma conn_step : forall st c x y acc, dinv st acc -> nth_error (po_conns st) c = Some x -> cn_key y = cn_key x ->
  cn_written y ++ cn_queue y = cn_written x ++ cn_queue x -> dinv (set_conn st c y) acc.
Proof.
  intros st c x y acc (M & T & W) E K Q. pose proof (set_nth_grows _ _ _ y E K) as G. split; [|split]; cbn.
  - now apply (map_ok_grows _ _ _ G).
  - eapply Forall_impl; [|exact T]. intros t. now apply task_ok_grows.
  - now apply (wire_ok_quiet _ _ x).
Qed.
Lemma drop_dinv : forall st st' acc, same_conns st st' -> (forall k e, In (k, e) (po_map st') -> In (k, e) (po_map st)) ->
  po_tasks st' = po_tasks st -> dinv st acc -> dinv st' acc.
Proof.
  intros st st' acc S I T (M & Ts & W). pose proof (same_grows _ _ S) as G. split; [|split].
  - intros k e H. apply (map_ok_grows _ _ _ G M). now apply I.
  - rewrite T. eapply Forall_impl; [|exact Ts]. intros t. now apply task_ok_grows.
  - now apply (wire_ok_same st).
Qed.
Lemma pstep_dinv : forall cfg st a st' acc, NoDup (keys (po_map st)) -> dinv st acc -> pstep cfg st a = Some st' ->
  dinv st' (acc ++ newly (po_tasks st) (po_tasks st')).
Proof.
  intros cfg st a st' acc N I H. destruct a as [k p|i ks ok|i|c|c|c|c|ks|d]; cbn [pstep] in H.
  - injection H as <-. cbn [with_tasks po_tasks]. rewrite newly_app, app_nil_r. destruct I as (M & T & W). split; [exact M|]. split; [|exact W].
    cbn. apply Forall_app. split; [exact T|]. repeat constructor.
  - destruct (nth_error (po_tasks st) i) as [t|] eqn:E; [|discriminate].
    assert (is_done t = false) as D by (destruct (task_step cfg ks ok st t) eqn:X; [eapply task_step_done; exact X|discriminate]).
    eapply put_task_ok; [exact I|exact E|exact D| |exact H]. intros s t' R. split.
    + destruct I as (M & T & W). eapply task_step_ok; eauto. rewrite Forall_forall in T. apply T. eapply nth_error_In; exact E.
    + now apply (task_step_base cfg ks ok st t s t' N).
  - destruct (nth_error (po_tasks st) i) as [t|] eqn:E; [|discriminate].
    assert (is_done t = false) as D by (destruct (task_cancel st t) eqn:X; [eapply task_cancel_done; exact X|discriminate]).
    eapply put_task_ok; [exact I|exact E|exact D| |exact H]. intros s t' R. split.
    + destruct I as (M & T & W). eapply task_cancel_ok; eauto.
    + now apply (task_cancel_base st t s t' N).
  - destruct (nth_error (po_conns st) c) as [x|] eqn:E; [|discriminate]. destruct (cn_queue x) as [|p q] eqn:Q; [discriminate|]. destruct (cn_run x); [|discriminate]. injection H as <-.
    cbn [set_conn with_conns po_tasks]. rewrite newly_same, app_nil_r. eapply conn_step; eauto. cbn. rewrite Q. now rewrite <- app_assoc.
  - destruct (nth_error (po_conns st) c) as [x|] eqn:E; [|discriminate]. destruct (cn_run x); [|discriminate]. injection H as <-.
    cbn [set_conn with_conns po_tasks]. rewrite newly_same, app_nil_r. eapply conn_step; eauto.
  - destruct (nth_error (po_conns st) c) as [x|] eqn:E; [|discriminate]. destruct (_ && _); [|discriminate]. injection H as <-.
    cbn [set_conn with_conns po_tasks]. rewrite newly_same, app_nil_r. eapply conn_step; eauto.
  - destruct (nth_error (po_conns st) c) as [x|] eqn:E; [|discriminate]. destruct (_ && _); [|discriminate]. injection H as <-.
    rewrite drop_key_tasks. cbn [set_conn with_conns po_tasks]. rewrite newly_same, app_nil_r.
    eapply drop_dinv; [apply drop_key_conns|apply drop_key_in|apply drop_key_tasks|]. eapply conn_step; eauto.
  - injection H as <-. rewrite sweep_tasks, newly_same, app_nil_r. eapply drop_dinv; [apply sweep_conns|apply sweep_in|apply sweep_tasks|exact I].
  - injection H as <-. cbn [po_tasks]. rewrite newly_same, app_nil_r. exact I.
Qed.
Lemma prun_dinv : forall cfg l st st' acc, sinv cfg st -> dinv st acc -> prun cfg st l = Some st' ->
  dinv st' (acc ++ accepted cfg st l).
Proof.
  induction l as [|a l IH]; intros st st' acc S I H; cbn in H |- *; [injection H as <-; now rewrite app_nil_r|].
  destruct (pstep cfg st a) as [s|] eqn:E; [|discriminate]. rewrite app_assoc. apply IH; [eapply pstep_sinv; eassumption| |exact H].
  eapply pstep_dinv; [apply S|exact I|exact E].
Qed.
Lemma pool_new_dinv : forall cfg, dinv (pool_new cfg) [].
Proof.
  intro cfg. split; [intros k e []|]. split; [constructor|]. split; [|intros c p []]. intros c x H. destruct c; discriminate.
Qed.

(** ** A working connection stays (C62) *)
(** what must hold of the connections and the map *)
Definition kept (k : key) (c : nat) (cs : list conn) (m : list (key * entry)) : Prop :=
  (exists e, lookup key_eqb k m = Some e /\ en_conn e = c)
  /\ (exists x, nth_error cs c = Some x /\ cn_run x = true /\ cn_abort x = false)
  /\ (forall j x, j <> c -> nth_error cs j = Some x -> cn_key x = k -> cn_sup x = false).
Lemma kept_key : forall k c cs m, kept k c cs m -> map_ok cs m -> exists x, nth_error cs c = Some x /\ cn_key x = k.
Proof. intros k c cs m ((e & L & <-) & _) M. apply lookup_in' in L. exact (M _ _ L). Qed.
Lemma kept_other : forall k c cs m k' e, kept k c cs m -> map_ok cs m -> lookup key_eqb k' m = Some e -> k' <> k -> en_conn e <> c.
Proof.
  intros k c cs m k' e K M L D E. destruct (kept_key _ _ _ _ K M) as (x & Ex & Kx). apply lookup_in' in L. destruct (M _ _ L) as (y & Ey & Ky). congruence.
Qed.
Lemma kept_conn : forall k c cs m j x y, kept k c cs m -> nth_error cs j = Some x -> j <> c -> cn_key y = cn_key x ->
  (cn_sup y = cn_sup x \/ cn_sup y = false) -> kept k c (set_nth j y cs) m.
Proof.
  intros k c cs m j x y (A & (z & Ez & Rz & Az) & B) E D K S. split; [exact A|]. split.
  - exists z. rewrite (nth_set_nth _ j c y x) by exact E. apply Nat.eqb_neq in D. rewrite D. auto.
  - intros i w Di Ew Kw. rewrite (nth_set_nth _ j i y x) in Ew by exact E. destruct (Nat.eqb j i) eqn:Q; [|eauto].
    injection Ew as <-. destruct S as [S|S]; [|exact S]. rewrite S. apply (B j x D E). congruence.
Qed.
Lemma kept_own : forall k c cs m x y, kept k c cs m -> nth_error cs c = Some x -> cn_run y = true -> cn_abort y = cn_abort x ->
  kept k c (set_nth c y cs) m.
Proof.
  intros k c cs m x y (A & (z & Ez & Rz & Az) & B) E R Ab. split; [exact A|]. split.
  - exists y. rewrite (nth_set_nth _ c c y x) by exact E. rewrite Nat.eqb_refl. split; [reflexivity|]. split; [exact R|]. congruence.
  - intros i w Di Ew Kw. rewrite (nth_set_nth _ c i y x) in Ew by exact E. assert (Nat.eqb c i = false) as Q by (apply Nat.eqb_neq; congruence).
    rewrite Q in Ew. eauto.
Qed.
Lemma kept_abort : forall k c st j, kept k c (po_conns st) (po_map st) -> j <> c -> kept k c (po_conns (abort_conn st j)) (po_map (abort_conn st j)).
Proof.
  intros k c st j K D. rewrite abort_map. unfold abort_conn. destruct (nth_error (po_conns st) j) as [x|] eqn:E; [|exact K].
  cbn. eapply kept_conn; eauto.
Qed.
Definition keptp (k : key) (c : nat) (st : pool) : Prop := kept k c (po_conns st) (po_map st) /\ map_ok (po_conns st) (po_map st).
Lemma drop_key_map_ok : forall st k, map_ok (po_conns st) (po_map st) -> map_ok (po_conns (drop_key st k)) (po_map (drop_key st k)).
Proof.
  intros st k M. intros x e H. apply drop_key_in in H. destruct (M _ _ H) as (y & Ey & Ky). destruct (drop_key_conns st k) as [_ S].
  destruct (S _ _ Ey) as (z & Ez & Kz & _). exists z. split; [exact Ez|congruence].
Qed.
Lemma kept_drop : forall k c st k', keptp k c st -> k' <> k -> keptp k c (drop_key st k').
Proof.
  intros k c st k' [K M] D. split; [|now apply drop_key_map_ok]. unfold drop_key.
  destruct (lookup key_eqb k' (po_map st)) as [e|] eqn:L; [|exact K].
  unfold release. cbn [with_free po_conns po_map]. apply kept_abort; [|eapply kept_other; eauto].
  cbn. destruct K as ((e' & L' & E') & B & C). split; [|split; [exact B|exact C]]. exists e'. split; [|exact E'].
  rewrite lookup_remove. assert (key_eqb k k' = false) as -> by (apply key_eqb_neq; congruence). exact L'.
Qed.
Lemma kept_idle : forall cfg k c st k', keptp k c st -> k' <> k -> keptp k c (drop_idle cfg st k').
Proof. intros cfg k c st k' K D. destruct (drop_idle_cases cfg st k') as [-> | ->]; [exact K|now apply kept_drop]. Qed.
Lemma kept_sweep : forall cfg k c ks st, keptp k c st -> ~ In k ks -> keptp k c (fold_left (drop_idle cfg) ks st).
Proof.
  induction ks as [|x ks IH]; intros st K N; [exact K|]. cbn. apply IH; [|intro H; apply N; now right].
  apply kept_idle; [exact K|]. intros ->. apply N. now left.
Qed.
Lemma kept_touch : forall k c st k' e, keptp k c st -> keptp k c (touch st k' e).
Proof.
  intros k c st k' e [((e' & L & E) & B & C) M]. split; [|now apply map_ok_touch]. split; [|split; [exact B|exact C]].
  rewrite touch_lookup, L. destruct (key_eqb k k'); eexists; (split; [reflexivity|exact E]).
Qed.
Lemma kept_put : forall k c st k' e, keptp k c st -> k' <> k -> (exists x, nth_error (po_conns st) (en_conn e) = Some x /\ cn_key x = k') -> keptp k c (put_entry st k' e).
Proof.
  intros k c st k' e K D X. pose proof (kept_drop k c st k' K D) as [K' M']. split.
  - destruct K' as ((e' & L' & E') & B & C). split; [|split; [exact B|exact C]]. exists e'. split; [|exact E'].
    rewrite put_entry_map. cbn [lookup]. assert (key_eqb k k' = false) as -> by (apply key_eqb_neq; congruence).
    rewrite drop_key_map in L'. exact L'.
  - intros x f H. rewrite put_entry_map in H. destruct X as (y & Ey & Ky). destruct (put_entry_conns st k' e) as [_ S]. destruct H as [H|H].
    + injection H as <- <-. destruct (S _ _ Ey) as (z & Ez & Kz & _). exists z. split; [exact Ez|congruence].
    + apply filter_In in H. destruct H as [H _]. destruct K as [_ M]. destruct (M _ _ H) as (y' & Ey' & Ky').
      destruct (S _ _ Ey') as (z & Ez & Kz & _). exists z. split; [exact Ez|congruence].
Qed.
(** sending: on [c] it works or waits, elsewhere it does not matter *)
Lemma kept_send : forall k c st j p, keptp k c st -> (exists x, nth_error (po_conns st) j = Some x) ->
  match chan_send st j p with
  | Some (Some st') => keptp k c st'
  | Some None => j <> c
  | None => True
  end.
Proof.
  intros k c st j p [K M] (x & Ex). unfold chan_send. rewrite Ex. destruct (cn_run x) eqn:R.
  - destruct (_ <? _); [|exact I]. pose proof (set_nth_grows _ _ _ (mkConn (cn_key x) (cn_queue x ++ [p]) (cn_written x) true (cn_abort x) (cn_sup x)) Ex eq_refl) as G.
    split; cbn; [|now apply (map_ok_grows _ _ _ G)]. destruct (Nat.eq_dec j c) as [-> |D]; [eapply kept_own; eauto|eapply kept_conn; eauto].
  - intros ->. destruct K as (_ & (z & Ez & Rz & _) & _). congruence.
Qed.
Lemma task_step_kept : forall cfg ks ok st t st' t' k c, keptp k c st -> task_ok (po_conns st) t -> ~ concerns k c t -> ~ In k ks ->
  task_step cfg ks ok st t = Some (st', t') -> ~ evicting k t' -> keptp k c st' /\ ~ concerns k c t'.
Proof.
  intros cfg ks ok st t st' t' k c K T C Nk H Ev.
  assert (forall k0 e, lookup key_eqb k0 (po_map st) = Some e -> exists x, nth_error (po_conns st) (en_conn e) = Some x) as Ex.
  { intros k0 e L. destruct K as [_ M]. apply lookup_in' in L. destruct (M _ _ L) as (x & E & _). eauto. }
  assert (forall k0 e, lookup key_eqb k0 (po_map st) = Some e -> en_conn e <> c -> k0 <> k) as Nc.
  { intros k0 e L D ->. destruct K as [((e' & L' & E') & _) _]. congruence. }
  destruct t as [k0 p|k0 p|k0 p|k0 p k'|k0 p k'|k0 p n|k0 p [|x r]|k0 p [|x r]|k0 p|k0 p d u|k0 p d|k0 p|k0 p r]; cbn [task_step] in H; cbn [concerns] in C.
  - destruct (lookup key_eqb k0 (po_map st)) as [e|] eqn:L.
    + pose proof (kept_send k c (touch st k0 e) (en_conn e) p (kept_touch _ _ _ _ _ K) (Ex _ _ L)) as X.
      destruct (chan_send (touch st k0 e) (en_conn e) p) as [[st1|]|]; [| |discriminate]; injection H as <- <-.
      * split; [exact X|]. cbn. auto.
      * split; [now apply kept_touch|]. cbn. eapply Nc; eauto.
    + injection H as <- <-. split; [exact K|]. cbn. intros ->. destruct K as [((e' & L' & E') & _) _]. congruence.
  - injection H as <- <-. split; [now apply kept_drop|]. exact C.
  - destruct (find _ _); injection H as <- <-; (split; [exact K|exact C]).
  - destruct (lookup key_eqb k' (po_map st)) as [e|] eqn:L.
    + pose proof (kept_send k c (touch st k' e) (en_conn e) p (kept_touch _ _ _ _ _ K) (Ex _ _ L)) as X.
      destruct (chan_send (touch st k' e) (en_conn e) p) as [[st1|]|]; [| |discriminate]; injection H as <- <-.
      * split; [exact X|]. cbn. auto.
      * split; [now apply kept_touch|]. cbn. intros [Y|Y]; [now apply C|]. subst k'. now apply (Nc k e L X).
    + injection H as <- <-. split; [exact K|exact C].
  - injection H as <- <-. split; [apply kept_drop; [exact K|]; intro E; apply C; now right|]. cbn. intro E. apply C. now left.
  - destruct (0 <? po_free st); [|destruct (n =? 0); [|destruct (n =? 1)]]; injection H as <- <-.
    + split; [exact K|exact C].
    + split; [exact K|]. cbn. intros [E|E]; contradiction.
    + split; [exact K|]. cbn in *. intros [E|E]; contradiction.
    + split; [exact K|]. cbn. auto.
  - injection H as <- <-. split; [exact K|]. cbn. intro E. apply C. now left.
  - injection H as <- <-. split; [apply kept_idle; [exact K|]; intros ->; apply C; right; now left|].
    cbn. intros [E|E]; apply C; [now left|right; now right].
  - injection H as <- <-. split; [exact K|]. cbn. intro E. apply C. now left.
  - injection H as <- <-. split; [apply kept_drop; [exact K|]; intros ->; apply C; right; now left|].
    cbn. intros [E|E]; apply C; [now left|right; now right].
  - destruct ok; injection H as <- <-; [|split; [exact K|cbn; auto]]. split; [|exact C]. destruct K as [(A & (z & Ez & Rz & Az) & B) M].
    assert (forall j y, nth_error (po_conns st) j = Some y -> nth_error (po_conns st ++ [mkConn k0 [] [] true false true]) j = Some y) as Up.
    { intros j y E. rewrite nth_error_app1; [exact E|]. apply nth_error_Some. congruence. }
    split; cbn.
    + split; [exact A|]. split; [exists z; auto|]. intros j y D E Ky. destruct (Nat.lt_ge_cases j (length (po_conns st))) as [L|L].
      * rewrite nth_error_app1 in E by exact L. eauto.
      * rewrite nth_error_app2 in E by exact L. destruct (j - length (po_conns st))%nat; [|destruct n; discriminate]. injection E as <-. cbn in Ky. contradiction.
    + intros y e Hy. destruct (M _ _ Hy) as (w & Ew & Kw). eauto.
  - injection H as <- <-. cbn in T. split; [apply kept_put; auto|]. cbn. tauto.
  - cbn in T. destruct T as (x & Exd & Kx). pose proof (kept_send k c st d p K (ex_intro _ x Exd)) as X.
    destruct (chan_send st d p) as [[st1|]|]; [| |discriminate]; injection H as <- <-.
    + split; [exact X|]. cbn. auto.
    + split; [exact K|]. cbn. intros ->. apply C. auto.
  - injection H as <- <-. split; [now apply kept_drop|]. cbn. auto.
  - discriminate.
Qed.
Lemma In_nth_set : forall A i (x y : A) l, In y (set_nth i x l) -> y = x \/ In y l.
Proof.
  intros A i x y l. revert i. induction l as [|z l IH]; intros i H; [rewrite set_nth_nil in H; destruct H|].
  destruct i as [|i]; [rewrite set_nth_0 in H|rewrite set_nth_S in H]; destruct H as [H|H]; auto.
  - right. now right.
  - right. now left.
  - destruct (IH _ H); auto. right. now right.
Qed.
Lemma set_nth_In : forall A i (x y : A) l, nth_error l i = Some y -> In x (set_nth i x l).
Proof. intros A i x y l H. apply (nth_error_In _ i). rewrite (nth_set_nth _ i i x y) by exact H. now rewrite Nat.eqb_refl. Qed.
Lemma pstep_kept : forall cfg st a st' k c acc, NoDup (keys (po_map st)) -> dinv st acc ->
  keptp k c st -> (forall t, In t (po_tasks st) -> ~ concerns k c t) ->
  match a with AEnd c' => c' <> c | ASweep ks => ~ In k ks | AStep _ ks _ => ~ In k ks | _ => True end ->
  pstep cfg st a = Some st' -> (forall t, In t (po_tasks st') -> ~ evicting k t) ->
  keptp k c st' /\ forall t, In t (po_tasks st') -> ~ concerns k c t.
Proof.
  intros cfg st a st' k c acc Nd (M & T & W) K C R H Ev. rewrite Forall_forall in T.
  destruct a as [k0 p|i ks ok|i|d|d|d|d|ks|d]; cbn [pstep] in H.
  - injection H as <-. split; [exact K|]. cbn. intros t Ht. apply in_app_or in Ht. destruct Ht as [Ht|[<-|[]]]; [auto|cbn; auto].
  - destruct (nth_error (po_tasks st) i) as [t|] eqn:E; [|discriminate]. destruct (task_step cfg ks ok st t) as [[s t']|] eqn:X; [|discriminate].
    cbn in H. injection H as <-. pose proof (nth_error_In _ _ E) as Hi. destruct (task_step_base _ _ _ _ _ _ _ Nd X) as (_ & _ & Ts).
    cbn [with_tasks po_tasks] in Ev |- *. rewrite Ts in Ev |- *.
    destruct (task_step_kept cfg ks ok st t s t' k c K (T _ Hi) (C _ Hi) R X) as [K' C'].
    { apply Ev. eapply set_nth_In; exact E. }
    split; [exact K'|]. intros y Hy. apply In_nth_set in Hy. destruct Hy as [-> |Hy]; auto.
  - destruct (nth_error (po_tasks st) i) as [t|] eqn:E; [|discriminate]. destruct (task_cancel st t) as [[s t']|] eqn:X; [|discriminate].
    cbn in H. injection H as <-. pose proof (nth_error_In _ _ E) as Hi. destruct (task_cancel_base _ _ _ _ Nd X) as (_ & _ & Ts).
    cbn [with_tasks po_tasks]. rewrite Ts.
    assert (keptp k c s /\ ~ concerns k c t') as [K' C'].
    { specialize (T _ Hi). specialize (C _ Hi). destruct t; cbn [task_cancel] in X; try discriminate; injection X as <- <-; (split; [|cbn; auto]); try exact K.
      cbn in T, C. destruct T as (x & Ex & Kx). destruct K as [K1 K2]. split.
      - unfold release. cbn [with_free po_conns po_map]. apply kept_abort; [exact K1|]. intros ->. destruct (kept_key _ _ _ _ K1 K2) as (y & Ey & Ky). congruence.
      - unfold release. cbn [with_free po_conns po_map]. rewrite abort_map. apply (map_ok_grows _ _ _ (same_grows _ _ (abort_same st c0)) K2). }
    split; [exact K'|]. intros y Hy. apply In_nth_set in Hy. destruct Hy as [-> |Hy]; auto.
  - destruct (nth_error (po_conns st) d) as [x|] eqn:E; [|discriminate]. destruct (cn_queue x) as [|p q]; [discriminate|]. destruct (cn_run x) eqn:Rn; [|discriminate]. injection H as <-.
    split; [|exact C]. destruct K as [K1 K2]. split; cbn; [|apply (map_ok_grows _ _ _ (set_nth_grows _ _ _ (mkConn (cn_key x) q (cn_written x ++ [p]) true (cn_abort x) (cn_sup x)) E eq_refl) K2)].
    destruct (Nat.eq_dec d c) as [-> |D]; [eapply kept_own; eauto|eapply kept_conn; eauto].
  - destruct (nth_error (po_conns st) d) as [x|] eqn:E; [|discriminate]. destruct (cn_run x) eqn:Rn; [|discriminate]. injection H as <-.
    split; [|exact C]. destruct K as [K1 K2]. split; cbn; [eapply kept_conn; eauto|].
    apply (map_ok_grows _ _ _ (set_nth_grows _ _ _ (mkConn (cn_key x) (cn_queue x) (cn_written x) false (cn_abort x) (cn_sup x)) E eq_refl) K2).
  - destruct (nth_error (po_conns st) d) as [x|] eqn:E; [|discriminate]. destruct (cn_run x && cn_abort x) eqn:Rn; [|discriminate]. injection H as <-.
    split; [|exact C]. destruct K as [K1 K2]. split; cbn.
    + eapply kept_conn; eauto. intros ->. destruct K1 as (_ & (z & Ez & Rz & Az) & _). rewrite E in Ez. injection Ez as <-. rewrite Az, andb_false_r in Rn. discriminate.
    + apply (map_ok_grows _ _ _ (set_nth_grows _ _ _ (mkConn (cn_key x) (cn_queue x) (cn_written x) false (cn_abort x) (cn_sup x)) E eq_refl) K2).
  - destruct (nth_error (po_conns st) d) as [x|] eqn:E; [|discriminate]. destruct (negb (cn_run x) && cn_sup x) eqn:Rn; [|discriminate]. injection H as <-.
    rewrite drop_key_tasks. split; [|exact C]. apply andb_true_iff in Rn. destruct Rn as [R1 R2]. destruct K as [K1 K2].
    assert (d <> c) as D. { intros ->. destruct K1 as (_ & (z & Ez & Rz & Az) & _). rewrite E in Ez. injection Ez as <-. rewrite Rz in R1. discriminate. }
    apply kept_drop.
    + split; cbn; [eapply kept_conn; eauto|].
      apply (map_ok_grows _ _ _ (set_nth_grows _ _ _ (mkConn (cn_key x) (cn_queue x) (cn_written x) false (cn_abort x) false) E eq_refl) K2).
    + intro Q. destruct K1 as (_ & _ & B). rewrite (B d x D E Q) in R2. discriminate.
  - injection H as <-. rewrite sweep_tasks. split; [now apply kept_sweep|exact C].
  - injection H as <-. split; [exact K|exact C].
Qed.
Lemma prun_kept : forall cfg k c l st st' acc, sinv cfg st -> dinv st acc ->
  keptp k c st -> (forall t, In t (po_tasks st) -> ~ concerns k c t) -> spared cfg k c st l -> prun cfg st l = Some st' ->
  keptp k c st'.
Proof.
  induction l as [|a l IH]; intros st st' acc S D K C Sp H; cbn in H; [now injection H as <-|].
  destruct (pstep cfg st a) as [s|] eqn:E; [|discriminate]. cbn [spared] in Sp. destruct Sp as [R Sp]. rewrite E in Sp. destruct Sp as [Ev Sp].
  destruct (pstep_kept cfg st a s k c acc (proj1 S) D K C R E Ev) as [K' C'].
  eapply IH; [eapply pstep_sinv; eassumption|eapply pstep_dinv; [apply S|exact D|exact E]|exact K'|exact C'|exact Sp|exact H].
Qed.

(** ** Making room (C105) *)
Lemma drop_keys_map : forall ks st, po_map (fold_left drop_key ks st) = filter (fun x => negb (existsb (key_eqb (fst x)) ks)) (po_map st).
Proof.
  induction ks as [|k ks IH]; intro st; cbn [fold_left existsb].
  - induction (po_map st) as [|x m IHm]; [reflexivity|]. cbn. f_equal. exact IHm.
  - rewrite IH, drop_key_map. unfold remove_key. induction (po_map st) as [|x m IHm]; [reflexivity|]. cbn [filter].
    assert (key_eqb (fst x) k = key_eqb k (fst x)) as ->.
    { destruct (key_eqb k (fst x)) eqn:E; [apply key_eqb_spec in E; subst; apply key_eqb_refl|]. apply key_eqb_neq in E. apply key_eqb_neq. congruence. }
    destruct (key_eqb k (fst x)); cbn [negb orb filter]; [exact IHm|]. destruct (existsb _ ks); cbn [negb]; rewrite IHm; reflexivity.
Qed.
Lemma drop_keys_base : forall ks st, NoDup (keys (po_map st)) ->
  base (fold_left drop_key ks st) = base st /\ NoDup (keys (po_map (fold_left drop_key ks st))).
Proof.
  induction ks as [|k ks IH]; intros st N; [auto|]. cbn. destruct (drop_key_base st k N) as [B N']. destruct (IH _ N') as [B' N'']. split; [congruence|exact N''].
Qed.
Definition idleb (cfg : pcfg) (now : N) (x : key * entry) : bool := pc_idle cfg <? now - en_used (snd x).
Lemma drop_idle_now : forall cfg st k, po_now (drop_idle cfg st k) = po_now st.
Proof. intros cfg st k. destruct (drop_idle_cases cfg st k) as [-> | ->]; [reflexivity|apply drop_key_now]. Qed.
Lemma filter_true_id : forall A (l : list A), filter (fun _ => true) l = l.
Proof. induction l as [|x l IH]; [reflexivity|]. cbn. now rewrite IH. Qed.
Lemma filter_ext_in' : forall A (f g : A -> bool) l, (forall x, In x l -> f x = g x) -> filter f l = filter g l.
Proof. intros. now apply filter_ext_in. Qed.
Lemma drop_idle_map : forall cfg st k, NoDup (keys (po_map st)) ->
  po_map (drop_idle cfg st k) = filter (fun x => negb (key_eqb (fst x) k && idleb cfg (po_now st) x)) (po_map st).
Proof.
  intros cfg st k N. assert (forall x, In x (po_map st) -> key_eqb (fst x) k = key_eqb k (fst x)) as Sy.
  { intros x _. destruct (key_eqb k (fst x)) eqn:E; [apply key_eqb_spec in E; subst; apply key_eqb_refl|]. apply key_eqb_neq in E. apply key_eqb_neq. congruence. }
  unfold drop_idle. destruct (lookup key_eqb k (po_map st)) as [e|] eqn:L.
  - pose proof (lookup_in' _ _ _ _ L) as Li. destruct (is_idle cfg st e) eqn:I.
    + rewrite drop_key_map. unfold remove_key. apply filter_ext_in'. intros [x f] Hx. rewrite (Sy _ Hx). cbn [fst].
      destruct (key_eqb k x) eqn:E; [|reflexivity]. apply key_eqb_spec in E. subst x. apply (in_lookup' _ _ _ _ N) in Hx. rewrite L in Hx. injection Hx as <-.
      unfold idleb. cbn. unfold is_idle in I. now rewrite I.
    + rewrite <- (filter_true_id _ (po_map st)) at 1.
      apply filter_ext_in'. intros [x f] Hx. rewrite (Sy _ Hx). cbn [fst]. destruct (key_eqb k x) eqn:E; [|reflexivity]. apply key_eqb_spec in E. subst x.
      apply (in_lookup' _ _ _ _ N) in Hx. rewrite L in Hx. injection Hx as <-. unfold idleb. cbn. unfold is_idle in I. now rewrite I.
  - rewrite <- (filter_true_id _ (po_map st)) at 1. apply filter_ext_in'. intros [x f] Hx. rewrite (Sy _ Hx). cbn [fst]. destruct (key_eqb k x) eqn:E; [|reflexivity].
    apply key_eqb_spec in E. subst x. apply (in_lookup' _ _ _ _ N) in Hx. congruence.
Qed.
Lemma filter_filter' : forall A (f g : A -> bool) l, filter f (filter g l) = filter (fun x => g x && f x) l.
Proof. induction l as [|x l IH]; [reflexivity|]. cbn. destruct (g x); cbn; [destruct (f x)|]; now rewrite IH. Qed.
Lemma sweep_map : forall cfg ks st, NoDup (keys (po_map st)) ->
  po_map (fold_left (drop_idle cfg) ks st) = filter (fun x => negb (existsb (key_eqb (fst x)) ks && idleb cfg (po_now st) x)) (po_map st)
  /\ base (fold_left (drop_idle cfg) ks st) = base st /\ NoDup (keys (po_map (fold_left (drop_idle cfg) ks st)))
  /\ po_now (fold_left (drop_idle cfg) ks st) = po_now st.
Proof.
  induction ks as [|k ks IH]; intros st N.
  - cbn. split; [|auto]. now rewrite filter_true_id.
  - cbn [fold_left].
    assert (base (drop_idle cfg st k) = base st /\ NoDup (keys (po_map (drop_idle cfg st k)))) as [B N'].
    { destruct (drop_idle_cases cfg st k) as [-> | ->]; [auto|now apply drop_key_base]. }
    destruct (IH _ N') as (M & B' & N'' & W). split; [|split; [congruence|split; [exact N''|rewrite W; apply drop_idle_now]]].
    rewrite M, drop_idle_map, drop_idle_now, filter_filter' by exact N. apply filter_ext_in'. intros x _. cbn [existsb].
    destruct (key_eqb (fst x) k), (existsb _ ks), (idleb _ _ x); reflexivity.
Qed.
Lemma cleanup_map : forall cfg st, NoDup (keys (po_map st)) -> let st' := fold_left (drop_idle cfg) (keys (po_map st)) st in
  po_map st' = filter (fun x => negb (idleb cfg (po_now st) x)) (po_map st) /\ base st' = base st /\ NoDup (keys (po_map st')) /\ po_now st' = po_now st.
Proof.
  intros cfg st N st'. destruct (sweep_map cfg (keys (po_map st)) st N) as (M & R). split; [|exact R]. unfold st'. rewrite M.
  apply filter_ext_in'. intros x Hx. replace (existsb (key_eqb (fst x)) (keys (po_map st))) with true; [reflexivity|]. symmetry. apply existsb_exists.
  exists (fst x). split; [unfold keys; now apply in_map|apply key_eqb_refl].
Qed.
(** sorting *)
Lemma ins_used_perm : forall x l, Permutation (ins_used x l) (x :: l).
Proof.
  intros x l. induction l as [|y l IH]; [reflexivity|]. cbn. destruct (_ <=? _); [reflexivity|]. rewrite IH. apply perm_swap.
Qed.
Lemma sort_used_perm : forall l, Permutation (sort_used l) l.
Proof. induction l as [|x l IH]; [reflexivity|]. cbn. rewrite ins_used_perm. now rewrite IH. Qed.
Definition by_use (x y : key * entry) : Prop := en_used (snd x) <= en_used (snd y).
Lemma ins_used_sorted : forall x l, StronglySorted by_use l -> StronglySorted by_use (ins_used x l).
Proof.
  intros x l S. induction S as [|y l S IH F]; [repeat constructor|]. cbn. destruct (en_used (snd x) <=? en_used (snd y)) eqn:E.
  - constructor; [now constructor|]. constructor; [unfold by_use; lia|]. eapply Forall_impl; [|exact F]. unfold by_use. intros; lia.
  - constructor; [exact IH|]. eapply Permutation_Forall; [symmetry; apply ins_used_perm|]. constructor; [unfold by_use; lia|exact F].
Qed.
Lemma sort_used_sorted : forall l, StronglySorted by_use (sort_used l).
Proof. induction l as [|x l IH]; [constructor|]. cbn. now apply ins_used_sorted. Qed.
Lemma sorted_split : forall n l x y, StronglySorted by_use l -> In x (firstn n l) -> In y (skipn n l) -> by_use x y.
Proof.
  induction n as [|n IH]; intros l x y S Hx Hy; [destruct Hx|]. destruct l as [|z l]; [destruct Hx|]. inversion S; subst. cbn in Hx, Hy.
  destruct Hx as [<- |Hx]; [|now apply (IH l)]. rewrite Forall_forall in H2. apply H2. rewrite <- (firstn_skipn n l). apply in_or_app. now right.
Qed.
(** running alone *)
Lemma solo_clean : forall cfg ks n st k p, solo (length ks + n) cfg st (SClean k p ks) = solo n cfg (fold_left (drop_idle cfg) ks st) (SClean k p []).
Proof. induction ks as [|x ks IH]; intros n st k p; [reflexivity|]. cbn [length plus solo task_step]. rewrite IH. reflexivity. Qed.
Lemma solo_evict : forall cfg ks n st k p, solo (length ks + n) cfg st (SEvict k p ks) = solo n cfg (fold_left drop_key ks st) (SEvict k p []).
Proof. induction ks as [|x ks IH]; intros n st k p; [reflexivity|]. cbn [length plus solo task_step]. rewrite IH. reflexivity. Qed.
Lemma llen_filter_le : forall A (f : A -> bool) l, llen (filter f l) <= llen l.
Proof. induction l as [|x l IH]; [cbn; lia|]. cbn [filter]. destruct (f x); rewrite ?llen_cons; lia. Qed.
Lemma filter_full : forall A (f : A -> bool) l, llen (filter f l) = llen l -> forall x, In x l -> f x = true.
Proof.
  induction l as [|y l IH]; intros H x Hx; [destruct Hx|]. cbn [filter] in H. pose proof (llen_filter_le _ f l).
  destruct (f y) eqn:E; rewrite ?llen_cons in H; [|lia]. destruct Hx as [<- |Hx]; [exact E|]. apply IH; [lia|exact Hx].
Qed.
Lemma NoDup_entries : forall m : list (key * entry), NoDup (keys m) -> NoDup m.
Proof. intros m H. unfold keys in H. now apply NoDup_map_inv in H. Qed.
