From Coq Require Import NArith Bool String List Permutation Sorting.Sorted Lia ZifyBool ZifyN ZifyNat Arith.
Import ListNotations.
From Verif Require Import Base BaseFacts Text Uri Dns DnsSpec.
Open Scope N_scope.
Open Scope list_scope.

(** * Names *)

Lemma trim_dots_undotted s : undotted s (trim_dots s).
Proof.
  unfold undotted, trim_dots. split.
  - destruct (trim_end_by_prefix (N.eqb 46) s) as (b & H1 & H2). exists (length b). rewrite H1 at 1. f_equal.
    clear H1. induction b as [|c b IH]; [reflexivity|]. cbn [forallb] in H2. apply andb_true_iff in H2. destruct H2 as [Hc H2].
    apply N.eqb_eq in Hc. subst c. cbn [length List.repeat]. f_equal. now apply IH.
  - intros t' H. pose proof (trim_end_by_rev (N.eqb 46) s) as R. rewrite H in R.
    assert (D : drop_while (N.eqb 46) (rev s) = 46 :: rev t') by (rewrite <- (rev_involutive (drop_while _ _)), <- R, rev_app_distr; reflexivity).
    pose proof (drop_while_head (N.eqb 46) (rev s)) as X. rewrite D in X. discriminate X.
Qed.
Lemma undotted_unique s t t' : undotted s t -> undotted s t' -> t = t'.
Proof.
  intros ((k & Hk) & H) ((k' & Hk') & H'). revert s k' Hk Hk' H H'. induction k as [|k IH]; intros s k' Hk Hk' H H'.
  - cbn [List.repeat] in Hk. rewrite app_nil_r in Hk. destruct k' as [|k']; [cbn [List.repeat] in Hk'; rewrite app_nil_r in Hk'; congruence|].
    exfalso. apply (H (t' ++ List.repeat 46 k')). rewrite <- Hk, Hk'. change (46 :: List.repeat 46 k') with (List.repeat 46 (S k')).
    replace (S k') with (k' + 1)%nat by lia. rewrite repeat_app, app_assoc. reflexivity.
  - destruct k' as [|k'].
    + cbn [List.repeat] in Hk'. rewrite app_nil_r in Hk'. exfalso. apply (H' (t ++ List.repeat 46 k)). rewrite <- Hk', Hk.
      replace (S k) with (k + 1)%nat by lia. rewrite repeat_app, app_assoc. reflexivity.
    + replace (S k) with (k + 1)%nat in Hk by lia. replace (S k') with (k' + 1)%nat in Hk' by lia.
      rewrite repeat_app, app_assoc in Hk, Hk'. rewrite Hk in Hk'. apply app_inj_tail in Hk'. destruct Hk' as [E _].
      apply (IH _ k' eq_refl E H H').
Qed.
Lemma trim_dots_nil s : (trim_dots s = [] <-> existsb (fun c => negb (c =? 46)) s = false).
Proof.
  unfold trim_dots. induction s as [|c s IH]; [split; reflexivity|]. cbn [trim_end_by existsb].
  destruct (trim_end_by (N.eqb 46) s) as [|x t] eqn:E.
  - assert (X : existsb (fun c => negb (c =? 46)) s = false) by (apply IH; reflexivity). rewrite X, orb_false_r, N.eqb_sym.
    destruct (c =? 46); cbn [negb]; split; congruence.
  - destruct (existsb (fun c => negb (c =? 46)) s) eqn:Es; [rewrite orb_true_r; split; congruence|]. destruct IH as [_ IH]. discriminate (IH eq_refl).
Qed.
Lemma srv_usable_spec r : srv_usable r = if names_host r then Some (sv_weight r, trim_dots (sv_target r), sv_port r) else None.
Proof.
  unfold srv_usable, names_host. pose proof (trim_dots_nil (sv_target r)) as T.
  destruct (str_eqb (sv_target r) (lit ".")) eqn:E.
  - apply str_eqb_spec in E. rewrite E. reflexivity.
  - destruct (trim_dots (sv_target r)) as [|c h].
    + destruct T as [T _]. rewrite (T eq_refl). reflexivity.
    + destruct (existsb _ _); [reflexivity|]. destruct T as [_ T]. discriminate (T eq_refl).
Qed.

(** * Selecting by weight *)

Lemma position_lt l : forall pick cum i, position pick cum l = Some i -> (i < length l)%nat.
Proof.
  induction l as [|r l IH]; intros pick cum i H; cbn [position] in H; [discriminate|]. cbn [length].
  destruct (pick <? cum + w_of r); [injection H as <-; lia|].
  destruct (position pick (cum + w_of r) l) as [j|] eqn:E; [|discriminate]. injection H as <-. apply IH in E. lia.
Qed.
Lemma choice_lt draw l : l <> [] -> (choice draw l < length l)%nat.
Proof.
  intros H. assert (0 < length l)%nat by (destruct l; [congruence|cbn; lia]).
  unfold choice. cbv zeta. destruct (total_weight l =? 0).
  - unfold llen. pose proof (N.mod_lt draw (N.of_nat (length l))). lia.
  - destruct (position (draw mod total_weight l) 0 l) as [i|] eqn:E; [|lia]. now apply position_lt in E.
Qed.
Lemma remove_nth_split {A} (l1 l2 : list A) x : remove_nth (length l1) (l1 ++ x :: l2) = l1 ++ l2.
Proof. induction l1 as [|y l1 IH]; [reflexivity|]. cbn [length app remove_nth]. now rewrite IH. Qed.
Definition hp (r : wrec) : str * N := (snd (fst r), snd r).
Lemma select_perm k : forall rs l, length l = k -> exists l', Permutation l l' /\ fst (select k rs l) = map hp l'.
Proof.
  induction k as [|k IH]; intros rs l Hl; cbn [select].
  - destruct l; [|discriminate]. exists []. split; [constructor|reflexivity].
  - cbv zeta. assert (Hn : l <> []) by (intros ->; discriminate).
    pose proof (choice_lt (hd 0 rs) l Hn) as Hc. destruct (nth_error l (choice (hd 0 rs) l)) as [[[w h] p]|] eqn:E; [|apply nth_error_None in E; lia].
    apply nth_error_split in E. destruct E as (l1 & l2 & El & Elen). rewrite <- Elen, El, remove_nth_split.
    assert (Hl' : length (l1 ++ l2) = k) by (rewrite El in Hl; rewrite app_length in *; cbn [length] in Hl; lia).
    destruct (IH (tl rs) _ Hl') as (l' & HP & HE).
    destruct (select k (tl rs) (l1 ++ l2)) as [out rs'] eqn:Es. cbn [fst] in HE |- *. exists ((w, h, p) :: l'). split.
    + apply Permutation_trans with ((w, h, p) :: l1 ++ l2); [apply Permutation_sym, Permutation_middle|now apply perm_skip].
    + cbn [map]. unfold hp at 1. cbn [fst snd]. now rewrite HE.
Qed.
Lemma select_by_weight_perm rs l : exists l', Permutation l l' /\ fst (select_by_weight rs l) = map hp l'.
Proof. apply select_perm. reflexivity. Qed.
(** one draw decides the head, the rest is selected from what is left *)
Lemma select_cons r rs l : l <> [] ->
  exists l1 x l2, l = l1 ++ x :: l2 /\ length l1 = choice r l /\
                  fst (select_by_weight (r :: rs) l) = hp x :: fst (select_by_weight rs (l1 ++ l2)).
Proof.
  intros Hn. pose proof (choice_lt r l Hn) as Hc. unfold select_by_weight. destruct l as [|y l0] eqn:El0; [congruence|]. rewrite <- El0 in *.
  assert (EL : length l = S (length l0)) by (rewrite El0; reflexivity). rewrite EL. cbn [select hd tl]. cbv zeta.
  destruct (nth_error l (choice r l)) as [[[w h] p]|] eqn:E; [|apply nth_error_None in E; lia].
  apply nth_error_split in E. destruct E as (l1 & l2 & El & Elen). exists l1, (w, h, p), l2. split; [exact El|]. split; [exact Elen|].
  rewrite <- Elen. rewrite El at 1. rewrite remove_nth_split.
  assert (Hl' : length (l1 ++ l2) = length l0) by (rewrite El in EL; rewrite app_length in *; cbn [length] in EL; lia).
  rewrite <- Hl'. destruct (select (length (l1 ++ l2)) rs (l1 ++ l2)). reflexivity.
Qed.

(** * Priorities *)

Definition flat (g : list (N * list wrec)) : list (N * wrec) := flat_map (fun pl => map (pair (fst pl)) (snd pl)) g.
Lemma flat_cons p l g : flat ((p, l) :: g) = map (pair p) l ++ flat g. Proof. reflexivity. Qed.
Lemma group_add_perm p x g : Permutation (flat (group_add p x g)) ((p, x) :: flat g).
Proof.
  induction g as [|[q l] g IH]; [apply Permutation_refl|]. cbn [group_add]. destruct (p <? q) eqn:E1; [apply Permutation_refl|].
  destruct (q <? p) eqn:E2; rewrite !flat_cons.
  - apply Permutation_trans with (map (pair q) l ++ (p, x) :: flat g); [now apply Permutation_app_head|]. apply Permutation_sym, Permutation_middle.
  - destruct (N.eq_dec p q) as [->|]; [|lia]. rewrite map_app, <- app_assoc. cbn [map app]. apply Permutation_sym, Permutation_middle.
Qed.
Definition keys_sorted (g : list (N * list wrec)) : Prop := StronglySorted N.lt (map fst g).
Lemma group_add_keys p x g q : In q (map fst (group_add p x g)) -> q = p \/ In q (map fst g).
Proof.
  induction g as [|[a l] g IH]; cbn [group_add map fst In]; [intuition|]. destruct (p <? a); [cbn [map fst In]; intuition|].
  destruct (a <? p); cbn [map fst In]; [intuition|intuition].
Qed.
Lemma group_add_sorted p x g : keys_sorted g -> keys_sorted (group_add p x g).
Proof.
  unfold keys_sorted. induction g as [|[q l] g IH]; intros H; cbn [group_add map fst].
  - constructor; constructor.
  - cbn [map fst] in H. apply StronglySorted_inv in H. destruct H as [H1 H2].
    destruct (p <? q) eqn:E1; cbn [map fst].
    + constructor; [constructor; assumption|]. constructor; [lia|]. eapply Forall_impl; [|exact H2]. intros; cbn beta in *; lia.
    + destruct (q <? p) eqn:E2; cbn [map fst].
      * constructor; [now apply IH|]. rewrite Forall_forall in *. intros k Hk. apply group_add_keys in Hk. destruct Hk as [->|Hk]; [lia|now apply H2].
      * constructor; assumption.
Qed.
Definition at_group (p : N) (g : list (N * list wrec)) : list wrec := map snd (filter (fun y => fst y =? p) (flat g)).
Lemma at_group_cons p q l g : at_group p ((q, l) :: g) = (if q =? p then l else []) ++ at_group p g.
Proof.
  unfold at_group. rewrite flat_cons, filter_app, map_app. f_equal. induction l as [|x l IH]; cbn [map filter fst]; [now destruct (q =? p)|].
  destruct (q =? p); cbn [map snd]; [now rewrite IH|exact IH].
Qed.
Lemma at_group_none p g : Forall (N.lt p) (map fst g) -> at_group p g = [].
Proof.
  induction g as [|[q l] g IH]; intros H; [reflexivity|]. cbn [map fst] in H. inversion H; subst. rewrite at_group_cons, IH by assumption.
  destruct (q =? p) eqn:E; [lia|reflexivity].
Qed.
Lemma at_group_add p q x g : keys_sorted g -> at_group p (group_add q x g) = at_group p g ++ (if q =? p then [x] else []).
Proof.
  unfold keys_sorted. induction g as [|[a l] g IH]; intros H; cbn [group_add].
  - rewrite at_group_cons. cbn. destruct (q =? p); reflexivity.
  - cbn [map fst] in H. apply StronglySorted_inv in H. destruct H as [H1 H2]. destruct (q <? a) eqn:E1; [|destruct (a <? q) eqn:E2].
    + rewrite (at_group_cons p q). destruct (q =? p) eqn:Eq; [|now rewrite app_nil_r].
      apply N.eqb_eq in Eq. subst q. rewrite at_group_none; [reflexivity|]. cbn [map fst]. constructor; [lia|].
      eapply Forall_impl; [|exact H2]. intros; cbn beta in *; lia.
    + rewrite !at_group_cons, IH by assumption. now rewrite app_assoc.
    + assert (a = q) by lia. subst a. rewrite !at_group_cons. destruct (q =? p) eqn:Eq; [|cbn [app]; now rewrite app_nil_r].
      apply N.eqb_eq in Eq. subst q. rewrite (at_group_none p g H2), !app_nil_r. reflexivity.
Qed.

Definition wr (r : srv_rr) : wrec := (sv_weight r, trim_dots (sv_target r), sv_port r).
Definition gstep (g : list (N * list wrec)) (r : srv_rr) := match srv_usable r with Some x => group_add (sv_prio r) x g | None => g end.
Lemma groups_fold l : forall g, keys_sorted g ->
  keys_sorted (fold_left gstep l g) /\
  Permutation (flat (fold_left gstep l g)) (flat g ++ map (fun r => (sv_prio r, wr r)) (filter names_host l)) /\
  forall p, at_group p (fold_left gstep l g) = at_group p g ++ map wr (at_priority p l).
Proof.
  induction l as [|r l IH]; intros g Hg; cbn [fold_left filter map].
  - rewrite app_nil_r. split; [exact Hg|]. split; [apply Permutation_refl|]. intros p. cbn. now rewrite app_nil_r.
  - assert (E : gstep g r = if names_host r then group_add (sv_prio r) (wr r) g else g) by (unfold gstep; rewrite srv_usable_spec; now destruct (names_host r)).
    rewrite E. unfold at_priority. cbn [filter]. destruct (names_host r); cbn [andb].
    + destruct (IH _ (group_add_sorted (sv_prio r) (wr r) g Hg)) as (I1 & I2 & I3). split; [exact I1|]. split.
      * apply (Permutation_trans I2). cbn [map]. apply Permutation_trans with (((sv_prio r, wr r) :: flat g) ++ map (fun r => (sv_prio r, wr r)) (filter names_host l)).
        -- apply Permutation_app_tail, group_add_perm.
        -- cbn [app]. apply Permutation_middle.
      * intros p. rewrite I3, at_group_add by assumption. rewrite <- app_assoc. f_equal. destruct (sv_prio r =? p); reflexivity.
    + apply IH. exact Hg.
Qed.
Lemma groups_spec l : keys_sorted (groups l) /\ Permutation (flat (groups l)) (map (fun r => (sv_prio r, wr r)) (filter names_host l)) /\
  forall p, at_group p (groups l) = map wr (at_priority p l).
Proof. apply (groups_fold l []). constructor. Qed.
Definition no_empty (g : list (N * list wrec)) : Prop := Forall (fun pl => snd pl <> []) g.
Lemma group_add_no_empty p x g : no_empty g -> no_empty (group_add p x g).
Proof.
  unfold no_empty. induction g as [|[q l] g IH]; intros H; cbn [group_add]; [constructor; [discriminate|constructor]|].
  inversion H; subst. destruct (p <? q); [constructor; [discriminate|assumption]|]. destruct (q <? p); constructor; auto.
  cbn. now destruct l.
Qed.
Lemma groups_no_empty l : no_empty (groups l).
Proof.
  unfold groups. assert (H : no_empty []) by constructor. revert H. generalize (@nil (N * list wrec)).
  induction l as [|r l IH]; intros g H; [exact H|]. cbn [fold_left]. apply IH. destruct (srv_usable r); [now apply group_add_no_empty|exact H].
Qed.

Definition pt (t : transport) (y : N * wrec) : target := mkTarget (snd (fst (snd y))) (snd (snd y)) t (fst y) None.
Lemma group_targets_spec t g : forall rs, exists m, Permutation (flat g) m /\ fst (group_targets rs t g) = map (pt t) m /\
   (keys_sorted g -> StronglySorted (fun a b => fst a <= fst b) m) /\ (forall y, In y m -> In (fst y) (map fst g)).
Proof.
  induction g as [|[p l] g IH]; intros rs; cbn [group_targets].
  - exists []. split; [constructor|]. split; [reflexivity|]. split; [intros; constructor|intros y []].
  - destruct (select_by_weight_perm rs l) as (l' & HP & HE). destruct (select_by_weight rs l) as [sel rs1]. cbn [fst] in HE. subst sel.
    destruct (IH rs1) as (m & M1 & M2 & M3 & M4). destruct (group_targets rs1 t g) as [out rs2]. cbn [fst] in M2 |- *. subst out.
    exists (map (pair p) l' ++ m). split; [rewrite flat_cons; apply Permutation_app; [now apply Permutation_map|exact M1]|].
    split; [rewrite map_app; f_equal; rewrite !map_map; reflexivity|]. split.
    + intros K. unfold keys_sorted in K. cbn [map fst] in K. apply StronglySorted_inv in K. destruct K as [K1 K2]. specialize (M3 K1).
      clear HP. induction l' as [|x l' IH']; [exact M3|]. cbn [map app]. constructor; [exact IH'|]. apply Forall_forall. intros y Hy. cbn [fst].
      apply in_app_or in Hy. destruct Hy as [Hy|Hy].
      * apply in_map_iff in Hy. destruct Hy as (z & <- & _). cbn [fst]. lia.
      * apply M4 in Hy. rewrite Forall_forall in K2. specialize (K2 _ Hy). lia.
    + intros y Hy. cbn [map fst In]. apply in_app_or in Hy. destruct Hy as [Hy|Hy]; [|right; now apply M4].
      apply in_map_iff in Hy. destruct Hy as (z & <- & _). now left.
Qed.
Lemma group_targets_answer t l rs : srv_answer t l (fst (group_targets rs t (groups l))).
Proof.
  destruct (groups_spec l) as (K & P & _). destruct (group_targets_spec t (groups l) rs) as (m & M1 & M2 & M3 & _). rewrite M2. specialize (M3 K).
  assert (Q : Permutation m (map (fun r => (sv_prio r, wr r)) (filter names_host l))) by (apply Permutation_trans with (flat (groups l)); [now apply Permutation_sym|exact P]).
  apply Permutation_map_inv in Q. destruct Q as (l' & -> & Q). exists l'. split; [exact Q|]. split.
  - clear. induction l' as [|r l' IH]; cbn [map]; constructor; [|exact IH]. unfold target_for, pt, wr. cbn [fst snd tg_host tg_port tg_transport tg_priority tg_tls].
    split; [apply trim_dots_undotted|]. repeat split.
  - clear - M3. induction l' as [|r l' IH]; cbn [map] in *; [constructor|]. apply StronglySorted_inv in M3. destruct M3 as [M3 F].
    constructor; [now apply IH|]. rewrite Forall_forall in *. intros x Hx. apply in_map_iff in Hx. destruct Hx as (y & <- & Hy). exact (F y Hy).
Qed.
Lemma srv_name_query t sips h : srv_name t sips h = srv_query t sips h.
Proof. destruct t, sips; reflexivity. Qed.
Lemma lookup_srv_block d rs h t sips : srv_block d sips (h, t) (match fst (lookup_srv d rs h t sips) with Some ts => ts | None => [] end).
Proof.
  unfold srv_block, lookup_srv. cbn [fst snd]. rewrite srv_name_query. destruct (d_srv d (srv_query t sips h)) as [l|]; [|reflexivity].
  pose proof (group_targets_answer t l rs) as A. destruct (group_targets rs t (groups l)) as [ts rs']. cbn [fst] in A. destruct ts; exact A.
Qed.
Lemma srv_all_blocks d sips qs : forall rs, exists blocks, Forall2 (srv_block d sips) qs blocks /\ srv_all d rs sips qs = concat blocks.
Proof.
  induction qs as [|[h t] qs IH]; intros rs; cbn [srv_all]; [exists []; split; [constructor|reflexivity]|].
  pose proof (lookup_srv_block d rs h t sips) as B. destruct (lookup_srv d rs h t sips) as [x rs']. cbn [fst] in B.
  destruct (IH rs') as (bs & H1 & H2). exists ((match x with Some ts => ts | None => [] end) :: bs). split; [now constructor|]. cbn [concat]. now rewrite H2.
Qed.

(** * Addresses *)

Lemma skipn_len {A} (l1 l2 : list A) : skipn (length l1) (l1 ++ l2) = l2.
Proof. induction l1; [reflexivity|assumption]. Qed.
Lemma skipn_len1 {A} (l1 l2 : list A) x : skipn (S (length l1)) (l1 ++ x :: l2) = l2.
Proof. induction l1; [reflexivity|assumption]. Qed.
Lemma interleave_nil_r n : forall i a, interleave n i a [] = firstn n (skipn i a).
Proof.
  induction n as [|n IH]; intros i a; [reflexivity|]. cbn [interleave]. rewrite IH. replace (nth_error (@nil ip) i) with (@None ip) by (destruct i; reflexivity).
  cbn [app]. destruct (nth_error a i) as [x|] eqn:E.
  - apply nth_error_split in E. destruct E as (l1 & l2 & -> & <-). rewrite skipn_len, skipn_len1. reflexivity.
  - apply nth_error_None in E. rewrite !skipn_all2 by lia. cbn [app]. now rewrite !firstn_nil.
Qed.
Lemma interleave_shift n : forall i x y a b, interleave n (S i) (x :: a) (y :: b) = interleave n i a b.
Proof. induction n as [|n IH]; intros; [reflexivity|]. cbn [interleave nth_error]. now rewrite IH. Qed.
Lemma interleave_nil_l n : forall i b, interleave n i [] b = firstn n (skipn i b).
Proof.
  induction n as [|n IH]; intros i b; [reflexivity|]. cbn [interleave]. rewrite IH. replace (nth_error (@nil ip) i) with (@None ip) by (destruct i; reflexivity).
  cbn [app]. destruct (nth_error b i) as [x|] eqn:E.
  - apply nth_error_split in E. destruct E as (l1 & l2 & -> & <-). rewrite skipn_len, skipn_len1. reflexivity.
  - apply nth_error_None in E. rewrite !skipn_all2 by lia. cbn [app]. now rewrite !firstn_nil.
Qed.
Lemma alternating_six a : alternating a [] a. Proof. induction a; constructor; assumption. Qed.
Lemma alternating_four a : alternating [] a a. Proof. induction a; constructor; assumption. Qed.
Lemma interleave_alternating a : forall b, alternating a b (interleave (Nat.max (length a) (length b)) 0 a b).
Proof.
  induction a as [|x a IH]; intros [|y b].
  - constructor.
  - rewrite interleave_nil_l. cbn [length Nat.max skipn]. rewrite firstn_all2 by (cbn; lia). apply alternating_four.
  - rewrite interleave_nil_r. rewrite Nat.max_0_r. cbn [skipn]. rewrite firstn_all2 by (cbn; lia). apply alternating_six.
  - cbn [length Nat.max interleave nth_error app]. rewrite interleave_shift. constructor. apply IH.
Qed.
Lemma filter_v4 l : v4s l = filter (fun a => negb (is_v6 a)) l.
Proof. unfold v4s. apply filter_ext. intros []; reflexivity. Qed.
Lemma lookup_a_spec d h r : lookup_a_aaaa d h = Some r ->
  r <> [] /\ exists l, d_ip d h = Some l /\ alternating (filter is_v6 l) (filter (fun a => negb (is_v6 a)) l) r.
Proof.
  unfold lookup_a_aaaa. destruct (d_ip d h) as [l|]; [|discriminate]. cbv zeta. pose proof (interleave_alternating (v6s l) (v4s l)) as A.
  destruct (interleave _ _ _ _) as [|x r'] eqn:E; [discriminate|]. intros H. injection H as <-. split; [discriminate|]. exists l. split; [reflexivity|].
  rewrite <- filter_v4. exact A.
Qed.
Lemma lookup_a_none d h l : lookup_a_aaaa d h = None -> d_ip d h = Some l -> l = [].
Proof.
  unfold lookup_a_aaaa. intros H E. rewrite E in H. cbv zeta in H. pose proof (interleave_alternating (v6s l) (v4s l)) as A.
  destruct (interleave _ _ _ _) as [|x r']; [|discriminate]. destruct l as [|[t|t] l]; [reflexivity|inversion A|inversion A].
Qed.

(** * The resolver *)

Lemma enforce_spec l : enforce_target_limit l = if (100 <? length l)%nat then None else Some l.
Proof. unfold enforce_target_limit, MAX_TARGETS, llen. destruct (100 <? N.of_nat (length l)) eqn:E; destruct (100 <? length l)%nat eqn:E2; lia || reflexivity. Qed.
Lemma alternating_length a b r : alternating a b r -> length r = (length a + length b)%nat.
Proof. induction 1; cbn [length] in *; lia. Qed.
Lemma filter_split_length {A} (f : A -> bool) l : (length (filter f l) + length (filter (fun x => negb (f x)) l))%nat = length l.
Proof. induction l as [|x l IH]; [reflexivity|]. cbn [filter length]. destruct (f x); cbn [negb length] in *; lia. Qed.
Lemma after_srv d u ts0 blocks qs : Forall2 (srv_block d (u_sips u)) qs blocks -> ts0 = concat blocks ->
  found d u qs (match ts0 with
      | [] => match lookup_a_aaaa d (u_host u) with
              | None => None
              | Some [] => None
              | Some ips => enforce_target_limit (map (fun a => with_tls_name (u_host u) (unchecked_new (ip_text a) (usual_port u) (default_transport u))) ips)
              end
      | ts => enforce_target_limit ts
      end).
Proof.
  intros HB E. exists blocks. split; [exact HB|]. rewrite <- E. destruct ts0 as [|x ts0].
  - destruct (lookup_a_aaaa d (u_host u)) as [r|] eqn:L.
    + apply lookup_a_spec in L. destruct L as (Hr & l & D & A). destruct r as [|y r]; [congruence|]. rewrite enforce_spec, map_length.
      pose proof (alternating_length _ _ _ A) as AL. rewrite filter_split_length in AL.
      destruct (100 <? length (y :: r))%nat eqn:EL.
      * right. split; [reflexivity|]. rewrite D. destruct l; [exact I|]. lia.
      * split; [discriminate|]. rewrite map_length. split; [lia|]. right. split; [reflexivity|]. exists l. split; [exact D|]. exists (y :: r). split; [exact A|reflexivity].
    + right. split; [reflexivity|]. destruct (d_ip d (u_host u)) as [l|] eqn:D; [|exact I]. now rewrite (lookup_a_none d (u_host u) l L D).
  - rewrite enforce_spec. destruct (100 <? length (x :: ts0))%nat eqn:EL; [left; lia|]. split; [discriminate|]. split; [lia|]. now left.
Qed.
Lemma plain_queries_eq u : map (fun t => (u_host u, t)) (default_transport_order u) = plain_queries u.
Proof. unfold plain_queries, default_transport_order. destruct (u_sips u); [reflexivity|]. now destruct (transport_param u). Qed.
Definition allowed_of (u : sip_uri) : option transport := if u_sips u then Some Tls else transport_param u.
Definition naptrs_of (en : bool) (d : dns) (u : sip_uri) := if en then lookup_naptr d u (allowed_of u) else None.
Lemma resolve_host en d rs u : is_numeric_ip (u_host u) = false -> u_port u = None ->
  found d u (match naptrs_of en d u with
             | Some l => map (fun r => (match nr_repl r with Some x => x | None => u_host u end, nr_transport r)) l
             | None => plain_queries u end) (resolve en d rs u).
Proof.
  intros Hn Hp. unfold resolve. cbv zeta. rewrite Hn, Hp. fold (usual_port u). fold (allowed_of u). fold (naptrs_of en d u). rewrite <- plain_queries_eq.
  destruct (srv_all_blocks d (u_sips u) (match naptrs_of en d u with
             | Some l => map (fun r => (match nr_repl r with Some x => x | None => u_host u end, nr_transport r)) l
             | None => map (fun t => (u_host u, t)) (default_transport_order u) end) rs) as (blocks & B1 & B2).
  pose proof (after_srv d u _ blocks _ B1 B2) as A. destruct (srv_all _ _ _ _); exact A.
Qed.
Lemma t_eqb_eq a b : t_eqb a b = true <-> a = b.
Proof. split; [destruct a, b; cbn; congruence|intros ->; unfold t_eqb; apply N.eqb_refl]. Qed.

(** NAPTR *)
Definition conv (r : naptr_rr) : naptr :=
  mkNaptrRec (na_order r) (na_pref r) (match naptr_transport (na_service r) with Some t => t | None => Udp end)
             (match trim_dots (na_repl r) with [] => None | _ => Some (trim_dots (na_repl r)) end).
Lemma naptr_of_conv u r : naptr_of (allowed_of u) r = if heeded u r then Some (conv r) else None.
Proof.
  unfold naptr_of, heeded, conv, allowed_of. destruct (naptr_transport (na_service r)) as [t|]; [|reflexivity]. cbv zeta.
  destruct (u_sips u).
  - destruct (t_eqb t Tls); [|reflexivity]. cbn [negb andb]. destruct (str_eqb (na_repl r) (lit ".")); reflexivity.
  - destruct (transport_param u) as [w|].
    + destruct (t_eqb t w); [|reflexivity]. cbn [negb andb]. destruct (str_eqb (na_repl r) (lit ".")); reflexivity.
    + cbn [andb]. destruct (str_eqb (na_repl r) (lit ".")); reflexivity.
Qed.
Lemma filter_map_conv u l : filter_map (naptr_of (allowed_of u)) l = map conv (filter (heeded u) l).
Proof.
  unfold filter_map. induction l as [|r l IH]; [reflexivity|]. cbn [flat_map filter]. rewrite naptr_of_conv, IH. destruct (heeded u r); reflexivity.
Qed.
Lemma ins_perm x l : Permutation (ins_naptr x l) (x :: l).
Proof.
  induction l as [|y l IH]; [apply Permutation_refl|]. cbn [ins_naptr]. destruct (naptr_leb x y); [apply Permutation_refl|].
  apply Permutation_trans with (y :: x :: l); [now apply perm_skip|apply perm_swap].
Qed.
Lemma sort_perm l : Permutation (sort_naptr l) l.
Proof. induction l as [|x l IH]; [constructor|]. cbn [sort_naptr fold_right]. apply Permutation_trans with (x :: sort_naptr l); [apply ins_perm|now apply perm_skip]. Qed.
Definition kle (a b : naptr) : Prop := nr_order a < nr_order b \/ (nr_order a = nr_order b /\ nr_pref a <= nr_pref b).
Lemma leb_kle a b : naptr_leb a b = true -> kle a b.
Proof.
  unfold naptr_leb, kle. destruct (nr_order a =? nr_order b) eqn:E1; cbn [negb]; [|intros; left; lia].
  destruct (nr_pref a =? nr_pref b) eqn:E2; cbn [negb]; intros; right; lia.
Qed.
Lemma leb_kle' a b : naptr_leb a b = false -> kle b a.
Proof.
  unfold naptr_leb, kle. destruct (nr_order a =? nr_order b) eqn:E1; cbn [negb]; [|intros; left; lia].
  destruct (nr_pref a =? nr_pref b) eqn:E2; cbn [negb]; intros; right; lia.
Qed.
Lemma kle_trans a b c : kle a b -> kle b c -> kle a c. Proof. unfold kle. lia. Qed.
Lemma ins_sorted x l : StronglySorted kle l -> StronglySorted kle (ins_naptr x l).
Proof.
  induction l as [|y l IH]; intros H; cbn [ins_naptr]; [constructor; constructor|]. apply StronglySorted_inv in H. destruct H as [H F].
  destruct (naptr_leb x y) eqn:E.
  - apply leb_kle in E. constructor; [constructor; assumption|]. constructor; [exact E|]. eapply Forall_impl; [|exact F]. intros z Hz. now apply kle_trans with y.
  - apply leb_kle' in E. constructor; [now apply IH|]. apply (Permutation_Forall (Permutation_sym (ins_perm x l))). now constructor.
Qed.
Lemma sort_sorted l : StronglySorted kle (sort_naptr l).
Proof. induction l as [|x l IH]; [constructor|]. cbn [sort_naptr fold_right]. now apply ins_sorted. Qed.
Lemma naptr_route en d u : 
  match naptrs_of en d u with
  | Some l => exists a nl, en = true /\ d_naptr d (u_host u ++ lit ".") = Some a /\ Permutation (filter (heeded u) a) nl /\ StronglySorted before nl /\ nl <> [] /\ l = map conv nl
  | None => en = false \/ d_naptr d (u_host u ++ lit ".") = None \/ exists a, d_naptr d (u_host u ++ lit ".") = Some a /\ filter (heeded u) a = []
  end.
Proof.
  unfold naptrs_of, lookup_naptr. destruct en; [|now left]. destruct (d_naptr d (u_host u ++ lit ".")) as [a|]; [|right; now left].
  rewrite filter_map_conv. destruct (filter (heeded u) a) as [|r f] eqn:E; cbn [map]; [right; right; exists a; now split|].
  change (conv r :: map conv f) with (map conv (r :: f)).
  pose proof (sort_perm (map conv (r :: f))) as P. apply Permutation_map_inv in P. destruct P as (nl & P1 & P2).
  exists a, nl. split; [reflexivity|]. split; [reflexivity|]. split; [rewrite E; exact P2|]. split; [|split; [|exact P1]].
  - pose proof (sort_sorted (map conv (r :: f))) as S. rewrite P1 in S. clear - S. induction nl as [|x nl IH]; [constructor|]. cbn [map] in S. apply StronglySorted_inv in S.
    destruct S as [S F]. constructor; [now apply IH|]. rewrite Forall_forall in *. intros y Hy. exact (F _ (in_map conv _ _ Hy)).
  - intros ->. apply Permutation_sym, Permutation_nil in P2. discriminate.
Qed.
Lemma conv_query u r : heeded u r = true -> naptr_query u r (match nr_repl (conv r) with Some x => x | None => u_host u end, nr_transport (conv r)).
Proof.
  unfold heeded, naptr_query, conv. cbn [nr_repl nr_transport fst snd]. destruct (naptr_transport (na_service r)) as [t|]; [|discriminate]. intros _. split; [reflexivity|].
  pose proof (trim_dots_undotted (na_repl r)) as U. destruct (trim_dots (na_repl r)) as [|c x]; [right; now split|left; split; [exact U|discriminate]].
Qed.

(** * Every target has the transport asked for *)

Lemma block_transport d sips q b : srv_block d sips q b -> Forall (fun x => tg_transport x = snd q) b.
Proof.
  unfold srv_block. destruct (d_srv d _) as [l|]; [|intros ->; constructor]. intros (l' & _ & F & _). induction F as [|r x l' b H F IH]; constructor; [|exact IH].
  now destruct H as (_ & _ & H & _).
Qed.
Lemma blocks_transport d sips t qs blocks : Forall2 (srv_block d sips) qs blocks -> Forall (fun q => snd q = t) qs -> Forall (fun x => tg_transport x = t) (concat blocks).
Proof.
  induction 1 as [|q b qs bs H F IH]; intros Hq; [constructor|]. inversion Hq; subst. cbn [concat]. apply Forall_app. split; [now apply block_transport in H|now apply IH].
Qed.
Lemma resolve_transport en d rs u t ts : allowed_of u = Some t -> resolve en d rs u = Some ts -> Forall (fun x => tg_transport x = t) ts.
Proof.
  intros Ha H. assert (Hd : default_transport u = t). { unfold allowed_of in Ha. unfold default_transport. destruct (u_sips u); [congruence|]. now rewrite Ha. }
  destruct (is_numeric_ip (u_host u)) eqn:Hn; [|destruct (u_port u) as [p|] eqn:Hp].
  - unfold resolve in H. cbv zeta in H. rewrite Hn in H. rewrite enforce_spec in H. cbn [length Nat.ltb Nat.leb] in H. injection H as <-. constructor; [exact Hd|constructor].
  - unfold resolve in H. cbv zeta in H. rewrite Hn, Hp in H. destruct (lookup_a_aaaa d (u_host u)) as [ips|]; [|discriminate]. rewrite enforce_spec in H.
    destruct (_ <? _)%nat; [discriminate|]. injection H as <-. apply Forall_forall. intros x Hx. apply in_map_iff in Hx. destruct Hx as (a & <- & _). exact Hd.
  - pose proof (resolve_host en d rs u Hn Hp) as (blocks & B & M). rewrite H in M. destruct M as (_ & _ & [-> | (_ & l & _ & r & _ & ->)]).
    + refine (blocks_transport _ _ t _ _ B _). pose proof (naptr_route en d u) as R. destruct (naptrs_of en d u) as [l|].
      * destruct R as (a & nl & _ & _ & P & _ & _ & ->). apply Forall_forall. intros q Hq. rewrite map_map in Hq. apply in_map_iff in Hq.
        destruct Hq as (r & <- & Hr). cbn [snd]. apply (Permutation_in r (Permutation_sym P)) in Hr. apply filter_In in Hr. destruct Hr as [_ Hr].
        unfold heeded in Hr. unfold conv. cbn [nr_transport]. destruct (naptr_transport (na_service r)) as [w|]; [|discriminate]. apply andb_true_iff in Hr. destruct Hr as [Hr _].
        unfold allowed_of in Ha. destruct (u_sips u); [injection Ha as <-; now apply t_eqb_eq|]. rewrite Ha in Hr. now apply t_eqb_eq.
      * unfold allowed_of in Ha. unfold plain_queries. destruct (u_sips u); [injection Ha as <-; repeat constructor|]. rewrite Ha. repeat constructor.
    + apply Forall_forall. intros x Hx. apply in_map_iff in Hx. destruct Hx as (a & <- & _). exact Hd.
Qed.

(** * How often each record comes first *)

Lemma below_add a b : below (a + b) = below a ++ map (N.add a) (below b).
Proof.
  unfold below. rewrite N2Nat.inj_add, seq_app, map_app, map_map. f_equal. rewrite Nat.add_0_l.
  generalize (N.to_nat b) as n. intros n. replace (N.to_nat a) with (N.to_nat a + 0)%nat at 1 by lia. generalize 0%nat as k.
  induction n as [|n IH]; intros k; [reflexivity|]. cbn [seq map]. f_equal; [lia|]. rewrite <- IH. now rewrite Nat.add_succ_r.
Qed.
Lemma below_in n r : In r (below n) <-> r < n.
Proof.
  unfold below. rewrite in_map_iff. split.
  - intros (k & <- & H). apply in_seq in H. lia.
  - intros H. exists (N.to_nat r). split; [lia|]. apply in_seq. lia.
Qed.
Lemma below_length n : length (below n) = N.to_nat n. Proof. unfold below. now rewrite map_length, seq_length. Qed.
Lemma position_shift c l : forall r k, position (c + r) (c + k) l = position r k l.
Proof.
  induction l as [|x l IH]; intros r k; [reflexivity|]. cbn [position]. rewrite <- N.add_assoc, IH.
  replace (c + r <? c + (k + w_of x)) with (r <? k + w_of x) by (destruct (r <? k + w_of x) eqn:E; lia). reflexivity.
Qed.
Definition chosen (r : N) (l : list wrec) : option wrec := match position r 0 l with Some i => nth_error l i | None => None end.
Lemma chosen_cons r x l : chosen r (x :: l) = if r <? w_of x then Some x else chosen (r - w_of x) l.
Proof.
  unfold chosen. cbn [position]. rewrite N.add_0_l. destruct (r <? w_of x) eqn:E; [reflexivity|].
  rewrite <- (position_shift (w_of x) l (r - w_of x) 0), N.add_0_r. replace (w_of x + (r - w_of x)) with r by lia.
  destruct (position r (w_of x) l); reflexivity.
Qed.
Definition sum_if (f : wrec -> bool) (l : list wrec) : N := fold_right (fun x a => if f x then w_of x + a else a) 0 l.
Definition holds (f : wrec -> bool) (o : option wrec) : bool := match o with Some x => f x | None => false end.
Lemma filter_map_len {A B} (g : A -> B) (f : B -> bool) l : length (filter f (map g l)) = length (filter (fun a => f (g a)) l).
Proof. induction l as [|x l IH]; [reflexivity|]. cbn [map filter]. destruct (f (g x)); cbn [length]; now rewrite IH. Qed.
Lemma filter_const {A} (f : A -> bool) b l : (forall x, In x l -> f x = b) -> length (filter f l) = if b then length l else 0%nat.
Proof.
  induction l as [|x l IH]; intros H; [now destruct b|]. cbn [filter]. rewrite (H x (or_introl eq_refl)). specialize (IH (fun y Hy => H y (or_intror Hy))).
  destruct b; cbn [length]; now rewrite IH.
Qed.
Lemma count_chosen f l : length (filter (fun r => holds f (chosen r l)) (below (total_weight l))) = N.to_nat (sum_if f l).
Proof.
  induction l as [|x l IH]; [reflexivity|]. cbn [total_weight fold_right sum_if]. fold (total_weight l). fold (sum_if f l).
  rewrite below_add, filter_app, app_length, filter_map_len.
  rewrite (filter_const _ (f x)).
  - rewrite below_length. rewrite (filter_ext_in _ (fun r => holds f (chosen r l))).
    + rewrite IH. destruct (f x); lia.
    + intros r _. rewrite chosen_cons. destruct (w_of x + r <? w_of x) eqn:E; [lia|]. f_equal. f_equal. lia.
  - intros r Hr. apply below_in in Hr. rewrite chosen_cons. destruct (r <? w_of x) eqn:E; [reflexivity|lia].
Qed.
Lemma chosen_some l : forall r, r < total_weight l -> exists i x, position r 0 l = Some i /\ nth_error l i = Some x /\ chosen r l = Some x.
Proof.
  induction l as [|y l IH]; intros r H; cbn [total_weight fold_right] in H; [lia|]. fold (total_weight l) in H. rewrite chosen_cons.
  cbn [position]. rewrite N.add_0_l. destruct (r <? w_of y) eqn:E; [exists 0%nat, y; repeat split|].
  destruct (IH (r - w_of y)) as (i & x & P1 & P2 & P3); [lia|].
  rewrite <- (position_shift (w_of y) l (r - w_of y) 0), N.add_0_r in P1. replace (w_of y + (r - w_of y)) with r in P1 by lia. rewrite P1.
  exists (S i), x. repeat split; assumption.
Qed.
(** the head of the selection for a draw in range *)
Lemma head_weighted r rs l : r < total_weight l -> exists x, chosen r l = Some x /\ hd_error (fst (select_by_weight (r :: rs) l)) = Some (hp x).
Proof.
  intros H. destruct (chosen_some l r H) as (i & x & P1 & P2 & P3). exists x. split; [exact P3|].
  assert (Hn : l <> []) by (intros ->; cbn in H; lia). destruct (select_cons r rs l Hn) as (l1 & y & l2 & E & EL & ES). rewrite ES. cbn [hd_error]. f_equal. f_equal.
  unfold choice in EL. cbv zeta in EL. destruct (total_weight l =? 0) eqn:Z; [lia|]. rewrite (N.mod_small r _ H), P1 in EL. subst i.
  rewrite E in P2. rewrite nth_error_app2, Nat.sub_diag in P2 by lia. now injection P2.
Qed.
Lemma head_uniform r rs l : total_weight l = 0 -> r < llen l -> exists x, nth_error l (N.to_nat r) = Some x /\ hd_error (fst (select_by_weight (r :: rs) l)) = Some (hp x).
Proof.
  intros Z H. assert (Hn : l <> []) by (intros ->; cbn in H; lia). destruct (select_cons r rs l Hn) as (l1 & y & l2 & E & EL & ES). exists y. rewrite ES. split; [|reflexivity].
  unfold choice in EL. cbv zeta in EL. rewrite Z in EL. cbn [N.eqb] in EL. rewrite (N.mod_small r _ H) in EL. rewrite E, <- EL. rewrite nth_error_app2, Nat.sub_diag by lia. reflexivity.
Qed.
Lemma count_uniform (f : wrec -> bool) l : length (filter (fun r => holds f (nth_error l (N.to_nat r))) (below (llen l))) = length (filter f l).
Proof.
  induction l as [|x l IH]; [reflexivity|]. replace (llen (x :: l)) with (1 + llen l) by (unfold llen; cbn [length]; lia).
  rewrite below_add, filter_app, app_length, filter_map_len. change (below 1) with [0]. cbn [filter N.to_nat nth_error holds].
  rewrite (filter_ext_in _ (fun r => holds f (nth_error l (N.to_nat r)))).
  - rewrite IH. destruct (f x); reflexivity.
  - intros r _. replace (N.to_nat (1 + r)) with (S (N.to_nat r)) by lia. reflexivity.
Qed.
Lemma points_to_spec h p r : names_host r = true -> points_to h p r = str_eqb (trim_dots (sv_target r)) h && (sv_port r =? p).
Proof.
  intros Hn. unfold points_to. f_equal. apply eq_iff_eq_true. rewrite !andb_true_iff, !str_eqb_spec. split.
  - intros ((H1 & H2) & H3). apply (undotted_unique (sv_target r)); [apply trim_dots_undotted|]. split.
    + exists (length (skipn (length h) (sv_target r))). rewrite <- (firstn_skipn (length h) (sv_target r)) at 1. rewrite H1. f_equal.
      revert H2. generalize (skipn (length h) (sv_target r)). induction l as [|c l IH]; intros H2; [reflexivity|]. cbn [forallb] in H2. apply andb_true_iff in H2.
      destruct H2 as [Hc H2]. apply N.eqb_eq in Hc. subst c. cbn [length List.repeat]. f_equal. now apply IH.
    + intros t' ->. rewrite last_last in H3. discriminate.
  - intros <-. destruct (trim_dots_undotted (sv_target r)) as ((k & Hk) & Hl). set (t := trim_dots (sv_target r)) in *.
    assert (Ht : t <> []). { intros E. unfold t in E. apply trim_dots_nil in E. unfold names_host in Hn. congruence. }
    split; [split|].
    + rewrite Hk, firstn_app, firstn_all, Nat.sub_diag. cbn [firstn]. apply app_nil_r.
    + rewrite Hk, skipn_len. clear. induction k; [reflexivity|exact IHk].
    + destruct (exists_last Ht) as (t' & c & E). rewrite E, last_last. destruct (c =? 46) eqn:Ec; [|reflexivity]. apply N.eqb_eq in Ec. subst c. exfalso. exact (Hl t' E).
Qed.
Definition sel_f (h : str) (p : N) (x : wrec) : bool := str_eqb (snd (fst x)) h && (snd x =? p).
Lemma at_priority_names p l r : In r (at_priority p l) -> names_host r = true.
Proof. unfold at_priority. intros H. apply filter_In in H. destruct H as [_ H]. now apply andb_true_iff in H. Qed.
Lemma sum_if_weight h p g : (forall r, In r g -> names_host r = true) -> sum_if (sel_f h p) (map wr g) = weight_for h p g.
Proof.
  induction g as [|r g IH]; intros H; [reflexivity|]. cbn [map sum_if fold_right weight_for]. fold (sum_if (sel_f h p) (map wr g)). fold (weight_for h p g).
  rewrite IH by (intros; apply H; now right). rewrite (points_to_spec h p r (H r (or_introl eq_refl))). reflexivity.
Qed.
Lemma total_weight_sum g : total_weight (map wr g) = weight_sum g.
Proof. induction g as [|r g IH]; [reflexivity|]. cbn [map total_weight weight_sum fold_right]. fold (total_weight (map wr g)). fold (weight_sum g). now rewrite IH. Qed.
Lemma groups_head p l : best_priority p l -> exists g, groups l = (p, map wr (at_priority p l)) :: g.
Proof.
  intros ((r & R1 & R2 & R3) & Hmin). destruct (groups_spec l) as (K & P & A). pose proof (groups_no_empty l) as NE. specialize (A p).
  assert (Hin : In (p, wr r) (flat (groups l))). { apply (Permutation_in _ (Permutation_sym P)). apply in_map_iff. exists r. split; [now rewrite R3|]. apply filter_In. now split. }
  destruct (groups l) as [|[q x] g] eqn:E; [destruct Hin|]. assert (q = p).
  { unfold no_empty in NE. inversion NE as [|? ? N1 N2]; subst. cbn [snd] in N1. destruct x as [|x0 x]; [congruence|].
    assert (Hq : In (q, x0) (map (fun r => (sv_prio r, wr r)) (filter names_host l))) by (apply (Permutation_in _ P); left; reflexivity).
    apply in_map_iff in Hq. destruct Hq as (r' & Hr' & Hf). injection Hr' as Hq _. apply filter_In in Hf. destruct Hf as [F1 F2]. specialize (Hmin r' F1 F2).
    assert (Hp : In (sv_prio r) (map fst ((q, x0 :: x) :: g))). { clear - Hin. unfold flat in Hin. apply in_flat_map in Hin. destruct Hin as ([k y] & G1 & G2).
      apply in_map_iff in G2. destruct G2 as (z & G2 & _). injection G2 as -> _. cbn [fst] in *. apply in_map_iff. exists (sv_prio r, y). now split. }
    unfold keys_sorted in K. cbn [map fst] in K, Hp. apply StronglySorted_inv in K. destruct K as [_ F]. destruct Hp as [Hp|Hp]; [congruence|]. rewrite Forall_forall in F. specialize (F _ Hp). lia. }
  subst q. exists g. f_equal. f_equal. rewrite at_group_cons, N.eqb_refl in A. rewrite <- A. unfold keys_sorted in K. cbn [map fst] in K. apply StronglySorted_inv in K. destruct K as [_ F].
  now rewrite (at_group_none p g F), app_nil_r.
Qed.
Lemma lookup_first d l p h q t sips host rs : d_srv d (srv_query t sips host) = Some l -> best_priority p l ->
  first_is h q (fst (lookup_srv d rs host t sips)) =
  match hd_error (fst (select_by_weight rs (map wr (at_priority p l)))) with Some (h', q') => str_eqb h' h && (q' =? q) | None => false end.
Proof.
  intros D B. destruct (groups_head p l B) as (g & E). unfold lookup_srv. rewrite srv_name_query, D, E. cbn [group_targets].
  destruct (select_by_weight_perm rs (map wr (at_priority p l))) as (l' & P & S). destruct (select_by_weight rs (map wr (at_priority p l))) as [sel rs1]. cbn [fst] in S |- *.
  destruct (group_targets rs1 t g) as [out rs2]. destruct sel as [|[h' q'] sel].
  - destruct l'; [|discriminate]. apply Permutation_sym, Permutation_nil in P. exfalso. destruct B as ((r & R1 & R2 & R3) & _).
    assert (In (wr r) (map wr (at_priority p l))). { apply in_map. unfold at_priority. apply filter_In. split; [exact R1|]. rewrite R2, R3. apply N.eqb_refl. }
    rewrite P in H. destruct H.
  - reflexivity.
Qed.
Lemma count_first d l p h q t sips host rs : d_srv d (srv_query t sips host) = Some l -> best_priority p l -> weight_sum (at_priority p l) <> 0 ->
  length (filter (fun r => first_is h q (fst (lookup_srv d (r :: rs) host t sips))) (below (weight_sum (at_priority p l)))) = N.to_nat (weight_for h q (at_priority p l)).
Proof.
  intros D B W. rewrite <- (sum_if_weight h q _ (at_priority_names p l)), <- count_chosen, total_weight_sum. f_equal. apply filter_ext_in. intros r Hr. apply below_in in Hr.
  rewrite (lookup_first d l p h q t sips host (r :: rs) D B). rewrite <- total_weight_sum in Hr. destruct (head_weighted r rs _ Hr) as (x & X1 & X2). rewrite X1, X2. reflexivity.
Qed.
Lemma count_first_zero d l p h q t sips host rs : d_srv d (srv_query t sips host) = Some l -> best_priority p l -> weight_sum (at_priority p l) = 0 ->
  length (filter (fun r => first_is h q (fst (lookup_srv d (r :: rs) host t sips))) (below (llen (at_priority p l)))) = length (filter (points_to h q) (at_priority p l)).
Proof.
  intros D B W. transitivity (length (filter (sel_f h q) (map wr (at_priority p l)))).
  - rewrite <- count_uniform. replace (llen (map wr (at_priority p l))) with (llen (at_priority p l)) by (unfold llen; now rewrite map_length). f_equal.
    apply filter_ext_in. intros r Hr. apply below_in in Hr. rewrite (lookup_first d l p h q t sips host (r :: rs) D B).
    rewrite <- total_weight_sum in W. replace (llen (at_priority p l)) with (llen (map wr (at_priority p l))) in Hr by (unfold llen; now rewrite map_length).
    destruct (head_uniform r rs _ W Hr) as (x & X1 & X2). rewrite X1, X2. reflexivity.
  - rewrite filter_map_len. f_equal. apply filter_ext_in. intros r Hr. rewrite (points_to_spec h q r (at_priority_names p l r Hr)). reflexivity.
Qed.
