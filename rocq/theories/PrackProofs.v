(** Lemmas about reliable provisional responses. *)
From Coq Require Import Arith NArith Bool String List Lia ZifyBool ZifyN ZifyNat.
Import ListNotations.
From Verif Require Import Base BaseFacts NumFacts Headers Method P_Headers Msg Dialog DialogProofs Prack PrackSpec.
Open Scope N_scope.
Open Scope list_scope.

Lemma method_eqb_spec : forall a b, method_eqb a b = true <-> a = b.
Proof.
  intros a b. split.
  - destruct a, b; cbn; intros H; try discriminate; try reflexivity. apply str_eqb_spec in H. now subst.
  - intros <-. destruct a; cbn; try reflexivity. apply str_eqb_refl.
Qed.
Lemma rack_eqb_spec : forall a b, rack_eqb a b = true <-> a = b.
Proof.
  intros [a1 a2 a3] [b1 b2 b3]. unfold rack_eqb. cbn. rewrite !andb_true_iff, !N.eqb_eq, method_eqb_spec. intuition congruence.
Qed.

(** lists of dialogs after each step *)
Lemma list_insert : forall d d' l m z, pv_list (mkPv (insert str_eqb d l m) z) d' = if str_eqb d d' then l else pv_list (mkPv m z) d'.
Proof.
  intros d d' l m z. unfold pv_list. cbn [pv_pending]. destruct (str_eqb d d') eqn:E.
  - apply str_eqb_spec in E. subst. now rewrite (lookup_insert_same _ str_eqb_spec).
  - apply str_eqb_neq in E. now rewrite (lookup_insert_other _ str_eqb_spec) by congruence.
Qed.
Lemma list_update : forall v d f d', f [] = [] -> pv_list (pv_update v d f) d' = if str_eqb d d' then f (pv_list v d') else pv_list v d'.
Proof.
  intros v d f d' Hf. unfold pv_update. destruct (lookup str_eqb d (pv_pending v)) as [l|] eqn:L.
  - rewrite list_insert. destruct (str_eqb d d') eqn:E; [|reflexivity]. apply str_eqb_spec in E. subst. unfold pv_list. now rewrite L.
  - destruct (str_eqb d d') eqn:E; [|reflexivity]. apply str_eqb_spec in E. subst. unfold pv_list. now rewrite L.
Qed.
Definition keep (now : N) (p : pend) : bool := negb (pe_pracked p) && (now - pe_created p <=? PRACK_TIMEOUT).
Lemma list_sweep : forall v d now d', pv_list (pv_sweep v d now) d' = if str_eqb d d' then filter (keep now) (pv_list v d') else pv_list v d'.
Proof. intros. unfold pv_sweep. now rewrite list_update. Qed.
Lemma list_cleanup : forall v d now d', pv_list (pv_cleanup v d now) d' = pv_list v d'
  \/ (str_eqb d d' = true /\ pv_list (pv_cleanup v d now) d' = filter (keep now) (pv_list v d')).
Proof.
  intros v d now d'. unfold pv_cleanup. destruct (lookup str_eqb d (pv_last v)) as [t|].
  - destruct (_ <=? _); [|now left]. rewrite list_sweep. destruct (str_eqb d d'); [right|left]; [split|]; reflexivity.
  - rewrite list_sweep. destruct (str_eqb d d'); [right|left]; [split|]; reflexivity.
Qed.
Definition trunc (l : list pend) : list pend :=
  if (MAX_PENDING <=? length l)%nat then skipn (length l + 1 - MAX_PENDING) l else l.
Lemma list_push : forall v d p d', pv_list (pv_push v d p) d' = if str_eqb d d' then trunc (pv_list v d') ++ [p] else pv_list v d'.
Proof.
  intros v d p d'. unfold pv_push. rewrite list_insert. destruct (str_eqb d d') eqn:E; [|reflexivity]. apply str_eqb_spec in E. now subst.
Qed.
Lemma check_cases : forall v d hs,
  pv_check v d hs = (v, None)
  \/ exists r l p, lookup str_eqb d (pv_pending v) = Some l /\ find (fun p => pe_rseq p =? ra_rseq r) l = Some p
     /\ mkRack (pe_rseq p) (pe_cseq p) (pe_method p) = r /\ pe_pracked p = false
     /\ pv_check v d hs = (mkPv (insert str_eqb d (mark_first (ra_rseq r) l) (pv_pending v)) (pv_last v), Some r).
Proof.
  intros v d hs. unfold pv_check. destruct (hget _ _) as [t|]; [|now left]. destruct (rack_parse t) as [r|]; [|now left].
  destruct (lookup _ _ _) as [l|] eqn:L; [|now left]. destruct (find _ l) as [p|] eqn:F; [|now left].
  destruct (negb (pe_cseq p =? ra_cseq r)) eqn:C; [now left|]. destruct (negb (method_eqb _ _)) eqn:M; [now left|].
  destruct (pe_pracked p) eqn:P; [now left|]. right. exists r, l, p. repeat (split; [assumption || reflexivity|]).
  apply negb_false_iff in C, M. apply N.eqb_eq in C. apply method_eqb_spec in M.
  pose proof (find_some _ _ F) as [_ Q]. cbn in Q. apply N.eqb_eq in Q. split; [|split; [assumption|reflexivity]].
  destruct r; cbn in *; congruence.
Qed.
Lemma list_remove : forall v d d', pv_list (pv_remove v d) d' = if str_eqb d d' then [] else pv_list v d'.
Proof.
  intros v d d'. unfold pv_list, pv_remove. cbn [pv_pending]. destruct (str_eqb d d') eqn:E.
  - apply str_eqb_spec in E. subst. now rewrite lookup_remove_same.
  - apply str_eqb_neq in E. now rewrite (lookup_remove_other _ str_eqb_spec) by congruence.
Qed.
Definition keep_un (rseq : N) (p : pend) : bool := negb (pe_rseq p =? rseq) || negb (pe_pracked p).
Lemma list_remove_pracked : forall v d r d', pv_list (pv_remove_pracked v d r) d' = if str_eqb d d' then filter (keep_un r) (pv_list v d') else pv_list v d'.
Proof. intros. unfold pv_remove_pracked. now rewrite list_update. Qed.
Lemma list_check : forall v d hs d', pv_list (fst (pv_check v d hs)) d' =
  match snd (pv_check v d hs) with
  | Some r => if str_eqb d d' then mark_first (ra_rseq r) (pv_list v d') else pv_list v d'
  | None => pv_list v d'
  end.
Proof.
  intros v d hs d'. destruct (check_cases v d hs) as [->|(r & l & p & L & _ & _ & _ & ->)]; cbn [fst snd]; [reflexivity|].
  rewrite list_insert. destruct (str_eqb d d') eqn:E; [|reflexivity]. apply str_eqb_spec in E. subst. unfold pv_list. now rewrite L.
Qed.

(** ** C28 *)
Definition tag_of (p : pend) : rack := mkRack (pe_rseq p) (pe_cseq p) (pe_method p).
Definition open_n (x : rack) (l : list pend) : N := llen (filter (fun p => rack_eqb (tag_of p) x && negb (pe_pracked p)) l).
Lemma open_filter : forall x f l, open_n x (filter f l) <= open_n x l.
Proof. intros. apply filter_filter_le. Qed.
Lemma open_app : forall x a b, open_n x (a ++ b) = open_n x a + open_n x b.
Proof. intros. unfold open_n. now rewrite filter_app, llen_app. Qed.
Lemma open_skipn : forall x n l, open_n x (skipn n l) <= open_n x l.
Proof. intros x n l. rewrite <- (firstn_skipn n l) at 2. rewrite open_app. lia. Qed.
Lemma open_trunc : forall x l, open_n x (trunc l) <= open_n x l.
Proof. intros. unfold trunc. destruct (_ <=? _)%nat; [apply open_skipn|lia]. Qed.
Lemma open_mark : forall rseq x l p, find (fun p => pe_rseq p =? rseq) l = Some p -> pe_pracked p = false ->
  open_n x (mark_first rseq l) + (if rack_eqb (tag_of p) x then 1 else 0) = open_n x l.
Proof.
  intros rseq x l p. induction l as [|q l IH]; intros F P; [discriminate|]. cbn [find mark_first] in *.
  destruct (pe_rseq q =? rseq) eqn:E.
  - injection F as ->. unfold open_n. cbn [filter]. change (tag_of (mkPend _ _ _ _ _ _)) with (tag_of p).
    cbn [pe_pracked]. rewrite P, andb_false_r. cbn [negb]. rewrite andb_true_r. destruct (rack_eqb (tag_of p) x); rewrite ?llen_cons; lia.
  - specialize (IH F P). unfold open_n in *. cbn [filter]. destruct (_ && _); rewrite ?llen_cons; lia.
Qed.
Lemma count_app : forall d x a b, count d x (a ++ b) = count d x a + count d x b.
Proof. intros. unfold count. now rewrite filter_app, llen_app. Qed.
Lemma acked_bound : forall ops v d x, count d x (acked v ops) <= count d x (registered ops) + open_n x (pv_list v d).
Proof.
  induction ops as [|o ops IH]; intros v d x; [cbn; lia|]. cbn [acked]. specialize (IH (pv_step v o) d x).
  change (registered (o :: ops)) with ((match o with PPush d r c m _ _ => [(d, mkRack r c m)] | _ => [] end) ++ registered ops).
  rewrite !count_app. destruct o as [e now|e now|e r c m code t|e hs|e|e r]; cbn [pv_step] in IH.
  - destruct (list_cleanup v e now d) as [E|[_ E]]; rewrite E in IH; [cbn; lia|]. pose proof (open_filter x (keep now) (pv_list v d)). cbn; lia.
  - rewrite list_sweep in IH. pose proof (open_filter x (keep now) (pv_list v d)). destruct (str_eqb e d); cbn; lia.
  - rewrite list_push in IH. unfold count at 3. cbn [filter fst snd]. destruct (str_eqb e d); cbn [andb].
    + rewrite open_app in IH. pose proof (open_trunc x (pv_list v d)) as T. unfold open_n at 2 in IH. cbn [filter pe_pracked negb] in IH.
      change (tag_of (mkPend r c m code false t)) with (mkRack r c m) in IH. rewrite andb_true_r in IH.
      change (count d x []) with 0. cbn [pv_step].
      destruct (rack_eqb (mkRack r c m) x); unfold llen at 1 in IH; unfold llen at 1; cbn [length N.of_nat Pos.of_succ_nat] in *; lia.
    + change (count d x []) with 0. cbn [pv_step]. change (llen (@nil (str * rack))) with 0. lia.
  - rewrite list_check in IH. destruct (check_cases v e hs) as [E|(r & l & p & L & F & T & P & E)]; cbn [pv_step]; rewrite E in *; cbn [snd fst] in *; [change (count d x []) with 0; lia|].
    unfold count at 1. cbn [filter fst snd]. destruct (str_eqb e d) eqn:D; cbn [andb].
    + apply str_eqb_spec in D. subst e. assert (PL : pv_list v d = l) by (unfold pv_list; now rewrite L). rewrite PL in *.
      pose proof (open_mark (ra_rseq r) x l p F P) as O. unfold tag_of in O. rewrite T in O. change (count d x []) with 0. destruct (rack_eqb r x); unfold llen at 1; cbn [length N.of_nat Pos.of_succ_nat]; lia.
    + change (count d x []) with 0. change (llen (@nil (str * rack))) with 0. lia.
  - rewrite list_remove in IH. destruct (str_eqb e d); cbn in *; lia.
  - rewrite list_remove_pracked in IH. pose proof (open_filter x (keep_un r) (pv_list v d)). destruct (str_eqb e d); cbn; lia.
Qed.

(** ** C29 *)
Lemma mark_first_length : forall r l, length (mark_first r l) = length l.
Proof. intros r l. induction l as [|p l IH]; [reflexivity|]. cbn. destruct (_ =? _); cbn; congruence. Qed.
Lemma filter_len : forall A (f : A -> bool) l, (length (filter f l) <= length l)%nat.
Proof. intros A f l. induction l as [|x l IH]; cbn; [lia|]. destruct (f x); cbn; lia. Qed.
Lemma trunc_length : forall l, (length l <= 10)%nat -> (length (trunc l) <= 9)%nat.
Proof.
  intros l H. unfold trunc, MAX_PENDING. destruct (10 <=? length l)%nat eqn:E; [rewrite skipn_length; lia|].
  apply Nat.leb_gt in E. lia.
Qed.
Lemma step_length : forall v o d, (forall d, (length (pv_list v d) <= 10)%nat) -> (length (pv_list (pv_step v o) d) <= 10)%nat.
Proof.
  intros v o d H. destruct o as [e now|e now|e r c m code t|e hs|e|e r]; cbn [pv_step].
  - destruct (list_cleanup v e now d) as [->|[_ ->]]; [apply H|]. pose proof (filter_len _ (keep now) (pv_list v d)). specialize (H d). lia.
  - rewrite list_sweep. destruct (str_eqb e d); [|apply H]. pose proof (filter_len _ (keep now) (pv_list v d)). specialize (H d). lia.
  - rewrite list_push. destruct (str_eqb e d); [|apply H]. rewrite app_length. pose proof (trunc_length _ (H d)). cbn. lia.
  - rewrite list_check. destruct (snd _); [|apply H]. destruct (str_eqb e d); [rewrite mark_first_length|]; apply H.
  - rewrite list_remove. destruct (str_eqb e d); [cbn; lia|apply H].
  - rewrite list_remove_pracked. destruct (str_eqb e d); [|apply H]. pose proof (filter_len _ (keep_un r) (pv_list v d)). specialize (H d). lia.
Qed.
Lemma run_length : forall ops v, (forall d, (length (pv_list v d) <= 10)%nat) -> forall d, (length (pv_list (pv_run v ops) d) <= 10)%nat.
Proof.
  induction ops as [|o ops IH]; intros v H d; [apply H|]. cbn [pv_run fold_left]. apply IH. intros e. now apply step_length.
Qed.

(** ** C28, the other direction: position of an entry *)
(** [p] is an unacknowledged entry, the first with its RSeq, followed by at
    most [k] entries *)
Definition holds (p : pend) (k : nat) (l : list pend) : Prop :=
  exists a b, l = a ++ p :: b /\ (length b <= k)%nat /\ Forall (fun q => pe_rseq q <> pe_rseq p) a.
Lemma holds_filter : forall f p k l, f p = true -> holds p k l -> holds p k (filter f l).
Proof.
  intros f p k l Hf (a & b & -> & Hb & Ha). exists (filter f a), (filter f b). split; [|split].
  - rewrite filter_app. cbn [filter]. now rewrite Hf.
  - pose proof (filter_len _ f b). lia.
  - rewrite Forall_forall in *. intros q Hq. apply filter_In in Hq. now apply Ha.
Qed.
Lemma holds_push : forall p k l q, (k < 9)%nat -> (length l <= 10)%nat -> holds p k l -> holds p (S k) (trunc l ++ [q]).
Proof.
  intros p k l q Hk Hl (a & b & -> & Hb & Ha). unfold trunc, MAX_PENDING. destruct (10 <=? _)%nat eqn:E.
  - apply Nat.leb_le in E. rewrite app_length in *. cbn [length] in *.
    destruct a as [|x a]; [cbn [length] in *; lia|].
    replace (length (x :: a) + S (length b) + 1 - 10)%nat with 1%nat by lia. cbn [skipn app].
    exists a, (b ++ [q]). split; [now rewrite <- app_assoc|]. split; [rewrite app_length; cbn; lia|]. now inversion Ha.
  - exists a, (b ++ [q]). split; [now rewrite <- app_assoc|]. split; [rewrite app_length; cbn; lia|assumption].
Qed.
Lemma find_first : forall rseq a p b, Forall (fun q => pe_rseq q <> rseq) a -> pe_rseq p = rseq ->
  find (fun q => pe_rseq q =? rseq) (a ++ p :: b) = Some p
  /\ mark_first rseq (a ++ p :: b) = a ++ mkPend (pe_rseq p) (pe_cseq p) (pe_method p) (pe_code p) true (pe_created p) :: b.
Proof.
  intros rseq a p b Ha E. induction Ha as [|q a Hq Ha IH]; cbn [app find mark_first].
  - now rewrite E, N.eqb_refl.
  - replace (pe_rseq q =? rseq) with false by lia. destruct IH as [-> ->]. now split.
Qed.
Lemma mark_other : forall p k l rseq, rseq <> pe_rseq p -> holds p k l -> holds p k (mark_first rseq l).
Proof.
  intros p k l rseq Hr (a & b & -> & Hb & Ha).
  induction Ha as [|q a Hq Ha IH]; cbn [app mark_first].
  - replace (pe_rseq p =? rseq) with false by lia. exists [], (mark_first rseq b). split; [reflexivity|].
    split; [now rewrite mark_first_length|constructor].
  - destruct (pe_rseq q =? rseq) eqn:E.
    + exists (mkPend (pe_rseq q) (pe_cseq q) (pe_method q) (pe_code q) true (pe_created q) :: a), b. split; [reflexivity|]. split; [assumption|].
      constructor; assumption.
    + destruct IH as (a' & b' & E' & Hb' & Ha'). exists (q :: a'), b'. split; [cbn; now rewrite E'|]. split; [assumption|]. now constructor.
Qed.
Lemma holds_run : forall ops v d p k, (forall e, (length (pv_list v e) <= 10)%nat) -> holds p k (pv_list v d) ->
  pe_pracked p = false -> (N.of_nat k + pushes d ops <= 9) -> sweeps_before d (pe_created p + PRACK_TIMEOUT) ops ->
  ~ In (PRemoveDialog d) ops -> (forall x, In (d, x) (acked v ops) -> ra_rseq x <> pe_rseq p) ->
  exists k', holds p k' (pv_list (pv_run v ops) d).
Proof.
  induction ops as [|o ops IH]; intros v d p k HL HH HP HK HS HR HA; [eauto|]. cbn [pv_run fold_left].
  assert (HL' : forall e, (length (pv_list (pv_step v o) e) <= 10)%nat) by (intros; now apply step_length).
  assert (HS' : sweeps_before d (pe_created p + PRACK_TIMEOUT) ops) by (intros now Hn; apply HS; cbn; tauto).
  assert (HR' : ~ In (PRemoveDialog d) ops) by (intros X; apply HR; now right).
  assert (HA' : forall x, In (d, x) (acked (pv_step v o) ops) -> ra_rseq x <> pe_rseq p).
  { intros x Hx. apply HA. cbn [acked]. apply in_or_app. now right. }
  unfold pushes in HK. change (registered (o :: ops)) with ((match o with PPush d r c m _ _ => [(d, mkRack r c m)] | _ => [] end) ++ registered ops) in HK.
  rewrite filter_app, llen_app in HK.
  assert (KP : forall now, now <= pe_created p + PRACK_TIMEOUT -> keep now p = true) by (intros now Hn; unfold keep; rewrite HP; cbn [negb andb]; apply N.leb_le; lia).
  assert (G : forall k', holds p k' (pv_list (pv_step v o) d) -> N.of_nat k' + pushes d ops <= 9 -> exists k'', holds p k'' (pv_list (fold_left pv_step ops (pv_step v o)) d)).
  { intros k' H1 H2. apply (IH (pv_step v o) d p k'); assumption. }
  destruct o as [e now|e now|e r c m code t|e hs|e|e r]; cbn [pv_step] in *.
  - apply (G k); [|unfold pushes; cbn [filter] in HK; change (llen (@nil (str * rack))) with 0 in HK; lia]. destruct (list_cleanup v e now d) as [->|[Ee ->]]; [assumption|].
    apply str_eqb_spec in Ee. subst e. apply holds_filter; [|assumption]. apply KP. apply HS. left. now left.
  - apply (G k); [|unfold pushes; cbn [filter] in HK; change (llen (@nil (str * rack))) with 0 in HK; lia]. rewrite list_sweep. destruct (str_eqb e d) eqn:Ee; [|assumption].
    apply str_eqb_spec in Ee. subst e. apply holds_filter; [|assumption]. apply KP. apply HS. right. now left.
  - rewrite list_push in G. cbn [filter fst] in HK. destruct (str_eqb e d) eqn:Ee.
    + rewrite llen_cons in HK. change (llen (@nil (str * rack))) with 0 in HK.
      apply (G (S k)); [|unfold pushes; lia]. apply holds_push; [lia|apply HL|assumption].
    + apply (G k); [assumption|]. unfold pushes. cbn [filter] in HK; change (llen (@nil (str * rack))) with 0 in HK; lia.
  - apply (G k); [|unfold pushes; cbn [filter] in HK; change (llen (@nil (str * rack))) with 0 in HK; lia]. rewrite list_check. cbn [acked] in HA.
    destruct (snd (pv_check v e hs)) as [x|]; [|assumption]. destruct (str_eqb e d) eqn:Ee; [|assumption].
    apply str_eqb_spec in Ee. subst e. apply mark_other; [|assumption]. apply HA. now left.
  - apply (G k); [|unfold pushes; cbn [filter] in HK; change (llen (@nil (str * rack))) with 0 in HK; lia]. rewrite list_remove. destruct (str_eqb e d) eqn:Ee; [|assumption].
    apply str_eqb_spec in Ee. subst e. exfalso. apply HR. now left.
  - apply (G k); [|unfold pushes; cbn [filter] in HK; change (llen (@nil (str * rack))) with 0 in HK; lia]. rewrite list_remove_pracked. destruct (str_eqb e d) eqn:Ee; [|assumption].
    apply holds_filter; [|assumption]. unfold keep_un. rewrite HP. cbn. apply orb_true_r.
Qed.
(** RSeq numbers never registered do not occur *)
Lemma absent_step : forall v o d rs, (forall q, In q (pv_list v d) -> pe_rseq q <> rs) ->
  (forall c m code t, o <> PPush d rs c m code t) -> forall q, In q (pv_list (pv_step v o) d) -> pe_rseq q <> rs.
Proof.
  intros v o d rs H NP q Hq. destruct o as [e now|e now|e r c m code t|e hs|e|e r]; cbn [pv_step] in Hq.
  - destruct (list_cleanup v e now d) as [E|[_ E]]; rewrite E in Hq; [auto|]. apply filter_In in Hq. now apply H.
  - rewrite list_sweep in Hq. destruct (str_eqb e d); [apply filter_In in Hq|]; now apply H.
  - rewrite list_push in Hq. destruct (str_eqb e d) eqn:Ee; [|auto]. apply str_eqb_spec in Ee. subst e. apply in_app_or in Hq. destruct Hq as [Hq|[<-|[]]].
    + apply H. unfold trunc in Hq. destruct (_ <=? _)%nat; [|assumption]. rewrite <- (firstn_skipn (length (pv_list v d) + 1 - MAX_PENDING) (pv_list v d)).
      apply in_or_app. now right.
    + cbn. intros ->. now apply (NP c m code t).
  - rewrite list_check in Hq. destruct (snd _) as [x|]; [|auto]. destruct (str_eqb e d); [|auto].
    revert Hq. generalize (pv_list v d) H. clear. intros l H. induction l as [|p l IH]; cbn [mark_first]; [intros []|].
    destruct (_ =? _).
    + intros [<-|Hq]; cbn; apply H; [now left|now right].
    + intros [<-|Hq]; [apply H; now left|]. apply IH; [|assumption]. intros z Hz. apply H. now right.
  - rewrite list_remove in Hq. destruct (str_eqb e d); [destruct Hq|auto].
  - rewrite list_remove_pracked in Hq. destruct (str_eqb e d); [apply filter_In in Hq|]; now apply H.
Qed.
Lemma absent_run : forall ops v d rs, (forall q, In q (pv_list v d) -> pe_rseq q <> rs) ->
  (forall c m code t, ~ In (PPush d rs c m code t) ops) -> forall q, In q (pv_list (pv_run v ops) d) -> pe_rseq q <> rs.
Proof.
  induction ops as [|o ops IH]; intros v d rs H NP; [assumption|]. cbn [pv_run fold_left]. apply IH.
  - apply absent_step; [assumption|]. intros c m code t ->. apply (NP c m code t). now left.
  - intros c m code t Hi. apply (NP c m code t). now right.
Qed.

(** ** Texts *)
Lemma split_ws_aux_word : forall w cur r, forallb (fun c => negb (is_ws c)) w = true ->
  split_ws_aux cur (w ++ r) = split_ws_aux (rev w ++ cur) r.
Proof.
  induction w as [|c w IH]; intros cur r H; [reflexivity|]. cbn [forallb] in H. apply andb_true_iff in H. destruct H as [Hc Hw].
  apply negb_true_iff in Hc. cbn [app split_ws_aux]. rewrite Hc, IH by assumption. cbn [rev]. now rewrite <- app_assoc.
Qed.
Lemma split_ws_three : forall a b c, a <> [] -> b <> [] -> c <> [] ->
  forallb (fun x => negb (is_ws x)) a = true -> forallb (fun x => negb (is_ws x)) b = true -> forallb (fun x => negb (is_ws x)) c = true ->
  split_ws (a ++ lit " " ++ b ++ lit " " ++ c) = [a; b; c].
Proof.
  assert (S1 : forall w r, w <> [] -> forallb (fun x => negb (is_ws x)) w = true -> split_ws_aux [] (w ++ lit " " ++ r) = w :: split_ws_aux [] r).
  { intros w r Hn Hw. rewrite split_ws_aux_word by assumption. cbn [lit app].
    change (lit " " ++ r) with (32 :: r). cbn [split_ws_aux]. change (is_ws 32) with true. cbn iota.
    rewrite app_nil_r. destruct (rev w) as [|x l] eqn:E.
    - exfalso. apply Hn. rewrite <- (rev_involutive w), E. reflexivity.
    - rewrite <- E, rev_involutive. reflexivity. }
  intros a b c Ha Hb Hc Wa Wb Wc. unfold split_ws. rewrite (S1 a) by assumption. rewrite (S1 b) by assumption. f_equal. f_equal.
  rewrite <- (app_nil_r c) at 1. rewrite split_ws_aux_word by assumption. cbn [split_ws_aux]. rewrite app_nil_r.
  destruct (rev c) as [|x l] eqn:E.
  - exfalso. apply Hc. rewrite <- (rev_involutive c), E. reflexivity.
  - now rewrite <- E, rev_involutive.
Qed.
Lemma method_words : forall t m, method_from_token t = Ok m ->
  method_str m <> [] /\ blen (method_str m) <= 32 /\ forallb (fun x => negb (is_ws x)) (method_str m) = true.
Proof.
  intros t m H. unfold method_from_token in H.
  destruct (find (fun m0 => eq_ic t (method_str m0)) standard_methods) as [m0|] eqn:E.
  - injection H as <-. apply find_some in E. destruct E as [Hin _].
    repeat (destruct Hin as [<-|Hin]; [split; [discriminate|split; [vm_compute; discriminate|reflexivity]]|]). destruct Hin.
  - destruct (validate_method_token t) eqn:Ev; [discriminate|]. injection H as <-. cbn [method_str].
    unfold validate_method_token, MAX_METHOD_LENGTH in Ev. destruct t as [|c t]; [discriminate|].
    destruct (32 <? blen (c :: t)) eqn:E1; [discriminate|]. destruct (existsb _ (c :: t)); [discriminate|].
    destruct (forallb method_char (c :: t)) eqn:E3; [|discriminate]. split; [discriminate|]. split.
    + rewrite blen_upper. lia.
    + apply forallb_forall. intros x Hx. unfold upper in Hx. apply in_map_iff in Hx. destruct Hx as (y & <- & Hy).
      rewrite forallb_forall in E3. apply E3 in Hy. unfold method_char in Hy.
      assert (33 <= y <= 126).
      { apply orb_true_iff in Hy. destruct Hy as [Hy|Hy]; [unfold is_alnum, is_alpha, is_upper, is_lower, is_digit, in_range in Hy; lia|].
        apply existsb_exists in Hy. destruct Hy as (z & Hz & Q). apply N.eqb_eq in Q. subst z. cbn in Hz. lia. }
      unfold upper_c. destruct (is_lower y) eqn:L; unfold is_lower, in_range in L; unfold is_ws, in_range; lia.
Qed.
(** any two calls give the same kind of result *)
Lemma next_rseq_other : forall rnd id id' m, id <> id' -> lookup did_eqb id' (fst (next_rseq rnd id m)) = lookup did_eqb id' m.
Proof. intros. unfold next_rseq. cbn [fst]. apply (lookup_insert_other _ did_eqb_spec). congruence. Qed.
Lemma next_rseq_same : forall rnd id m, lookup did_eqb id (fst (next_rseq rnd id m)) = Some (snd (next_rseq rnd id m)).
Proof. intros. unfold next_rseq. cbn [fst snd]. apply (lookup_insert_same _ did_eqb_spec). Qed.
