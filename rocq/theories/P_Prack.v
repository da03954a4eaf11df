(** Property theorems for reliable provisional responses (C28-C30, C82). *)
From Coq Require Import Arith NArith Bool String List Lia ZifyBool ZifyN ZifyNat.
Import ListNotations.
From Verif Require Import Base BaseFacts NumFacts Headers Method UriProofs P_Headers Msg Dialog DialogProofs P_Dialog Prack PrackSpec PrackProofs.
Open Scope N_scope.
Open Scope list_scope.

(** ** C28: whatever the interleaving of registrations, PRACKs, clean-ups and
    removals, the PRACKs accepted on a dialog for a response (RSeq, CSeq,
    method) are at most as many as the registrations of exactly that response
    on exactly that dialog: a response registered once is acknowledged at most
    once, one never registered is never acknowledged. *)
Theorem C28_at_most_once : forall ops d x,
  count d x (acked pv_empty ops) <= count d x (registered ops).
Proof. intros ops d x. pose proof (acked_bound ops pv_empty d x) as H. unfold open_n in H. cbn in H. lia. Qed.
Print Assumptions C28_at_most_once.
(** An accepted PRACK carries a RAck header that reads as the response it
    acknowledges, and leaves the responses of every other dialog alone. *)
Theorem C28_names : forall v d hs v' x, pv_check v d hs = (v', Some x) ->
  (exists t, hget (lit "RAck") hs = Some t /\ rack_parse t = Some x)
  /\ pv_is_pracked v' d (ra_rseq x) = true
  /\ forall d', d' <> d -> pv_list v' d' = pv_list v d'.
Proof.
  intros v d hs v' x H. split; [|split].
  - unfold pv_check in H. destruct (hget _ _) as [t|]; [|discriminate]. exists t. split; [reflexivity|].
    destruct (rack_parse t) as [r|]; [|discriminate]. destruct (lookup _ _ _); [|discriminate]. destruct (find _ _) as [p|]; [|discriminate].
    destruct (negb (pe_cseq p =? _)); [discriminate|]. destruct (negb (method_eqb _ _)); [discriminate|]. destruct (pe_pracked p); congruence.
  - destruct (check_cases v d hs) as [E|(r & l & p & L & F & T & P & E)]; rewrite E in H; [discriminate|]. injection H as <- ->.
    unfold pv_is_pracked. rewrite list_insert, str_eqb_refl.
    assert (G : forall rs l p, find (fun q => pe_rseq q =? rs) l = Some p -> exists q, find (fun q => pe_rseq q =? rs) (mark_first rs l) = Some q /\ pe_pracked q = true).
    { clear. intros rs l p. induction l as [|q l IH]; [discriminate|]. cbn [find mark_first]. destruct (pe_rseq q =? rs) eqn:E.
      - intros _. cbn [find pe_rseq]. rewrite E. eexists. split; reflexivity.
      - intros H. cbn [find]. rewrite E. auto. }
    destruct (G _ _ _ F) as (q & -> & Q). exact Q.
  - intros d' Hd. pose proof (list_check v d hs d') as G. rewrite H in G. cbn [fst snd] in G. rewrite G.
    destruct (str_eqb d d') eqn:E; [|reflexivity]. apply str_eqb_spec in E. congruence.
Qed.
Print Assumptions C28_names.
(** And the awaited PRACK is accepted: after a response has been registered
    under an RSeq not used before on its dialog, if no PRACK with that RSeq has
    been accepted since, at most nine further responses have been registered on
    the dialog, no clean-up of it ran later than 300 s after the registration
    and the dialog was not removed, a PRACK naming the response is accepted. *)
Theorem C28_accepts : forall ops1 ops2 d r c m code t hs txt,
  (forall c' m' code' t', ~ In (PPush d r c' m' code' t') ops1) ->
  (forall x, In (d, x) (acked (pv_run pv_empty (ops1 ++ [PPush d r c m code t])) ops2) -> ra_rseq x <> r) ->
  pushes d ops2 <= 9 -> sweeps_before d (t + 300 * NS) ops2 -> ~ In (PRemoveDialog d) ops2 ->
  hget (lit "RAck") hs = Some txt -> rack_parse txt = Some (mkRack r c m) ->
  snd (pv_check (pv_run pv_empty (ops1 ++ PPush d r c m code t :: ops2)) d hs) = Some (mkRack r c m).
Proof.
  intros ops1 ops2 d r c m code t hs txt HF HA HK HS HR HH HP.
  set (v1 := pv_run pv_empty (ops1 ++ [PPush d r c m code t])) in *.
  assert (E1 : pv_run pv_empty (ops1 ++ PPush d r c m code t :: ops2) = pv_run v1 ops2).
  { unfold v1, pv_run. rewrite !fold_left_app. reflexivity. }
  rewrite E1. set (p := mkPend r c m code false t).
  assert (HL : forall e, (length (pv_list v1 e) <= 10)%nat) by (intros; apply run_length; intros; cbn; lia).
  assert (H1 : holds p 0 (pv_list v1 d)).
  { unfold v1, pv_run. rewrite fold_left_app. cbn [fold_left pv_step]. rewrite list_push, str_eqb_refl.
    set (v0 := fold_left pv_step ops1 pv_empty). exists (trunc (pv_list v0 d)), []. split; [reflexivity|]. split; [reflexivity|].
    apply Forall_forall. intros q Hq. apply (absent_run ops1 pv_empty d r); [intros q' []|assumption|].
    unfold pv_run. fold v0. unfold trunc in Hq. destruct (_ <=? _)%nat; [|assumption].
    rewrite <- (firstn_skipn (length (pv_list v0 d) + 1 - MAX_PENDING) (pv_list v0 d)). apply in_or_app. now right. }
  destruct (holds_run ops2 v1 d p 0 HL H1 eq_refl) as (k & a & b & HE & _ & Ha); try assumption.
  assert (L : exists l, lookup str_eqb d (pv_pending (pv_run v1 ops2)) = Some l /\ l = a ++ p :: b).
  { unfold pv_list in HE. destruct (lookup _ _ _) as [l|]; [eauto|]. now apply app_cons_not_nil in HE. }
  destruct L as (l & L & ->). unfold pv_check. rewrite HH, HP, L. cbn [ra_rseq ra_cseq ra_method].
  destruct (find_first r a p b Ha eq_refl) as [-> _]. cbn [p pe_cseq pe_method pe_pracked].
  rewrite N.eqb_refl. replace (method_eqb m m) with true by (symmetry; now apply method_eqb_spec). reflexivity.
Qed.
Print Assumptions C28_accepts.

Definition pk_hdr (s : str) : headers := [(lit "RAck", s)].
Definition pk_ops : list pv_op :=
  [PCleanup (lit "d") 0; PPush (lit "d") 7 1 MInvite 183 0; PCleanup (lit "d") NS; PPush (lit "d") 8 1 MInvite 180 NS;
   PCheck (lit "e") (pk_hdr (lit "7 1 INVITE")); PCheck (lit "d") (pk_hdr (lit "7 2 INVITE"));
   PCheck (lit "d") (pk_hdr (lit "7 1 INVITE")); PCheck (lit "d") (pk_hdr (lit "7 1 invite"))].
Example C28_example :
  acked pv_empty pk_ops = [(lit "d", mkRack 7 1 MInvite)] /\ count (lit "d") (mkRack 7 1 MInvite) (registered pk_ops) = 1.
Proof. vm_compute. split; reflexivity. Qed.
Example C28_accepts_example :
  let ops2 := [PPush (lit "d") 8 1 MInvite 180 NS; PCheck (lit "d") (pk_hdr (lit "8 1 INVITE")); PCleanup (lit "d") (300 * NS)] in
  (forall x, In (lit "d", x) (acked (pv_run pv_empty ([] ++ [PPush (lit "d") 7 1 MInvite 183 0])) ops2) -> ra_rseq x <> 7)
  /\ acked (pv_run pv_empty [PPush (lit "d") 7 1 MInvite 183 0]) ops2 <> []
  /\ pushes (lit "d") ops2 = 1 /\ sweeps_before (lit "d") (0 + 300 * NS) ops2.
Proof.
  cbn zeta. split; [|split; [discriminate|split; [reflexivity|]]].
  - intros x H. replace x with (mkRack 8 1 MInvite); [discriminate|]. revert H. vm_compute. intros [[= <-]|[]]. reflexivity.
  - intros now [H|H]; cbn [In] in H; repeat (destruct H as [H|H]; [try discriminate H; injection H as <-; apply N.le_refl|]); destruct H.
Qed.

(** ** C29: at most ten responses are remembered per dialog at any time, and a
    registration drops at most one of them: the oldest, and only when ten are
    held.  Everything else stays, the new one becomes the last. *)
Theorem C29_bounded : forall ops d, (length (pv_list (pv_run pv_empty ops) d) <= 10)%nat.
Proof. intros ops d. apply run_length. intros; cbn; lia. Qed.
Print Assumptions C29_bounded.
Theorem C29_drops_oldest : forall ops d r c m code t,
  let old := pv_list (pv_run pv_empty ops) d in
  let new := pv_list (pv_run pv_empty (ops ++ [PPush d r c m code t])) d in
  exists dropped kept, old = dropped ++ kept /\ new = kept ++ [mkPend r c m code false t]
  /\ length dropped = (if (length old =? 10)%nat then 1 else 0)%nat.
Proof.
  intros ops d r c m code t. cbn zeta. pose proof (C29_bounded ops d) as B.
  unfold pv_run at 2. rewrite fold_left_app. cbn [fold_left pv_step]. fold (pv_run pv_empty ops). rewrite list_push, str_eqb_refl.
  set (l := pv_list (pv_run pv_empty ops) d) in *. unfold trunc, MAX_PENDING. destruct (10 <=? length l)%nat eqn:E.
  - apply Nat.leb_le in E. replace (length l + 1 - 10)%nat with 1%nat by lia. exists (firstn 1 l), (skipn 1 l).
    split; [now rewrite firstn_skipn|]. split; [reflexivity|]. rewrite firstn_length. replace (length l =? 10)%nat with true by (symmetry; apply Nat.eqb_eq; lia). lia.
  - apply Nat.leb_gt in E. exists [], l. split; [reflexivity|]. split; [reflexivity|].
    replace (length l =? 10)%nat with false by (symmetry; apply Nat.eqb_neq; lia). reflexivity.
Qed.
Print Assumptions C29_drops_oldest.
Example C29_example :
  let ops := map (fun k => PPush (lit "d") k 1 MInvite 180 0) [1;2;3;4;5;6;7;8;9;10;11;12] in
  map fst (pv_get_pending (pv_run pv_empty ops) (lit "d")) = [3;4;5;6;7;8;9;10;11;12].
Proof. reflexivity. Qed.
(** [get_pending] lists exactly the registered responses that are not acknowledged *)
Theorem C29_pending : forall v d r c, In (r, c) (pv_get_pending v d) <->
  exists p, In p (pv_list v d) /\ pe_rseq p = r /\ pe_code p = c /\ pe_pracked p = false.
Proof.
  intros v d r c. unfold pv_get_pending. rewrite in_map_iff. split.
  - intros (p & E & Hp). apply filter_In in Hp. destruct Hp as [Hp K]. apply negb_true_iff in K. injection E as <- <-. eauto.
  - intros (p & Hp & <- & <- & K). exists p. split; [reflexivity|]. apply filter_In. now rewrite K.
Qed.
Print Assumptions C29_pending.
(** The bound is per dialog only: what is remembered about clean-ups grows by
    one entry for every unknown dialog named in a PRACK, without any response
    having been registered. *)
Theorem C29_total_refuted : forall n, exists ops, registered ops = [] /\ length (pv_last (pv_run pv_empty ops)) = n.
Proof.
  intros n. exists (map (fun k => PCleanup (print_N (N.of_nat k)) 0) (seq 0 n)). split.
  - generalize (seq 0 n). intros l. induction l as [|k l IH]; [reflexivity|]. exact IH.
  - assert (G : forall n s v, (forall k, (s <= k)%nat -> lookup str_eqb (print_N (N.of_nat k)) (pv_last v) = None) ->
              length (pv_last (fold_left pv_step (map (fun k => PCleanup (print_N (N.of_nat k)) 0) (seq s n)) v)) = (length (pv_last v) + n)%nat).
    { clear n. induction n as [|n IH]; intros s v H; [cbn; lia|]. cbn [seq map fold_left].
      assert (E : pv_last (pv_step v (PCleanup (print_N (N.of_nat s)) 0)) = insert str_eqb (print_N (N.of_nat s)) 0 (pv_last v)).
      { cbn [pv_step]. unfold pv_cleanup. rewrite (H s) by lia. unfold pv_sweep, pv_update. cbn [pv_pending]. now destruct (lookup _ _ (pv_pending v)). }
      rewrite IH.
      - rewrite E. unfold insert. cbn [length].
        assert (R : remove_key str_eqb (print_N (N.of_nat s)) (pv_last v) = pv_last v).
        { specialize (H s (le_n s)). revert H. generalize (pv_last v) (print_N (N.of_nat s)). clear. intros l x. induction l as [|[a b] l IH]; intros H; [reflexivity|].
          cbn [lookup] in H. unfold remove_key in *. cbn. destruct (str_eqb x a) eqn:E; [discriminate|]. cbn. f_equal. now apply IH. }
        rewrite R. lia.
      - intros k Hk. rewrite E. rewrite (lookup_insert_other _ str_eqb_spec).
        + apply H. lia.
        + intros X. apply print_N_inj in X. lia. }
    unfold pv_run. rewrite (G n 0%nat pv_empty); [reflexivity|]. intros. reflexivity.
Qed.
Print Assumptions C29_total_refuted.

(** ** C30: texts of RSeq and RAck.  Every value the header types can hold is
    between 1 and 2^31-1 in each number and reads back from its text. *)
Theorem C30_rseq_roundtrip : forall n x, rseq_new n = Some x ->
  x = n /\ 1 <= x <= 2147483647 /\ rseq_parse (rseq_print x) = Some x.
Proof.
  intros n x H. unfold rseq_new in H. destruct (seq_ok n) eqn:E; [|discriminate]. injection H as <-. unfold seq_ok in E.
  split; [reflexivity|]. split; [lia|]. unfold rseq_parse, rseq_print, RSEQ_MAX_INPUT.
  assert (L : n < 10 ^ N.of_nat 10) by (change (10 ^ N.of_nat 10) with 10000000000; lia).
  pose proof (print_N_blen n 10 L ltac:(lia)). replace (128 <? blen (print_N n)) with false by lia.
  rewrite trim_edge, parse_uint_print by (unfold u32_max; lia || (apply (class_edge (fun x => negb (is_ws x))); [intros c Hc; now apply negb_true_iff in Hc|apply print_N_word])).
  unfold rseq_new, seq_ok. now rewrite E.
Qed.
Print Assumptions C30_rseq_roundtrip.
(** Parsing accepts only texts of at most 128 bytes whose trimmed form is a
    number in that range. *)
Theorem C30_rseq_range : forall s n, rseq_parse s = Some n ->
  1 <= n <= 2147483647 /\ blen s <= 128 /\ parse_uint u32_max (trim s) = Some n.
Proof.
  intros s n. unfold rseq_parse, RSEQ_MAX_INPUT. destruct (128 <? blen s) eqn:B; [discriminate|]. destruct (parse_uint _ _) as [k|] eqn:P; [|discriminate].
  unfold rseq_new. destruct (seq_ok k) eqn:E; [|discriminate]. intros [= <-]. unfold seq_ok in E. split; [lia|]. split; [lia|reflexivity].
Qed.
Print Assumptions C30_rseq_range.
Theorem C30_rack_roundtrip : forall r c m t x, method_from_token t = Ok m -> rackh_new r c m = Some x ->
  x = mkRack r c m /\ 1 <= r <= 2147483647 /\ 1 <= c <= 2147483647 /\ rackh_parse (rack_print x) = Some x.
Proof.
  intros r c m t x HM H. unfold rackh_new in H. destruct (seq_ok r && seq_ok c) eqn:E; [|discriminate]. injection H as <-.
  pose proof E as E'. unfold seq_ok in E'. split; [reflexivity|]. split; [lia|]. split; [lia|].
  pose proof (method_words t m HM) as (M1 & M2 & M3). unfold rackh_parse, rack_print, RSEQ_MAX_INPUT. cbn [ra_rseq ra_cseq ra_method].
  assert (L1 : r < 10 ^ N.of_nat 10) by (change (10 ^ N.of_nat 10) with 10000000000; lia).
  assert (L2 : c < 10 ^ N.of_nat 10) by (change (10 ^ N.of_nat 10) with 10000000000; lia).
  pose proof (print_N_blen r 10 L1 ltac:(lia)). pose proof (print_N_blen c 10 L2 ltac:(lia)).
  rewrite !blen_app. change (blen (lit " ")) with 1.
  replace (128 <? _) with false by lia.
  rewrite split_ws_three by (assumption || apply print_N_nonempty || apply print_N_word).
  rewrite !parse_uint_print by (unfold u32_max; lia). rewrite (C57_roundtrip t m HM). unfold rackh_new. now rewrite E.
Qed.
Print Assumptions C30_rack_roundtrip.
Theorem C30_rack_range : forall s x, rackh_parse s = Some x ->
  1 <= ra_rseq x <= 2147483647 /\ 1 <= ra_cseq x <= 2147483647 /\ rackh_parse (rack_print x) = Some x.
Proof.
  intros s x. unfold rackh_parse at 1. destruct (_ <? blen s); [discriminate|]. destruct (split_ws s) as [|a [|b [|e [|]]]]; try discriminate.
  destruct (parse_uint _ a) as [r|]; [|discriminate]. destruct (parse_uint _ b) as [c|]; [|discriminate]. destruct (method_from_token e) as [m|] eqn:M; [|discriminate].
  intros H. destruct (C30_rack_roundtrip r c m e x M H) as (-> & A & B & C). cbn [ra_rseq ra_cseq]. auto.
Qed.
Print Assumptions C30_rack_range.
(** The validator's own RAck type takes any 32-bit numbers; its text reads back
    for the standard methods... *)
Theorem C30_validator_roundtrip_partial : forall r c m, r <= u32_max -> c <= u32_max -> In m standard_methods ->
  rack_parse (rack_print (mkRack r c m)) = Some (mkRack r c m).
Proof.
  intros r c m Hr Hc Hm. assert (W : method_str m <> [] /\ forallb (fun x => negb (is_ws x)) (method_str m) = true /\ parse_std_method (method_str m) = Some m).
  { repeat (destruct Hm as [<-|Hm]; [split; [discriminate|split; reflexivity]|]). destruct Hm. }
  destruct W as (W1 & W2 & W3). unfold rack_parse, rack_print. cbn [ra_rseq ra_cseq ra_method].
  rewrite split_ws_three by (assumption || apply print_N_nonempty || apply print_N_word).
  rewrite !parse_uint_print by assumption. now rewrite W3.
Qed.
Print Assumptions C30_validator_roundtrip_partial.
(** ... but not for extension methods, whose PRACKs it never accepts. *)
Theorem C30_validator_refuted : exists m, method_from_token (lit "FOO") = Ok m /\ rack_parse (rack_print (mkRack 1 1 m)) = None.
Proof. eexists. split; [vm_compute; reflexivity|]. vm_compute. reflexivity. Qed.
Print Assumptions C30_validator_refuted.
Example C30_example : rackh_parse (lit "776656 1 INVITE") = Some (mkRack 776656 1 MInvite) /\ rseq_parse (lit "2147483648") = None /\ rseq_parse (lit " 17 ") = Some 17.
Proof. vm_compute. auto. Qed.

(** ** C82: RSeq numbers.  As long as a dialog is not removed its numbers start
    between 1 and 2^31-1 and go up by exactly one, whatever happens on other
    dialogs, until the 32-bit maximum. *)
Theorem C82_consecutive : forall ops id m, lookup did_eqb id m = None -> ~ In (RRemove id) ops ->
  forall first rest, rs_outs id m ops = first :: rest ->
  1 <= first <= 2147483647
  /\ forall i x, nth_error (first :: rest) i = Some x -> x = N.min u32_max (first + N.of_nat i).
Proof.
  assert (G : forall ops id m n, lookup did_eqb id m = Some n -> n <= u32_max -> ~ In (RRemove id) ops ->
              forall i x, nth_error (rs_outs id m ops) i = Some x -> x = N.min u32_max (n + 1 + N.of_nat i)).
  { induction ops as [|o ops IH]; intros id m n L B R i x Hx; [destruct i; discriminate|].
    assert (R' : ~ In (RRemove id) ops) by (intros X; apply R; now right).
    cbn [rs_outs] in Hx. destruct o as [rnd id'|id'].
    - destruct (did_eqb id' id) eqn:E.
      + apply did_eqb_spec in E. subst id'. cbn [app] in Hx.
        assert (S1 : snd (next_rseq rnd id m) = N.min u32_max (n + 1)) by (unfold next_rseq; now rewrite L).
        destruct i as [|i].
        * cbn [nth_error] in Hx. assert (X : snd (next_rseq rnd id m) = x) by congruence. rewrite <- X, S1. f_equal. lia.
        * cbn [nth_error] in Hx. apply (IH id _ (N.min u32_max (n + 1))) in Hx; [lia| |lia|assumption].
          cbn [rs_step]. rewrite next_rseq_same. now rewrite S1.
      + cbn [app] in Hx. apply (IH id _ n) in Hx; [assumption| |assumption|assumption].
        cbn [rs_step]. rewrite next_rseq_other; [assumption|]. intros ->. rewrite did_eqb_refl in E. discriminate.
    - cbn [app] in Hx. apply (IH id _ n) in Hx; [assumption| |assumption|assumption].
      cbn [rs_step]. rewrite (lookup_remove_other _ did_eqb_spec); [assumption|]. intros ->. apply R. now left. }
  induction ops as [|o ops IH]; intros id m L R first rest H; [discriminate|].
  assert (R' : ~ In (RRemove id) ops) by (intros X; apply R; now right).
  cbn [rs_outs] in H. destruct o as [rnd id'|id'].
  - destruct (did_eqb id' id) eqn:E.
    + apply did_eqb_spec in E. subst id'. cbn [app] in H.
      pose proof (f_equal (hd 0) H) as H1. pose proof (f_equal (@tl N) H) as H2. cbn [hd tl] in H1, H2.
      assert (F : first = initial_rseq rnd) by (rewrite <- H1; unfold next_rseq; now rewrite L).
      assert (B : 1 <= first <= 2147483647).
      { rewrite F. unfold initial_rseq. pose proof (N.mod_lt rnd 2147483648 ltac:(lia)). lia. }
      split; [assumption|]. intros i x Hx. destruct i as [|i]; cbn [nth_error] in Hx.
      * injection Hx as <-. unfold u32_max. lia.
      * rewrite <- H2 in Hx. apply (G ops id _ first) in Hx; [lia| |unfold u32_max; lia|assumption].
        cbn [rs_step]. rewrite next_rseq_same. now rewrite H1.
    + cbn [app] in H. apply (IH id) in H; [assumption| |assumption].
      cbn [rs_step]. rewrite next_rseq_other; [assumption|]. intros ->. rewrite did_eqb_refl in E. discriminate.
  - cbn [app] in H. apply (IH id) in H; [assumption| |assumption].
    cbn [rs_step]. rewrite (lookup_remove_other _ did_eqb_spec); [assumption|]. intros ->. apply R. now left.
Qed.
Print Assumptions C82_consecutive.
(** The number handed out may be one no RSeq header can carry. *)
Theorem C82_range_refuted : exists id ops x, In x (rs_outs id [] ops) /\ rseq_new x = None.
Proof.
  exists (mkId (lit "c") (lit "l") (lit "r")), [RNext 2147483647 (mkId (lit "c") (lit "l") (lit "r")); RNext 0 (mkId (lit "c") (lit "l") (lit "r"))], 2147483648.
  split; [|reflexivity]. vm_compute. auto.
Qed.
Print Assumptions C82_range_refuted.
Example C82_example : let a := mkId (lit "c") (lit "l") (lit "r") in let b := mkId (lit "x") (lit "l") (lit "r") in
  rs_outs a [] [RNext 40 a; RNext 5 b; RNext 9 a; RRemove b; RNext 0 a] = [40; 41; 42].
Proof. reflexivity. Qed.

(** C28: a response is reported as acknowledged only if a PRACK with its RSeq was
    accepted on its dialog *)
Theorem C28_reported : forall ops d r, pv_is_pracked (pv_run pv_empty ops) d r = true ->
  exists x, In (d, x) (acked pv_empty ops) /\ ra_rseq x = r.
Proof.
  assert (G : forall ops v d p, In p (pv_list (pv_run v ops) d) -> pe_pracked p = true ->
    (exists p', In p' (pv_list v d) /\ pe_pracked p' = true /\ pe_rseq p' = pe_rseq p)
    \/ exists x, In (d, x) (acked v ops) /\ ra_rseq x = pe_rseq p).
  { induction ops as [|o ops IH]; intros v d p Hp Hk; [left; exists p; auto|].
    cbn [pv_run fold_left] in Hp. destruct (IH (pv_step v o) d p Hp Hk) as [(p' & I1 & I2 & I3)|(x & X1 & X2)].
    - assert (Keep : In p' (pv_list v d) -> exists p', In p' (pv_list v d) /\ pe_pracked p' = true /\ pe_rseq p' = pe_rseq p) by (intros; exists p'; auto).
      destruct o as [d' now|d' now|d' rq c m code t|d' hs|d'|d' rq]; cbn [pv_step] in I1.
      + left. apply Keep. destruct (list_cleanup v d' now d) as [E|[_ E]]; rewrite E in I1; [exact I1|]. apply filter_In in I1. tauto.
      + left. apply Keep. rewrite list_sweep in I1. destruct (str_eqb d' d); [|exact I1]. apply filter_In in I1. tauto.
      + left. apply Keep. rewrite list_push in I1. destruct (str_eqb d' d); [|exact I1]. apply in_app_or in I1. destruct I1 as [I1|[<- | []]]; [|discriminate I2].
        unfold trunc in I1. destruct (_ <=? _)%nat; [|exact I1].
        rewrite <- (firstn_skipn (length (pv_list v d) + 1 - MAX_PENDING) (pv_list v d)). apply in_or_app. now right.
      + rewrite list_check in I1. cbn [acked]. destruct (snd (pv_check v d' hs)) as [x|] eqn:Ex; [|left; exact (Keep I1)].
        destruct (str_eqb d' d) eqn:Ed; [|left; exact (Keep I1)]. apply str_eqb_spec in Ed. subst d'.
        assert (Mk : forall l q, In q (mark_first (ra_rseq x) l) -> In q l \/ pe_rseq q = ra_rseq x).
        { clear. induction l as [|a l IH]; intros q Hq; [destruct Hq|]. cbn [mark_first] in Hq. destruct (pe_rseq a =? ra_rseq x) eqn:E.
          - destruct Hq as [<- | Hq]; [right; cbn; lia|left; now right].
          - destruct Hq as [<- | Hq]; [left; now left|]. destruct (IH q Hq); [left; now right|now right]. }
        destruct (Mk _ _ I1) as [I|I]; [left; exact (Keep I)|]. right. exists x. split; [now left|congruence].
      + left. apply Keep. rewrite list_remove in I1. destruct (str_eqb d' d); [destruct I1|exact I1].
      + left. apply Keep. rewrite list_remove_pracked in I1. destruct (str_eqb d' d); [|exact I1]. apply filter_In in I1. tauto.
    - right. exists x. split; [|exact X2]. cbn [acked]. apply in_or_app. now right. }
  intros ops d r H. unfold pv_is_pracked in H. destruct (find _ _) as [p|] eqn:F; [|discriminate]. apply find_some in F. destruct F as [F E].
  destruct (G ops pv_empty d p F H) as [(p' & [] & _)|(x & X1 & X2)]. exists x. split; [exact X1|lia].
Qed.
Print Assumptions C28_reported.
Example C28_reported_example : pv_is_pracked (pv_run pv_empty [PPush (lit "d") 5 1 MInvite 180 0; PCheck (lit "d") [(lit "RAck", lit "5 1 INVITE")]]) (lit "d") 5 = true.
Proof. vm_compute. reflexivity. Qed.

(** C29: no response stays for ever.  When the times of the steps do not go back, a
    clean-up of a dialog leaves only responses registered in the last 600 s. *)
Definition op_time (o : pv_op) : option N :=
  match o with PCleanup _ t | PSweep _ t | PPush _ _ _ _ _ t => Some t | _ => None end.
Fixpoint times_up (t0 : N) (ops : list pv_op) : Prop :=
  match ops with
  | [] => True
  | o :: r => match op_time o with Some t => t0 <= t /\ times_up t r | None => times_up t0 r end
  end.
Theorem C29_age : forall ops d now, times_up 0 (ops ++ [PCleanup d now]) ->
  forall p, In p (pv_list (pv_run pv_empty (ops ++ [PCleanup d now])) d) -> now <= pe_created p + 600 * NS.
Proof.
  set (inv := fun (v : pval) (t : N) => forall d l, lookup str_eqb d (pv_last v) = Some l ->
     l <= t /\ forall p, In p (pv_list v d) -> l <= pe_created p + 300 * NS).
  assert (Sub : forall v v' t, inv v t -> pv_last v' = pv_last v ->
     (forall d q, In q (pv_list v' d) -> exists p, In p (pv_list v d) /\ pe_created p = pe_created q) -> inv v' t).
  { intros v v' t I El Es d l L. rewrite El in L. destruct (I d l L) as [A B]. split; [exact A|]. intros q Hq. destruct (Es d q Hq) as (p & Hp & <-). auto. }
  assert (Up : forall v t t', inv v t -> t <= t' -> inv v t') by (intros v t t' I Le d l L; destruct (I d l L) as [A B]; split; [lia|exact B]).
  assert (LastU : forall v d f, pv_last (pv_update v d f) = pv_last v) by (intros v d f; unfold pv_update; now destruct (lookup _ _ _)).
  assert (Cl : forall v t d now, inv v t -> t <= now -> inv (pv_cleanup v d now) now
      /\ forall p, In p (pv_list (pv_cleanup v d now) d) -> now <= pe_created p + 600 * NS).
  { intros v t d now I Le.
    assert (Sw : inv (pv_sweep (mkPv (pv_pending v) (insert str_eqb d now (pv_last v))) d now) now
       /\ forall p, In p (pv_list (pv_sweep (mkPv (pv_pending v) (insert str_eqb d now (pv_last v))) d now) d) -> now <= pe_created p + 600 * NS).
    { assert (Kp : forall p, keep now p = true -> now <= pe_created p + 300 * NS) by (intros p K; unfold keep, PRACK_TIMEOUT in K; lia).
      split.
      - intros d' l L. unfold pv_sweep in L. rewrite LastU in L. cbn [pv_last] in L. rewrite list_sweep.
        destruct (str_eqb d d') eqn:E.
        + apply str_eqb_spec in E. subst d'. rewrite (lookup_insert_same _ str_eqb_spec) in L. injection L as <-. split; [lia|].
          intros p Hp. apply filter_In in Hp. apply Kp. tauto.
        + apply str_eqb_neq in E. rewrite (lookup_insert_other _ str_eqb_spec) in L by congruence. destruct (I d' l L) as [A B]. split; [lia|exact B].
      - intros p Hp. rewrite list_sweep, str_eqb_refl in Hp. apply filter_In in Hp. destruct Hp as [_ Hp]. apply Kp in Hp. lia. }
    unfold pv_cleanup. destruct (lookup str_eqb d (pv_last v)) as [l|] eqn:L; [|exact Sw].
    destruct (PRACK_CLEANUP_INTERVAL <=? now - l) eqn:Q; [exact Sw|]. unfold PRACK_CLEANUP_INTERVAL in Q.
    split; [exact (Up v t now I Le)|]. intros p Hp. destruct (I d l L) as [A B]. specialize (B p Hp). unfold NS in *. lia. }
  assert (Run : forall ops v t d now, inv v t -> times_up t (ops ++ [PCleanup d now]) ->
      forall p, In p (pv_list (pv_run v (ops ++ [PCleanup d now])) d) -> now <= pe_created p + 600 * NS).
  { induction ops as [|o ops IH]; intros v t d now I T p Hp; cbn [app] in *.
    - cbn [pv_run fold_left pv_step] in Hp. cbn in T. exact (proj2 (Cl v t d now I (proj1 T)) p Hp).
    - cbn [pv_run fold_left] in Hp. cbn [times_up] in T. destruct o as [d' n|d' n|d' rq c m code n|d' hs|d'|d' rq]; cbn [op_time pv_step] in T, Hp.
      + destruct T as [T1 T2]. refine (IH _ n d now _ T2 p Hp). apply (Cl v t d' n I T1).
      + destruct T as [T1 T2]. refine (IH _ n d now _ T2 p Hp). apply (Up _ t n); [|exact T1]. apply (Sub v); [exact I|apply LastU|].
        intros e q Hq. rewrite list_sweep in Hq. exists q. split; [|reflexivity]. destruct (str_eqb d' e); [apply filter_In in Hq; tauto|exact Hq].
      + destruct T as [T1 T2]. refine (IH _ n d now _ T2 p Hp). intros e l L. cbn [pv_push pv_last] in L. destruct (I e l L) as [A B].
        split; [lia|]. intros q Hq. rewrite list_push in Hq. destruct (str_eqb d' e); [|auto]. apply in_app_or in Hq. destruct Hq as [Hq|[<- | []]]; [|cbn; lia].
        apply B. unfold trunc in Hq. destruct (_ <=? _)%nat; [|exact Hq].
        rewrite <- (firstn_skipn (length (pv_list v e) + 1 - MAX_PENDING) (pv_list v e)). apply in_or_app. now right.
      + refine (IH _ t d now _ T p Hp). apply (Sub v); [exact I| |].
        * destruct (check_cases v d' hs) as [E|(r & l & q & _ & _ & _ & _ & E)]; rewrite E; reflexivity.
        * intros e q Hq. rewrite list_check in Hq. destruct (snd (pv_check v d' hs)) as [x|]; [|exists q; auto].
          destruct (str_eqb d' e); [|exists q; auto]. revert Hq. generalize (pv_list v e). clear. induction l as [|a l IH]; intros Hq; [destruct Hq|].
          cbn [mark_first] in Hq. destruct (pe_rseq a =? ra_rseq x).
          -- destruct Hq as [<- | Hq]; [exists a; split; [now left|reflexivity]|exists q; split; [now right|reflexivity]].
          -- destruct Hq as [<- | Hq]; [exists a; split; [now left|reflexivity]|]. destruct (IH Hq) as (y & Y1 & Y2). exists y. split; [now right|exact Y2].
      + refine (IH _ t d now _ T p Hp). intros e l L. cbn [pv_remove pv_last] in L. rewrite list_remove.
        destruct (str_eqb d' e) eqn:E; [apply str_eqb_spec in E; subst e; rewrite lookup_remove_same in L; discriminate|].
        apply str_eqb_neq in E. rewrite (lookup_remove_other _ str_eqb_spec) in L by congruence. exact (I e l L).
      + refine (IH _ t d now _ T p Hp). apply (Sub v); [exact I|apply LastU|].
        intros e q Hq. rewrite list_remove_pracked in Hq. exists q. split; [|reflexivity]. destruct (str_eqb d' e); [apply filter_In in Hq; tauto|exact Hq]. }
  intros ops d now T. apply (Run ops pv_empty 0 d now); [|exact T]. intros d' l L. discriminate.
Qed.
Print Assumptions C29_age.
Example C29_age_example : let ops := [PPush (lit "d") 5 1 MInvite 180 0; PCleanup (lit "d") 1; PPush (lit "d") 6 1 MInvite 180 (400 * NS)] in
  times_up 0 (ops ++ [PCleanup (lit "d") (400 * NS)])
  /\ map pe_rseq (pv_list (pv_run pv_empty (ops ++ [PCleanup (lit "d") (400 * NS)])) (lit "d")) = [6].
Proof. cbn [app times_up op_time]. split; [unfold NS; repeat split; lia|vm_compute; reflexivity]. Qed.

(** C30: the successor of an RSeq value is one more, up to 2^31-1, which has none *)
Theorem C30_next : forall n x, rseq_new n = Some x ->
  rseq_next x = if x =? 2147483647 then None else Some (x + 1).
Proof.
  intros n x H. unfold rseq_new in H. destruct (seq_ok n) eqn:E; [|discriminate]. injection H as <-. unfold seq_ok in E.
  unfold rseq_next, rseq_new, seq_ok, u32_max. destruct (n =? 2147483647) eqn:M.
  - apply N.eqb_eq in M. subst n. reflexivity.
  - replace (N.min 4294967295 (n + 1)) with (n + 1) by lia. replace (negb (n + 1 =? 0) && (n + 1 <=? 2147483647)) with true by lia. reflexivity.
Qed.
Print Assumptions C30_next.
Example C30_next_example : rseq_next 7 = Some 8.
Proof. reflexivity. Qed.
