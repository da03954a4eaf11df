(** Properties of forked requests in the stateful proxy: C39-C41, C48, C93, C94. *)
From Coq Require Import NArith Arith Bool String List Lia Permutation ZifyBool ZifyN ZifyNat.
Import ListNotations.
From Verif Require Import Base BaseFacts Headers HeadersProofs Method Uri Msg ProxyFork ProxyForkSpec ProxyForkProofs ProxyForkConc.
Open Scope N_scope.
Open Scope list_scope.

(** ** Concrete values for the examples *)
Definition ex_target : sip_uri := mkUri (lit "sip:h") false None (lit "h") None [] [].
Definition ex_req : req :=
  mkReq MInvite (SipU ex_target) [(lit "Call-ID", lit "c"); (lit "CSeq", lit "1 INVITE")] [].
Definition ex_resp (code : N) (hs : headers) : resp := mkResp code [] hs [].
Definition b1 : str := lit "z9hG4bK1".
Definition b2 : str := lit "z9hG4bK2".
Definition plain (code : N) : resp := ex_resp code [].
Definition in_order (m : list (str * branch)) : list (str * branch) := m.
Lemma in_order_ok : forall m, Permutation (in_order m) m.
Proof. intros m. apply Permutation_refl. Qed.
Definition log_of (ops : list pop) : list event := snd (prun in_order (ctx_new ex_req) ops).
Definition fork2 : list pop := [PAdd b1 ex_target; PAdd b2 ex_target].
Definition start2 : list label := [Start (PAdd b1 ex_target); Run 0; Run 0; Start (PAdd b2 ex_target); Run 0; Run 0].
Definition slog_of (ls : list label) : list event := sy_log (srun in_order (sys_new ex_req) ls).

(** a way to check [forked_at_once] by computation *)
Fixpoint forked_b (seen : bool) (l : list event) : bool :=
  match l with
  | [] => true
  | Added _ :: r => negb seen && forked_b seen r
  | Got _ x :: r => forked_b (seen || is_final x) r
  | Sent _ _ :: r => forked_b seen r
  end.
Lemma forked_check : forall l, forked_b false l = true -> forked_at_once l.
Proof.
  assert (G : forall l p, forked_b (match finals p with [] => false | _ => true end) l = true ->
     forall l1 e l2, l = l1 ++ e :: l2 -> match e with Added _ => finals (p ++ l1) = [] | _ => True end).
  { induction l as [|x l IH]; intros p H l1 e l2 E; [destruct l1; discriminate|].
    destruct l1 as [|y l1]; injection E as -> E.
    - destruct e; auto. cbn in H. rewrite app_nil_r. destruct (finals p); [reflexivity|discriminate].
    - change (y :: l1) with ([y] ++ l1). rewrite app_assoc. refine (IH (p ++ [y]) _ l1 e l2 E).
      rewrite finals_app. destruct y as [b|b r|k r]; cbn in *.
      + rewrite app_nil_r. apply andb_prop in H. tauto.
      + destruct (is_final r); [|rewrite app_nil_r; rewrite orb_false_r in H; exact H].
        rewrite orb_true_r in H. destruct (finals p); exact H.
      + rewrite app_nil_r. exact H. }
  intros l H l1 e l2 E. apply (G l [] H l1 e l2 E).
Qed.

(** ** C39 *)
(** C39 (partial): when calls on the context are made one after the other, what
    is forwarded once all branches have completed is a best final response
    received (6xx, else 2xx, else lowest class), with only challenges of 401/407
    responses added.  Among equals it is the first received, but for 2xx and 6xx
    the last.  Missing: concurrent calls (see [C39_race_refuted]). *)
Theorem C39_best_partial : forall ord, (forall m, Permutation (ord m) m) ->
  forall q ops c l, prun ord (ctx_new q) ops = (c, l) ->
  always (fun l1 e => match e with
    | Sent Done r => exists r0, best_of (finals l1) r0
        /\ adds_challenges (fun x => exists b, last_resp b l1 = Some x) r0 r
    | _ => True end) l.
Proof. exact seq_best. Qed.
Print Assumptions C39_best_partial.
Example C39_best_example : exists l1 r, log_of (fork2 ++ [PResp b1 (plain 486); PResp b2 (plain 302)]) = l1 ++ [Sent Done r]
  /\ p_code r = 302.
Proof. eexists [Added b1; Added b2; Got b1 _; Got b2 _], _. split; vm_compute; reflexivity. Qed.

(** C39 (partial): if that response is a 401 or 407, then it carries every
    challenge of every branch whose last response is a 401 or 407 (unless the
    limit on the number of headers is reached). *)
Theorem C39_challenges_partial : forall ord, (forall m, Permutation (ord m) m) ->
  forall q ops c l, prun ord (ctx_new q) ops = (c, l) ->
  always (fun l1 e => match e with
    | Sent Done r => challenge r = true -> llen (p_headers r) < MAX_HEADERS ->
        (forall b x h, In (Got b x) l1 -> In h (p_headers x) -> validate_header_value (snd h) = None) ->
        forall b x name, In b (added l1) -> last_resp b l1 = Some x -> challenge x = true -> name = WWW \/ name = PRX ->
          incl (hget_all name (p_headers x)) (hget_all name (p_headers r))
    | _ => True end) l.
Proof. exact seq_challenges. Qed.
Print Assumptions C39_challenges_partial.
Definition ch_a : resp := ex_resp 401 [(WWW, lit "Digest a")].
Definition ch_b : resp := ex_resp 401 [(WWW, lit "Digest b")].
Example C39_challenges_example : exists l1 r, log_of (fork2 ++ [PResp b1 ch_a; PResp b2 ch_b]) = l1 ++ [Sent Done r]
  /\ is_challenge r = true /\ hget_all WWW (p_headers r) = [lit "Digest a"; lit "Digest b"]
  /\ last_resp b1 l1 = Some ch_a /\ last_resp b2 l1 = Some ch_b.
Proof. eexists [Added b1; Added b2; Got b1 _; Got b2 _], _. split; [|split; [|split; [|split]]]; vm_compute; reflexivity. Qed.

(** C39: "first received among equals" is false of 2xx responses: after two
    different ones, the later one is what is forwarded at the end. *)
Theorem C39_first_refuted : exists ops l1 r r1 r2, log_of ops = l1 ++ [Sent Done r]
  /\ finals l1 = [r1; r2; plain 487] /\ class r1 = 2 /\ class r2 = 2 /\ r1 <> r2 /\ r = r2.
Proof.
  exists (fork2 ++ [PAdd (lit "z9hG4bK3") ex_target; PResp b1 (plain 200); PResp b2 (plain 202); PResp (lit "z9hG4bK3") (plain 487)]).
  exists [Added b1; Added b2; Added (lit "z9hG4bK3"); Got b1 (plain 200); Sent Now (plain 200); Got b2 (plain 202); Sent Now (plain 202);
    Got (lit "z9hG4bK3") (plain 487)], (plain 202), (plain 200), (plain 202).
  split; [|split; [|split; [|split; [|split]]]]; try (vm_compute; reflexivity). discriminate.
Qed.
Print Assumptions C39_first_refuted.
(** C39: a provisional response that arrives on a branch after its 401 makes the
    proxy lose that branch's challenge. *)
Definition b3 : str := lit "z9hG4bK3".
Theorem C39_late_provisional_refuted : exists ops l1 r, log_of ops = l1 ++ [Sent Done r]
  /\ In (Got b1 ch_a) l1 /\ is_challenge r = true /\ hget_all WWW (p_headers r) = [lit "Digest b"].
Proof.
  exists (fork2 ++ [PAdd b3 ex_target; PResp b2 ch_b; PResp b1 ch_a; PResp b1 (plain 180); PResp b3 (plain 486)]).
  exists [Added b1; Added b2; Added b3; Got b2 ch_b; Got b1 ch_a; Got b1 (plain 180); Sent Prov (plain 180); Got b3 (plain 486)], ch_b.
  split; [vm_compute; reflexivity|]. split; [cbn; tauto|]. split; vm_compute; reflexivity.
Qed.
Print Assumptions C39_late_provisional_refuted.

(** two responses processed at the same time: the first is recorded, counted and
    ranked, then the second is recorded and counted, then both go on *)
Definition race : list label := start2 ++
  [Start (PResp b1 (plain 486)); Start (PResp b2 (plain 302)); Run 0; Run 0; Run 0; Run 1; Run 1; Run 0; Run 0; Run 0; Run 0; Run 0]%nat.
(** C39: with concurrent calls, a 486 is forwarded although a 302 was recorded
    before, and the 302 is forwarded as well. *)
Theorem C39_race_refuted : exists ls l1 r r2, slog_of ls = l1 ++ [Sent Done r; Sent Done r2]
  /\ In (plain 302) (finals l1) /\ class r = 4 /\ one_final_each (slog_of ls) /\ forked_at_once (slog_of ls).
Proof.
  exists race, [Added b1; Added b2; Got b1 (plain 486); Got b2 (plain 302)], (plain 486), (plain 302).
  assert (E : slog_of race = [Added b1; Added b2; Got b1 (plain 486); Got b2 (plain 302); Sent Done (plain 486); Sent Done (plain 302)])
    by (vm_compute; reflexivity).
  rewrite E. split; [reflexivity|]. split; [cbn; tauto|]. split; [reflexivity|]. split.
  - split; cbn; repeat constructor; cbn; intuition discriminate.
  - apply forked_check. reflexivity.
Qed.
Print Assumptions C39_race_refuted.

(** ** C40 *)
(** C40 (partial): with calls made one after the other, a final response is
    forwarded only if it is a 2xx or 6xx just received, or every branch has given
    a final response.  Assumes fresh branch ids and at most one final response
    per branch (see the refutations). *)
Theorem C40_when_partial : forall ord, (forall m, Permutation (ord m) m) ->
  forall q ops c l, prun ord (ctx_new q) ops = (c, l) ->
  always (fun l1 e => match e with
    | Sent k r => is_final r = true -> one_final_each l1 ->
        (exists b, In (Got b r) l1 /\ (is_2xx r = true \/ is_6xx r = true)) \/ all_finished l1
    | _ => True end) l.
Proof. exact seq_when. Qed.
Print Assumptions C40_when_partial.
(** C40 (partial): if moreover all branches are created before the first final
    response and no 6xx is received, then at most one final response other than
    2xx is forwarded. *)
Theorem C40_one_partial : forall ord, (forall m, Permutation (ord m) m) ->
  forall q ops c l, prun ord (ctx_new q) ops = (c, l) ->
  one_final_each l -> forked_at_once l -> (forall r, In r (finals l) -> is_6xx r = false) ->
  (length (sent_failures l) <= 1)%nat.
Proof. exact seq_one. Qed.
Print Assumptions C40_one_partial.
Example C40_example : let l := log_of (fork2 ++ [PResp b1 (plain 486); PResp b2 (plain 180); PTimer b2]) in
  one_final_each l /\ forked_at_once l /\ (forall r, In r (finals l) -> is_6xx r = false) /\ length (sent_failures l) = 1%nat
  /\ length (finals l) = 2%nat.
Proof.
  cbv zeta. match goal with |- one_final_each ?x /\ _ => let y := eval vm_compute in x in change x with y end.
  split; [split; cbn; repeat constructor; cbn; intuition discriminate|]. split; [|split; [|split; reflexivity]].
  - apply forked_check. reflexivity.
  - cbn. intuition; subst; reflexivity.
Qed.
(** C40: false as soon as a 6xx is received: 603 from one branch, then the 487
    the cancelled branch answers with, and the 603 is forwarded twice. *)
Theorem C40_6xx_refuted : exists ops, one_final_each (log_of ops) /\ sent_failures (log_of ops) = [plain 603; plain 603].
Proof.
  exists (fork2 ++ [PResp b1 (plain 603); PResp b2 (plain 487)]).
  split; [|vm_compute; reflexivity]. split; vm_compute; repeat constructor; cbn; intuition discriminate.
Qed.
Print Assumptions C40_6xx_refuted.
(** C40: false if a final response is retransmitted: it counts as the answer of
    another branch. *)
Theorem C40_retransmission_refuted : exists ops l1, log_of ops = l1 ++ [Sent Done (plain 486)]
  /\ NoDup (added l1) /\ In b2 (added l1) /\ ~ In b2 (finished l1).
Proof.
  exists (fork2 ++ [PResp b1 (plain 486); PResp b1 (plain 486)]), [Added b1; Added b2; Got b1 (plain 486); Got b1 (plain 486)].
  split; [vm_compute; reflexivity|]. split; [cbn; repeat constructor; cbn; intuition discriminate|].
  split; [cbn; tauto|]. cbn. intuition discriminate.
Qed.
Print Assumptions C40_retransmission_refuted.
(** C40: false if a provisional response arrives after the final one: Timer C
    then gives the branch a second final response. *)
Theorem C40_late_provisional_refuted : exists ops l1 r, log_of ops = l1 ++ [Sent Done r]
  /\ ~ In (PResp b2 r) ops /\ In b2 (added l1) /\ ~ In b2 (finished l1)
  /\ (forall b x y, In (PResp b x) ops -> In (PResp b y) ops -> is_final x = true -> is_final y = true -> x = y).
Proof.
  exists (fork2 ++ [PResp b1 (plain 180); PResp b1 (plain 486); PResp b1 (plain 183); PTimer b1]).
  eexists [Added b1; Added b2; Got b1 (plain 180); Sent Prov (plain 180); Got b1 (plain 486); Got b1 (plain 183); Sent Prov (plain 183); Got b1 _], _.
  split; [vm_compute; reflexivity|]. split; [cbn; intuition discriminate|]. split; [cbn; tauto|].
  split; [cbn; intuition discriminate|].
  intros b x y Hx Hy Fx Fy. cbn in Hx, Hy.
  destruct Hx as [Hx|[Hx|[Hx|[Hx|[Hx|[Hx|[]]]]]]]; try discriminate Hx; inversion Hx; subst; try discriminate Fx;
  destruct Hy as [Hy|[Hy|[Hy|[Hy|[Hy|[Hy|[]]]]]]]; try discriminate Hy; inversion Hy; subst; try discriminate Fy; reflexivity.
Qed.
Print Assumptions C40_late_provisional_refuted.
(** C40: false with concurrent calls: two failures are forwarded. *)
Theorem C40_race_refuted : exists ls, one_final_each (slog_of ls) /\ sent_failures (slog_of ls) = [plain 486; plain 302].
Proof.
  exists race. split; [|vm_compute; reflexivity]. split; vm_compute; repeat constructor; cbn; intuition discriminate.
Qed.
Print Assumptions C40_race_refuted.

(** ** C41 *)
(** C41 (partial): in every interleaving of calls, as long as no 6xx is received,
    every 2xx recorded is forwarded at once, exactly one time: when no call is
    running, the 2xx forwarded at once are the 2xx recorded. *)
Theorem C41_partial : forall ord, (forall m, Permutation (ord m) m) ->
  forall q labs, let s := srun ord (sys_new q) labs in
  (forall r, In r (finals (sy_log s)) -> p_code r < 600) -> sy_tasks s = [] ->
  Permutation (filter is_2xx (finals (sy_log s))) (filter is_2xx (sent_now (sy_log s))).
Proof.
  intros ord O q labs s N T. pose proof (two_xx_inv ord O q labs) as H. cbv zeta in H. fold s in H.
  rewrite T in H. cbn [pend2 flat_map] in H. rewrite app_nil_r in H.
  replace (filter is_2xx (sent_now (sy_log s))) with (now2 (sy_log s)).
  - apply H. intros r Hr. apply N in Hr. unfold is_6xx. split; lia.
  - clear. induction (sy_log s) as [|[b|b r|[] r] l IH]; try exact IH; [reflexivity|]. cbn.
    change (flat_map _ l) with (now2 l) at 1. destruct (is_2xx r); cbn; rewrite IH; reflexivity.
Qed.
Print Assumptions C41_partial.
Example C41_example : let s := srun in_order (sys_new ex_req) (start2 ++
    [Start (PResp b1 (plain 200)); Start (PResp b2 (plain 202)); Run 0; Run 1; Run 1; Run 0; Run 0; Run 1; Run 1; Run 0]%nat) in
  (forall r, In r (finals (sy_log s)) -> p_code r < 600) /\ sy_tasks s = []
  /\ filter is_2xx (finals (sy_log s)) = [plain 200; plain 202] /\ sent_now (sy_log s) = [plain 202; plain 200].
Proof.
  cbv zeta. split; [|split; [|split]; vm_compute; reflexivity].
  intros r. match goal with |- In r ?x -> _ => let y := eval vm_compute in x in change x with y end. cbn. intuition; subst; reflexivity.
Qed.
(** C41: false after a 6xx: the 2xx of another branch is dropped. *)
Theorem C41_after_6xx_refuted : exists ops, In (plain 200) (finals (log_of ops)) /\ ~ In (plain 200) (sent_finals (log_of ops)).
Proof.
  exists (fork2 ++ [PResp b1 (plain 603); PResp b2 (plain 200)]).
  match goal with |- In _ (finals ?x) /\ _ => let y := eval vm_compute in x in change x with y end.
  split; cbn; intuition discriminate.
Qed.
Print Assumptions C41_after_6xx_refuted.
(** C41: a 2xx may be forwarded twice: again when the other branches are done. *)
Theorem C41_once_refuted : exists ops, one_final_each (log_of ops)
  /\ filter is_2xx (finals (log_of ops)) = [plain 200] /\ sent_finals (log_of ops) = [plain 200; plain 200].
Proof.
  exists (fork2 ++ [PResp b1 (plain 200); PResp b2 (plain 487)]).
  split; [|split; vm_compute; reflexivity]. split; vm_compute; repeat constructor; cbn; intuition discriminate.
Qed.
Print Assumptions C41_once_refuted.

(** ** C48 *)
(** C48: in every interleaving a context has at most 50 branches, with distinct ids. *)
Theorem C48_branches : forall ord, (forall m, Permutation (ord m) m) ->
  forall q labs, let s := srun ord (sys_new q) labs in
  llen (cx_branches (sy_ctx s)) <= 50 /\ NoDup (keys (cx_branches (sy_ctx s))).
Proof.
  intros ord O q labs s. pose proof (s_core _ (srun_sinv ord O q labs)) as K. split; [exact (k_len _ _ K)|exact (k_nodup _ _ K)].
Qed.
Print Assumptions C48_branches.
Lemma filter_shorter : forall A (f : A -> bool) l, (length (filter f l) <= length l)%nat.
Proof. induction l as [|x l IH]; cbn; [lia|]. destruct (f x); cbn; lia. Qed.
(** C48 (partial): with calls made one after the other, the table of contexts has
    at most 10000 entries.  Missing: concurrent calls (refuted below). *)
Theorem C48_contexts_partial : forall ops, llen (crun [] ops) <= 10000.
Proof.
  intros ops. unfold crun. assert (G : forall ops t, llen t <= 10000 -> llen (fold_left cstep ops t) <= 10000).
  2:{ apply G. cbn. lia. }
  clear. induction ops as [|o ops IH]; intros t H; [exact H|]. cbn [fold_left]. apply IH. destruct o as [b c n|b|n]; cbn.
  - unfold start_check, start_insert. destruct (MAX_PROXY_CONTEXTS <=? llen t) eqn:L; cbn [negb]; [exact H|].
    assert (llen (insert str_eqb b (c, n) t) <= llen t + 1); [|unfold MAX_PROXY_CONTEXTS in L; lia].
    unfold insert, llen. cbn [length]. pose proof (remove_key_length _ str_eqb_spec b t). lia.
  - pose proof (remove_key_length _ str_eqb_spec b t). unfold llen in *. lia.
  - match goal with |- llen (filter ?f t) <= _ => pose proof (filter_shorter _ f t) end. unfold llen in *. lia.
Qed.
Print Assumptions C48_contexts_partial.
(** C48: two [start_context] calls at the same time can exceed the limit. *)
Theorem C48_contexts_race_refuted : exists acts, 10000 < llen (fst (fold_left castep acts ([], 0))).
Proof.
  assert (G : forall n, N.of_nat n <= 10000 -> exists acts t, fold_left castep acts ([], 0) = (t, 0)
     /\ llen t = N.of_nat n /\ forall k, In k (keys t) -> (length k < n)%nat).
  { induction n as [|n IH]; intros H.
    - exists [], []. split; [reflexivity|]. split; [reflexivity|]. intros k [].
    - destruct IH as (acts & t & R & L & K); [lia|].
      exists (acts ++ [ACheck; AInsert (List.repeat 97 n) [] 0]), ((List.repeat 97 n, ([], 0)) :: t).
      rewrite fold_left_app, R. cbn [fold_left castep]. unfold start_check, MAX_PROXY_CONTEXTS. rewrite L.
      destruct (10000 <=? N.of_nat n) eqn:E; [lia|]. cbn [negb]. cbn [castep]. change (0 <? 0 + 1) with true. cbn iota.
      change (0 + 1 - 1) with 0. split; [|split].
      + unfold start_insert, insert. rewrite (remove_key_notin _ str_eqb_spec); [reflexivity|].
        intros Hk. apply K in Hk. rewrite repeat_length in Hk. lia.
      + unfold llen in *. cbn [length]. lia.
      + intros k [<-|Hk]; [cbn; rewrite repeat_length; lia|]. apply K in Hk. lia. }
  assert (exists n, N.of_nat n = 9999) as [n En] by (exists (N.to_nat 9999); apply N2Nat.id).
  destruct (G n) as (acts & t & R & L & K); [lia|].
  exists (acts ++ [ACheck; ACheck; AInsert (List.repeat 97 n) [] 0; AInsert (List.repeat 97 (S n)) [] 0]).
  assert (Ck : start_check t = true) by (unfold start_check, MAX_PROXY_CONTEXTS; rewrite L, En; reflexivity).
  rewrite fold_left_app, R. cbn [fold_left castep]. rewrite Ck. cbn [castep]. rewrite Ck. cbn [castep]. change (0 <? 0 + 1 + 1) with true. cbn iota.
  cbn [castep]. change (0 <? 0 + 1 + 1 - 1) with true. cbn iota. cbn [fst]. unfold start_insert, insert.
  rewrite (remove_key_notin _ str_eqb_spec (List.repeat 97 n)); [|intros Hk; apply K in Hk; rewrite repeat_length in Hk; lia].
  rewrite (remove_key_notin _ str_eqb_spec (List.repeat 97 (S n))).
  - unfold llen in *. cbn [length]. lia.
  - intros [Hk|Hk]; [apply (f_equal (@length N)) in Hk; cbn [fst] in Hk; rewrite !repeat_length in Hk; lia|].
    apply K in Hk. rewrite repeat_length in Hk. lia.
Qed.
Print Assumptions C48_contexts_race_refuted.
(** C48 (partial): with calls made one after the other, no branch is added after
    a 6xx was received. *)
Theorem C48_no_branch_after_6xx_partial : forall ord, (forall m, Permutation (ord m) m) ->
  forall q ops c l, prun ord (ctx_new q) ops = (c, l) ->
  always (fun l1 e => match e with Added _ => forall r, In r (finals l1) -> is_6xx r = false | _ => True end) l.
Proof.
  intros ord O q ops c l H.
  destruct (prun_ind ord O (fun _ l => always (fun l1 e => match e with
       Added _ => forall r, In r (finals l1) -> is_6xx r = false | _ => True end) l))
    with (ops := ops) (c := ctx_new q) (l := @nil event) (c' := c) (ev := l) as [_ A];
    [|apply inv_new|apply always_nil|exact H|exact A].
  clear - O. intros c l o c' ev I A S. pose proof S as S'. apply (step_cases ord) in S.
  destruct S as [[-> _]|[(b & t & -> & Ad & ->)|(b & r & ts & P)]].
  - rewrite app_nil_r. exact A.
  - apply always_snoc; [exact A|]. intros r Hr. unfold add_branch, add_check in Ad. rewrite (i_term _ _ I) in Ad.
    destruct (existsb is_6xx (finals l)) eqn:X; [discriminate|]. destruct (is_6xx r) eqn:E; [|reflexivity].
    assert (existsb is_6xx (finals l) = true) by (apply existsb_exists; eauto). congruence.
  - assert (N : forall e, In e ev -> match e with Added _ => False | _ => True end).
    { apply process_cases in P.
      destruct P as [(_ & _ & ->)|(c1 & _ & [(_ & _ & ->)|[(_ & _ & _ & _ & ->)|[(_ & _ & _ & _ & _ & ->)|(_ & _ & _ & ->)]]])];
        intros e He; cbn in He; intuition; subst; auto.
      unfold finish in *. destruct (cx_count c' =? 0); [|contradiction]. destruct (cx_best c'); [|contradiction].
      cbn in *. intuition; subst; auto. }
    clear - A N. induction ev as [|e ev IH] using rev_ind; [now rewrite app_nil_r|].
    rewrite app_assoc. apply always_snoc.
    + apply IH. intros x Hx. apply N. apply in_or_app. now left.
    + specialize (N e). destruct e; auto. exfalso. apply N. apply in_or_app. right. now left.
Qed.
Print Assumptions C48_no_branch_after_6xx_partial.
Example C48_6xx_example : log_of (fork2 ++ [PResp b1 (plain 603); PAdd b3 ex_target]) =
  [Added b1; Added b2; Got b1 (plain 603); Sent Now (plain 603)].
Proof. vm_compute. reflexivity. Qed.
(** C48: false with concurrent calls: [add_branch] reads the 6xx flag before it
    takes the lock on the branches. *)
Theorem C48_6xx_race_refuted : exists ls l1, slog_of ls = l1 ++ [Added b2] /\ In (plain 603) (finals l1) /\ In (plain 603) (sent_finals l1).
Proof.
  exists ([Start (PAdd b1 ex_target); Run 0; Run 0; Start (PAdd b2 ex_target); Run 0; Start (PResp b1 (plain 603));
    Run 1; Run 1; Run 1; Run 1; Run 1; Run 0]%nat).
  exists [Added b1; Got b1 (plain 603); Sent Now (plain 603)].
  split; [vm_compute; reflexivity|]. split; cbn; tauto.
Qed.
Print Assumptions C48_6xx_race_refuted.

(** ** C93 *)
(** C93: in every interleaving, every response forwarded was received on a branch
    before; a final one may carry additional challenges, each taken from a 401 or
    407 received before. *)
Theorem C93_provenance : forall ord, (forall m, Permutation (ord m) m) ->
  forall q labs, always (fun l1 e => match e with
    | Sent _ r => exists b r0, In (Got b r0) l1 /\
        (r = r0 \/ (is_final r0 = true /\ adds_challenges (fun x => exists b', In (Got b' x) l1) r0 r))
    | _ => True end) (sy_log (srun ord (sys_new q) labs)).
Proof.
  intros ord O q labs l1 e l2 E. pose proof (s_from _ (srun_sinv ord O q labs) l1 e l2 E) as H.
  assert (R : forall x, In x (received l1) -> exists b, In (Got b x) l1).
  { intros x Hx. unfold received in Hx. apply in_flat_map in Hx. destruct Hx as ([b|b y|k y] & Hi & Hx); try destruct Hx.
    subst y. - eauto. - contradiction. }
  destruct e as [b|b r|[] r]; auto; cbn in H.
  - destruct H as [H _]. destruct (R _ H) as [b Hb]. exists b, r. auto.
  - destruct H as [H _]. destruct (R r) as [b Hb]; [apply (finals_received _ _ H)|]. exists b, r. auto.
  - destruct H as (r0 & H & A). destruct (finals_received _ _ H) as [H1 H2]. destruct (R _ H1) as [b Hb].
    exists b, r0. split; [exact Hb|]. right. split; [exact H2|]. eapply adds_weaken; [|exact A]. exact R.
Qed.
Print Assumptions C93_provenance.
(** C93: what is recorded on a branch was passed in for it by the program, or is
    the 408 of Timer C or the 503 of a transport error. *)
Theorem C93_origin : forall ord, (forall m, Permutation (ord m) m) ->
  forall q labs b r, In (Got b r) (sy_log (srun ord (sys_new q) labs)) -> origin q labs b r.
Proof. intros ord O q labs. apply (origin_inv ord q labs). Qed.
Print Assumptions C93_origin.
(** C93: in every interleaving, provisional responses are forwarded in the order
    in which they are recorded, none left out and none twice. *)
Theorem C93_provisional : forall ord, (forall m, Permutation (ord m) m) ->
  forall q labs, let l := sy_log (srun ord (sys_new q) labs) in prov_sent l = prov_got l.
Proof. intros ord O q labs. apply (prov_inv ord O q labs). Qed.
Print Assumptions C93_provisional.
Example C93_example : slog_of (start2 ++ [Start (PResp b1 (plain 180)); Run 0; Elapse b1; Run 0; Run 0; Start (PResp b2 (plain 183)); Run 1; Run 0;
     Run 0; Run 0]%nat) =
  [Added b1; Added b2; Got b1 (plain 180); Sent Prov (plain 180);
   Got b1 (synthetic ex_req 408 (lit "Request Timeout")); Got b2 (plain 183); Sent Prov (plain 183)].
Proof. vm_compute. reflexivity. Qed.

(** ** C94 *)
(** C94: in every interleaving, if the branch ids are distinct, at least one
    branch was created, each has given a final response and no call is running,
    then a final response has been forwarded. *)
Theorem C94_answered : forall ord, (forall m, Permutation (ord m) m) ->
  forall q labs, let s := srun ord (sys_new q) labs in let l := sy_log s in
  NoDup (added l) -> added l <> [] -> all_finished l -> sy_tasks s = [] -> sent_finals l <> [].
Proof. intros ord O q labs s l A B C D. apply (always_answered ord O q labs); assumption. Qed.
Print Assumptions C94_answered.
Example C94_example :
  let s := srun in_order (sys_new ex_req) race in
  NoDup (added (sy_log s)) /\ added (sy_log s) <> [] /\ all_finished (sy_log s) /\ sy_tasks s = [].
Proof.
  cbv zeta. split; [vm_compute; repeat constructor; cbn; intuition discriminate|].
  split; [vm_compute; discriminate|]. split; [|vm_compute; reflexivity].
  unfold all_finished. match goal with |- context [added ?x] => let y := eval vm_compute in x in change x with y end.
  cbn. tauto.
Qed.
(** C94: false if a branch id is used twice: the count then expects one more. *)
Theorem C94_reuse_refuted : exists ops, let l := log_of ops in added l <> [] /\ all_finished l /\ sent_finals l = [].
Proof.
  exists [PAdd b1 ex_target; PAdd b1 ex_target; PResp b1 (plain 486)].
  unfold all_finished. cbv zeta. match goal with |- context [added ?x] => let y := eval vm_compute in x in change x with y end.
  split; [discriminate|]. split; [|reflexivity]. cbn. tauto.
Qed.
Print Assumptions C94_reuse_refuted.

(** Calls made one after the other are one of the interleavings, so what holds in
    every interleaving holds of them. *)
Theorem C93_sequential : forall ord, (forall m, Permutation (ord m) m) ->
  forall q ops c l, prun ord (ctx_new q) ops = (c, l) -> exists labs, srun ord (sys_new q) labs = mkSys c [] l.
Proof.
  intros ord O q ops c l H. exists (flat_map seq_labels ops).
  exact (seq_is_concurrent ord ops (ctx_new q) c [] l H).
Qed.
Print Assumptions C93_sequential.

(** ** Timer C and transport errors (C94) *)
Definition stand_of (s : bstate) : standing :=
  match s with BTrying => Created | BProceeding => Ringing | BCompleted => Answered | BCancelled => GivenUp | BTimedOut => Answered end.
Definition stand_inv (c : ctx) (l : list event) : Prop :=
  (forall b br, lookup str_eqb b (cx_branches c) = Some br -> br_state br <> BTimedOut /\ stands b l = Some (stand_of (br_state br)))
  /\ (forall b, lookup str_eqb b (cx_branches c) = None -> stands b l = None).
Lemma stands_app : forall b l e, stands b (l ++ [e]) = snd (stand_step b (fold_left (stand_step b) l ([], None)) e).
Proof. intros b l e. unfold stands. rewrite fold_left_app. reflexivity. Qed.
Lemma stands_got : forall b l b' r, stands b (l ++ [Got b' r]) = if str_eqb b b' then match stands b l with None => None | Some x => Some (if 200 <=? p_code r then Answered else if 100 <=? p_code r then Ringing else x) end else stands b l.
Proof. intros b l b' r. rewrite stands_app. unfold stands. destruct (fold_left (stand_step b) l ([], None)) as [w st]. reflexivity. Qed.
Lemma stands_added : forall b l b', stands b (l ++ [Added b']) = if str_eqb b b' then Some Created else stands b l.
Proof. intros b l b'. rewrite stands_app. unfold stands. destruct (fold_left (stand_step b) l ([], None)) as [w st]. reflexivity. Qed.
Lemma stands_sent : forall b l k r, k <> Now -> stands b (l ++ [Sent k r]) = stands b l.
Proof. intros b l k r H. rewrite stands_app. unfold stands. destruct (fold_left (stand_step b) l ([], None)) as [w st]. destruct k; [reflexivity|congruence|reflexivity]. Qed.
Lemma stands_won : forall b l w r r', stands b (l ++ [Got w r; Sent Now r']) =
  let st := stands b (l ++ [Got w r]) in if str_eqb b w then st else match st with Some Created | Some Ringing => Some GivenUp | _ => st end.
Proof.
  intros b l w r r'. change [Got w r; Sent Now r'] with ([Got w r] ++ [Sent Now r']). rewrite app_assoc. cbv zeta. unfold stands. rewrite !fold_left_app. cbn [fold_left].
  destruct (fold_left (stand_step b) l ([], None)) as [v st]. cbn [stand_step snd]. reflexivity.
Qed.
Lemma stand_record : forall c l b r c1, stand_inv c l -> record_response c b r = Some c1 -> stand_inv c1 (l ++ [Got b r]).
Proof.
  intros c l b r c1 [A B] H. unfold record_response in H. destruct (lookup str_eqb b (cx_branches c)) as [br|] eqn:L; [|discriminate]. injection H as <-. unfold stand_inv. cbn [cx_branches set_timers set_branches].
  destruct (A b br L) as [A1 A2]. split.
  - intros b' br' H. rewrite stands_got. destruct (str_eq_dec b' b) as [->|Ne].
    + rewrite lookup_upd_same, L in H. injection H as <-. cbn [br_state]. rewrite str_eqb_refl, A2. unfold is_prov, is_final. split.
      * destruct ((100 <=? p_code r) && (p_code r <? 200)); [discriminate|]. destruct (200 <=? p_code r); [discriminate|exact A1].
      * destruct (200 <=? p_code r) eqn:X, (100 <=? p_code r) eqn:Y; cbn [andb]; try lia.
        -- replace (p_code r <? 200) with false by lia. reflexivity.
        -- replace (p_code r <? 200) with true by lia. reflexivity.
        -- reflexivity.
    + rewrite lookup_upd_other in H by exact Ne. replace (str_eqb b' b) with false by (symmetry; now apply str_eqb_neq). auto.
  - intros b' H. rewrite stands_got. destruct (str_eq_dec b' b) as [->|Ne]; [rewrite lookup_upd_same, L in H; discriminate|].
    rewrite lookup_upd_other in H by exact Ne. replace (str_eqb b' b) with false by (symmetry; now apply str_eqb_neq). auto.
Qed.
Lemma stand_branches : forall c c' l, cx_branches c' = cx_branches c -> stand_inv c l -> stand_inv c' l.
Proof. intros c c' l E [A B]. unfold stand_inv. rewrite E. split; assumption. Qed.
Lemma stand_won : forall c l b r r', stand_inv c (l ++ [Got b r]) -> stand_inv (cancel_others c b) (l ++ [Got b r; Sent Now r']).
Proof.
  intros c l b r r' [A B]. split.
  - intros b' br H. rewrite cancel_map, lookup_cancel in H. destruct (lookup str_eqb b' (cx_branches c)) as [v|] eqn:L; [|discriminate]. injection H as <-. destruct (A b' v L) as [A1 A2]. rewrite stands_won. cbv zeta. rewrite A2.
    unfold cancel1. cbn [fst snd]. destruct (str_eqb b' b); [auto|]. destruct (br_state v) eqn:S; cbn [snd br_state]; rewrite ?S; split; try discriminate; try congruence; reflexivity.
  - intros b' H. rewrite cancel_map, lookup_cancel in H. destruct (lookup str_eqb b' (cx_branches c)) as [v|] eqn:L; [discriminate|]. rewrite stands_won. cbv zeta. rewrite (B b' L). destruct (str_eqb b' b); reflexivity.
Qed.
Lemma stand_process : forall ord c l b r c' ev, stand_inv c l -> process ord c b r = (c', ev) -> stand_inv c' (l ++ ev).
Proof.
  intros ord c l b r c' ev I H. unfold process in H. destruct (record_response c b r) as [c1|] eqn:R; [|injection H as <- <-; rewrite app_nil_r; exact I].
  pose proof (stand_record _ _ _ _ _ I R) as I1. destruct (is_final r).
  - destruct (rank_response (count_down c1) r) as [sel c2] eqn:RK. assert (E2 : cx_branches c2 = cx_branches c1).
    { unfold rank_response in RK. destruct (select_best _ _); injection RK as _ <-; reflexivity. }
    apply (stand_branches c1 c2 _ E2) in I1. destruct (sel && is_2xx r).
    + injection H as <- <-. now apply stand_won.
    + destruct (sel && is_6xx r).
      * injection H as <- <-. apply stand_won. exact (stand_branches c2 (set_term c2) _ eq_refl I1).
      * injection H as <- <-. unfold finish. destruct (cx_count c2 =? 0); [|exact I1]. destruct (cx_best c2) as [best|]; [|exact I1].
        change [Got b r; Sent Done (if is_challenge best then aggregate ord c2 best else best)] with ([Got b r] ++ [Sent Done (if is_challenge best then aggregate ord c2 best else best)]).
        rewrite app_assoc. destruct I1 as [A B]. split; intros; rewrite stands_sent by discriminate; auto.
  - injection H as <- <-. change [Got b r; Sent Prov r] with ([Got b r] ++ [Sent Prov r]). rewrite app_assoc. destruct I1 as [A B]. split; intros; rewrite stands_sent by discriminate; auto.
Qed.
Lemma stand_run : forall ord, (forall m, Permutation (ord m) m) -> forall q ops c l, prun ord (ctx_new q) ops = (c, l) -> stand_inv c l.
Proof.
  intros ord O q ops c l H. refine (proj2 (prun_ind ord O stand_inv _ ops (ctx_new q) [] c l (inv_new q) _ H)).
  - intros c0 l0 o c' ev _ I S. apply step_cases in S. destruct S as [[-> [ts ->]]|[(b & t & -> & A & ->)|(b & r & ts & P)]].
    + rewrite app_nil_r. exact (stand_branches c0 (set_timers c0 ts) _ eq_refl I).
    + unfold add_branch in A. destruct (add_check c0); [|discriminate]. unfold add_insert in A. destruct (_ <=? _); [discriminate|]. injection A as <-. destruct I as [I1 I2]. split.
      * intros b' br Hl. cbn [cx_branches set_count set_branches] in Hl. rewrite stands_added. destruct (str_eq_dec b' b) as [->|Ne].
        -- rewrite (lookup_insert_same _ str_eqb_spec) in Hl. injection Hl as <-. rewrite str_eqb_refl. split; [discriminate|reflexivity].
        -- rewrite (lookup_insert_other _ str_eqb_spec) in Hl by exact Ne. replace (str_eqb b' b) with false by (symmetry; now apply str_eqb_neq). auto.
      * intros b' Hl. cbn [cx_branches set_count set_branches] in Hl. rewrite stands_added. destruct (str_eq_dec b' b) as [->|Ne].
        -- rewrite (lookup_insert_same _ str_eqb_spec) in Hl. discriminate.
        -- rewrite (lookup_insert_other _ str_eqb_spec) in Hl by exact Ne. replace (str_eqb b' b) with false by (symmetry; now apply str_eqb_neq). auto.
    + eapply stand_process; [|exact P]. exact (stand_branches c0 (set_timers c0 ts) _ eq_refl I).
  - split; intros; [discriminate|reflexivity].
Qed.
(** Calls made one after the other: when Timer C of a branch elapses, a 408 is recorded on
    it if it is ringing, and nothing happens otherwise; in particular not after it was
    answered or given up. *)
Theorem C94_timer : forall ord, (forall m, Permutation (ord m) m) -> forall q ops c l b, prun ord (ctx_new q) ops = (c, l) -> In b (cx_timers c) ->
  (stands b l = Some Ringing -> exists more, snd (pstep ord c (PTimer b)) = Got b (synthetic q 408 (lit "Request Timeout")) :: more)
  /\ (stands b l <> Some Ringing -> snd (pstep ord c (PTimer b)) = []).
Proof.
  intros ord O q ops c l b H Hb. pose proof (stand_run ord O q ops c l H) as [A B]. assert (Q : cx_req c = q).
  { refine (proj2 (prun_ind ord O (fun c _ => cx_req c = q) _ ops (ctx_new q) [] c l (inv_new q) eq_refl H)).
    intros c0 l0 o c' ev _ <- S. apply step_cases in S. destruct S as [[-> [ts ->]]|[(b' & t & -> & Ab & ->)|(b' & r & ts & P)]]; [reflexivity| |].
    - unfold add_branch in Ab. destruct (add_check c0); [|discriminate]. unfold add_insert in Ab. destruct (_ <=? _); [discriminate|]. injection Ab as <-. reflexivity.
    - unfold process in P. destruct (record_response (set_timers c0 ts) b' r) as [c1|] eqn:R; [|injection P as <- _; reflexivity]. unfold record_response in R. destruct (lookup _ _ _); [|discriminate]. injection R as <-.
      destruct (is_final r); [|injection P as <- _; reflexivity]. unfold rank_response in P. destruct (select_best _ _); cbn [andb] in P; [destruct (is_2xx r); [injection P as <- _; reflexivity|destruct (is_6xx r)]|]; injection P as <- _; reflexivity. }
  cbn [pstep]. assert (R : exists ts, remove_one b (cx_timers c) = Some ts).
  { clear - Hb. induction (cx_timers c) as [|x ts IH]; [destruct Hb|]. cbn [remove_one]. destruct (str_eqb b x) eqn:E; [eauto|]. destruct Hb as [->|Hb]; [rewrite str_eqb_refl in E; discriminate|]. destruct (IH Hb) as [ts' ->]. eauto. }
  destruct R as [ts ->]. unfold fire_timer_c, timer_applies. cbn [cx_branches set_timers]. destruct (lookup str_eqb b (cx_branches c)) as [br|] eqn:L.
  - destruct (A b br L) as [A1 A2]. rewrite A2. destruct (br_state br) eqn:S; cbn [stand_of]; split; try reflexivity; try (intros X; discriminate X); try congruence.
    intros _. unfold process, record_response, timeout_408. cbn [cx_branches set_timers cx_req]. rewrite L, Q.
    change (is_final (synthetic q 408 (lit "Request Timeout"))) with true. cbv iota. destruct (rank_response _ _) as [sel c2]. change (is_2xx (synthetic q 408 (lit "Request Timeout"))) with false. change (is_6xx (synthetic q 408 (lit "Request Timeout"))) with false.
    rewrite !andb_false_r. cbn [snd]. eauto.
  - rewrite (B b L). split; [discriminate|reflexivity].
Qed.
Print Assumptions C94_timer.
(** The same for transport errors: a 503 is recorded on a branch that is created or
    ringing, and nothing happens otherwise. *)
Theorem C94_error : forall ord, (forall m, Permutation (ord m) m) -> forall q ops c l b, prun ord (ctx_new q) ops = (c, l) ->
  snd (pstep ord c (PError b)) <> [] <-> stands b l = Some Created \/ stands b l = Some Ringing.
Proof.
  intros ord O q ops c l b H. pose proof (stand_run ord O q ops c l H) as [A B]. cbn [pstep]. unfold report_error, error_applies.
  destruct (lookup str_eqb b (cx_branches c)) as [br|] eqn:L.
  - destruct (A b br L) as [A1 A2]. rewrite A2. assert (P : snd (process ord c b (unavailable_503 c)) <> []).
    { unfold process, record_response. rewrite L. change (is_final (unavailable_503 c)) with true. cbv iota. destruct (rank_response _ _) as [sel c2]. change (is_2xx (unavailable_503 c)) with false. change (is_6xx (unavailable_503 c)) with false. rewrite !andb_false_r. discriminate. }
    destruct (br_state br) eqn:S; cbn [stand_of snd]; split; intros X; auto; try congruence; try (destruct X; discriminate); try (now elim X).
  - rewrite (B b L). cbn [snd]. split; [now intros []|intros [X|X]; discriminate].
Qed.
Print Assumptions C94_error.
(** A timer that has elapsed is gone. *)
Theorem C94_timer_once : forall ord c b, In b (cx_timers c) ->
  llen (filter (str_eqb b) (cx_timers (fst (pstep ord c (PTimer b))))) + 1 = llen (filter (str_eqb b) (cx_timers c)).
Proof.
  intros ord c b Hb. cbn [pstep]. assert (R : exists ts, remove_one b (cx_timers c) = Some ts /\ llen (filter (str_eqb b) ts) + 1 = llen (filter (str_eqb b) (cx_timers c))).
  { clear - Hb. induction (cx_timers c) as [|x ts IH]; [destruct Hb|]. cbn [remove_one filter]. destruct (str_eqb b x) eqn:E; [exists ts; split; [reflexivity|rewrite llen_cons; lia]|].
    destruct Hb as [->|Hb]; [rewrite str_eqb_refl in E; discriminate|]. destruct (IH Hb) as [ts' [-> L]]. eexists. split; [reflexivity|]. cbn [filter]. rewrite E. exact L. }
  destruct R as (ts & -> & L). unfold fire_timer_c. destruct (timer_applies (set_timers c ts) b) eqn:T; [|exact L].
  assert (X : cx_timers (fst (process ord (set_timers c ts) b (timeout_408 (set_timers c ts)))) = ts).
  { unfold process, record_response. unfold timer_applies in T. destruct (lookup str_eqb b (cx_branches (set_timers c ts))) as [br|]; [|discriminate]. destruct (br_state br); try discriminate.
    change (is_final (timeout_408 (set_timers c ts))) with true. cbv iota. unfold rank_response. destruct (select_best _ _); cbn [andb]; [|reflexivity].
    change (is_2xx (timeout_408 (set_timers c ts))) with false. change (is_6xx (timeout_408 (set_timers c ts))) with false. reflexivity. }
  rewrite X. exact L.
Qed.
Print Assumptions C94_timer_once.
(** What the proxy makes up itself has no body and exactly the Via, From, To, Call-ID and
    CSeq of the request, the first of each. *)
Theorem C94_made_up : forall q code reason, (forall h, In h (q_headers q) -> validate_header_value (snd h) = None) ->
  p_body (synthetic q code reason) = []
  /\ p_headers (synthetic q code reason) =
     flat_map (fun n => match hget (lit n) (q_headers q) with Some v => [(lit n, v)] | None => [] end) ["Via"; "From"; "To"; "Call-ID"; "CSeq"]%string.
Proof.
  intros q code reason H. split; [reflexivity|]. unfold synthetic. cbn [p_headers].
  assert (V : forall n v, hget n (q_headers q) = Some v -> validate_header_value v = None).
  { intros n v E. apply hget_some in E. destruct E as (a & m & b & E & _). apply (H (m, v)). rewrite E. apply in_or_app. right. now left. }
  assert (G : forall ns hs, (List.length ns + List.length hs <= 10)%nat -> (forall n, In n ns -> validate_header_name n = None) ->
    fold_left (fun hs n => match hget n (q_headers q) with Some v => or_same hs (hpush hs n v) | None => hs end) ns hs
    = hs ++ flat_map (fun n => match hget n (q_headers q) with Some v => [(n, v)] | None => [] end) ns).
  { induction ns as [|n ns IH]; intros hs L Hn; cbn [fold_left flat_map]; [now rewrite app_nil_r|]. cbn [List.length] in L. destruct (hget n (q_headers q)) as [v|] eqn:E.
    - assert (P : or_same hs (hpush hs n v) = hs ++ [(n, v)]).
      { unfold hpush. replace (MAX_HEADERS <=? llen hs) with false by (unfold MAX_HEADERS, llen; lia). unfold header_new. rewrite (Hn n (or_introl eq_refl)), (V n v E). reflexivity. }
      rewrite P, IH; [rewrite <- app_assoc; reflexivity|rewrite app_length; cbn [List.length]; lia|intros m Hm; apply Hn; now right].
    - rewrite IH; [reflexivity|lia|intros m Hm; apply Hn; now right]. }
  unfold echo_names. rewrite G; [reflexivity|cbn; lia|]. intros n Hn. repeat (destruct Hn as [<-|Hn]; [reflexivity|]). destruct Hn.
Qed.
Print Assumptions C94_made_up.
Definition ring1 : list pop := fork2 ++ [PResp b1 (plain 180); PResp b2 (plain 486)].
Example C94_made_up_example : In b1 (cx_timers (fst (prun in_order (ctx_new ex_req) ring1)))
  /\ stands b1 (log_of ring1) = Some Ringing /\ stands b2 (log_of ring1) = Some Answered
  /\ stands b1 (log_of (ring1 ++ [PAdd b3 ex_target; PResp b3 (plain 200)])) = Some GivenUp
  /\ stands b1 (log_of (ring1 ++ [PTimer b1])) = Some Answered.
Proof. split; [vm_compute; auto|]. repeat split; vm_compute; reflexivity. Qed.

(** ** The table of contexts (C48) *)
(** Cleaning up removes exactly the contexts that are 300 s old or older. *)
Theorem C48_cleanup : forall t now b call made, In (b, (call, made)) (cstep t (CCleanup now)) <-> In (b, (call, made)) t /\ now < made + 300000000000.
Proof. intros t now b call made. cbn [cstep]. rewrite filter_In. cbn [snd]. unfold CLEANUP_NS. split; intros [A B]; (split; [exact A|lia]). Qed.
Print Assumptions C48_cleanup.
(** A context is found under its branch until it is removed, and under its Call-ID. *)
Theorem C48_found : forall t b call now, llen t < 10000 ->
  find_context (cstep t (CStart b call now)) b = Some (call, now)
  /\ (forall b', b' <> b -> find_context (cstep t (CStart b call now)) b' = find_context t b' /\ find_context (cstep t (CRemove b)) b' = find_context t b')
  /\ find_context (cstep t (CRemove b)) b = None.
Proof.
  intros t b call now L. cbn [cstep]. unfold start_check, MAX_PROXY_CONTEXTS, start_insert, find_context. replace (10000 <=? llen t) with false by lia. cbn [negb].
  split; [apply (lookup_insert_same _ str_eqb_spec)|]. split; [|apply lookup_remove_same]. intros b' Ne. split; [now apply (lookup_insert_other _ str_eqb_spec)|now apply (lookup_remove_other _ str_eqb_spec)].
Qed.
Print Assumptions C48_found.
Theorem C48_found_call : forall t call, match find_by_call t call with
  | Some (b, (call', made)) => In (b, (call', made)) t /\ call' = call
  | None => forall b made, ~ In (b, (call, made)) t end.
Proof.
  intros t call. unfold find_by_call. destruct (find _ t) as [[b [call' made]]|] eqn:E.
  - apply find_some in E. destruct E as [E1 E2]. split; [exact E1|now apply str_eqb_spec in E2].
  - intros b made Hi. apply (find_none _ _ E) in Hi. cbn [snd fst] in Hi. rewrite str_eqb_refl in Hi. discriminate.
Qed.
Print Assumptions C48_found_call.
