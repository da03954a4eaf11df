(** Properties of the transaction manager: C09, C10, C11, C70. *)
From Coq Require Import Arith NArith Bool List Lia ZifyBool ZifyN ZifyNat.
Import ListNotations.
From Verif Require Import Base BaseFacts Headers HeadersProofs Method Fsm FsmSpec FsmProofs
  TxManager TxManagerSpec TxManagerProofs.
Open Scope N_scope.

Lemma history_inv : forall (P : mgr -> Prop) c,
  (forall m x, P m -> P (fst (step c m x))) ->
  forall ops m, P m -> P (fst (history c m ops)).
Proof.
  intros P c Hs. induction ops as [|x ops IH]; intros m H; [exact H|]. cbn [history].
  specialize (Hs m x H). destruct (step c m x) as [m1 o1]. specialize (IH m1 Hs).
  destruct (history c m1 ops). exact IH.
Qed.

(** ** C09 *)

(** C09: after any history both tables are within their limit (1 if the limit
    is 0) and hold one entry per key. *)
Theorem C09_bounded : forall c m, reachable c m ->
  llen (mg_server m) <= N.max 1 (cf_max_server c)
  /\ llen (mg_client m) <= N.max 1 (cf_max_client c)
  /\ NoDup (keys (mg_server m)) /\ NoDup (keys (mg_client m)).
Proof.
  intros c m [ops ->].
  assert (B : bounded c (fst (history c mgr_init ops))).
  { apply history_inv; [intros; now apply step_bounded|].
    unfold bounded. cbn [mgr_init mg_server mg_client]. repeat split; try constructor; rewrite llen_nil; lia. }
  destruct B as [B1 [B2 [B3 B4]]]. auto.
Qed.
Print Assumptions C09_bounded.

Lemma apply_server_other : forall net k l m k', k' <> k ->
  slookup k' (fst (apply_server net k l m)) = slookup k' m.
Proof. intros. now apply (apply_server_frame net k l m). Qed.
Lemma apply_client_other : forall net k l m k', k' <> k ->
  clookup k' (fst (apply_client net k l m)) = clookup k' m.
Proof. intros. now apply (apply_client_frame net k l m). Qed.

Definition request_key (gen : str) (rq : request) : key :=
  (match extract_branch (rq_headers rq) with Some b => b | None => gen end, rq_method rq).

Lemma receive_new : forall c net now gen rq ctx m,
  rq_method rq <> MAck -> rq_method rq <> MCancel -> slookup (request_key gen rq) m = None ->
  exists f acts, fst (receive_request c net now gen rq ctx m)
    = fst (apply_server net (request_key gen rq) acts
             (sput (request_key gen rq) (mkS f ctx [] now) (enforce_server c m))).
Proof.
  intros c net now gen rq ctx m Ha Hc Hk. unfold receive_request. fold (request_key gen rq).
  unfold request_key in Hk. 
  replace (match rq_method rq with
           | MAck => _ | _ => false end) with false by (destruct (rq_method rq); congruence).
  unfold request_key. rewrite Hk.
  replace (match rq_method rq with
           | MCancel => _ | _ => (m, []) end) with (m, @nil out) by (destruct (rq_method rq); congruence).
  match goal with |- context [let '(_, _) := (if ?b then ?x else ?y) in _] =>
    destruct (if b then x else y) as [f acts] end.
  exists f, acts. destruct (apply_server _ _ _ _). reflexivity.
Qed.

(** C09: a new request arriving while the table is below its limit evicts
    nothing; at the limit it evicts exactly one transaction, one with the
    earliest start time. *)
Theorem C09_server_eviction : forall c net now gen rq ctx m,
  NoDup (keys (mg_server m)) ->
  rq_method rq <> MAck -> rq_method rq <> MCancel ->
  let k := request_key gen rq in
  let m' := fst (receive_request c net now gen rq ctx m) in
  slookup k m = None ->
  (llen (mg_server m) < cf_max_server c -> forall k', k' <> k -> slookup k' m' = slookup k' m)
  /\ (cf_max_server c <= llen (mg_server m) -> mg_server m <> [] ->
      exists k0 e0, slookup k0 m = Some e0
        /\ (forall k' e', slookup k' m = Some e' -> se_start e0 <= se_start e')
        /\ slookup k0 m' = None
        /\ forall k', k' <> k -> k' <> k0 -> slookup k' m' = slookup k' m).
Proof.
  intros c net now gen rq ctx m Hn Ha Hc k m' Hk.
  destruct (receive_new c net now gen rq ctx m Ha Hc Hk) as [f [acts Hm]]. fold k in Hm. fold m' in Hm.
  assert (Ho : forall k', k' <> k -> slookup k' m' = slookup k' (enforce_server c m)).
  { intros k' Hne. rewrite Hm, apply_server_other, slookup_sput_other by assumption. reflexivity. }
  split.
  - intros Hl k' Hne. rewrite Ho by assumption. unfold enforce_server.
    destruct (cf_max_server c <=? llen (mg_server m)) eqn:E; [lia|reflexivity].
  - intros Hl Hne. unfold enforce_server in Ho.
    destruct (cf_max_server c <=? llen (mg_server m)) eqn:E; [|lia].
    pose proof (oldest_spec _ se_start (mg_server m)) as S.
    destruct (oldest se_start (mg_server m)) as [[k0 s]|]; [|contradiction].
    destruct S as [[e0 [Hi Hs]] Hmin]. exists k0, e0.
    assert (E0 : slookup k0 m = Some e0) by (now apply (in_lookup _ key_eqb_spec)).
    split; [exact E0|]. split.
    + intros k' e' E'. apply (lookup_in _ key_eqb_spec) in E'. rewrite Hs. eauto.
    + assert (Hk0 : k0 <> k) by (intros ->; congruence).
      split; [rewrite Ho by assumption; apply slookup_sdel_same|].
      intros k' H1 H2. rewrite Ho by assumption. now apply slookup_sdel_other.
Qed.
Print Assumptions C09_server_eviction.

(** C09, client side; the user of the evicted transaction is told. *)
Theorem C09_client_eviction : forall c net now rq ctx rest tu b m,
  NoDup (keys (mg_client m)) -> extract_branch (rq_headers rq) = Some b ->
  let k := (b, rq_method rq) in
  let m' := fst (start_client c net now rq (ctx :: rest) tu m) in
  let o := snd (start_client c net now rq (ctx :: rest) tu m) in
  clookup k m = None ->
  (llen (mg_client m) < cf_max_client c -> forall k', k' <> k -> clookup k' m' = clookup k' m)
  /\ (cf_max_client c <= llen (mg_client m) -> mg_client m <> [] ->
      exists k0 e0, clookup k0 m = Some e0
        /\ (forall k' e', clookup k' m = Some e' -> ce_start e0 <= ce_start e')
        /\ clookup k0 m' = None /\ In (OTerminated k0 (ce_tu e0)) o
        /\ forall k', k' <> k -> k' <> k0 -> clookup k' m' = clookup k' m).
Proof.
  intros c net now rq ctx rest tu b m Hn Hb k m' o Hk.
  subst m' o. unfold start_client. rewrite Hb. fold k.
  unfold enforce_client. destruct (cf_max_client c <=? llen (mg_client m)) eqn:E.
  - split; [intros; lia|]. intros _ Hne.
    pose proof (oldest_spec _ ce_start (mg_client m)) as S.
    destruct (oldest ce_start (mg_client m)) as [[k0 s]|]; [|contradiction].
    destruct S as [[e0 [Hi Hs]] Hmin].
    assert (E0 : clookup k0 m = Some e0) by (now apply (in_lookup _ key_eqb_spec)).
    match goal with |- context [let '(_, _) := (if ?b then ?x else ?y) in _] =>
      destruct (if b then x else y) as [f acts] end.
    pose proof (fun k' => apply_client_other net k acts (cput k (mkC f ctx tu [] now rest) (cdel k0 m)) k') as F.
    destruct (apply_client net k acts _) as [m3 o2]. cbn [fst snd] in *.
    assert (Hk0 : k0 <> k) by (intros ->; congruence).
    exists k0, e0. split; [exact E0|]. split.
    + intros k' e' E'. apply (lookup_in _ key_eqb_spec) in E'. rewrite Hs. eauto.
    + split; [rewrite F, clookup_cput_other by assumption; apply clookup_cdel_same|].
      split; [unfold of_client; rewrite E0; apply in_app_iff; left; now left|].
      intros k' H1 H2. rewrite F, clookup_cput_other, clookup_cdel_other by assumption. reflexivity.
  - split; [|intros; lia]. intros _ k' Hne.
    match goal with |- context [let '(_, _) := (if ?b then ?x else ?y) in _] =>
      destruct (if b then x else y) as [f acts] end.
    pose proof (apply_client_other net k acts (cput k (mkC f ctx tu [] now rest) m) k' Hne) as F.
    destruct (apply_client net k acts _) as [m3 o2]. cbn [fst] in *.
    rewrite F. now apply clookup_cput_other.
Qed.
Print Assumptions C09_client_eviction.

Definition demo_cfg := mkCfg 2 1 500 4000 5000.
Definition demo_req (mt : method) (b : str) : request :=
  mkRequest mt [(lit "Via", lit "SIP/2.0/UDP h;branch=" ++ b); (lit "CSeq", lit "1 " ++ method_str mt)] (lit "wire").
Definition demo_tg := mkTarget Udp 7.
(** three requests against a limit of two: the first is the one evicted *)
Example C09_example :
  let m := fst (history demo_cfg mgr_init
    [([], ORequest 1 [] (demo_req MOptions (lit "z9a")) demo_tg);
     ([], ORequest 2 [] (demo_req MInvite (lit "z9b")) demo_tg);
     ([], ORequest 3 [] (demo_req MInfo (lit "z9c")) demo_tg)]) in
  map fst (mg_server m) = [(lit "z9c", MInfo); (lit "z9b", MInvite)].
Proof. vm_compute. reflexivity. Qed.
Example C09_client_example :
  snd (history demo_cfg mgr_init
    [([], OStartClient 1 (demo_req MOptions (lit "z9a")) [demo_tg] 10);
     ([], OStartClient 2 (demo_req MInfo (lit "z9b")) [demo_tg] 11)])
  = [OSend (lit "z9a", MOptions) demo_tg (lit "wire") true; OHandle (lit "z9a", MOptions);
     OTerminated (lit "z9a", MOptions) 10;
     OSend (lit "z9b", MInfo) demo_tg (lit "wire") true; OHandle (lit "z9b", MInfo)].
Proof. vm_compute. reflexivity. Qed.

(** ** C10 *)

(** how the key is read: the first ";branch=" parameter of the first Via *)
Theorem C10_key_of_via : forall hs pre b post,
  hget (lit "Via") hs = Some (pre ++ lit ";branch=" ++ b ++ post) ->
  mem 59 pre = false -> mem 59 b = false -> trim b = b ->
  (post = [] \/ exists p, post = 59 :: p) ->
  extract_branch hs = Some b.
Proof.
  intros hs pre b post Hv H1 H2 H3 Hp. unfold extract_branch. rewrite Hv. unfold branch_from_via.
  change (lit ";branch=") with (59 :: lit "branch=").
  cbn [app]. rewrite split_on_app by assumption. cbn [skipn].
  assert (Hs : split_on 59 (lit "branch=" ++ b ++ post) = (lit "branch=" ++ b) :: 
             match post with [] => [] | _ :: p => split_on 59 p end).
  { assert (Hm : mem 59 (lit "branch=" ++ b) = false) by (rewrite mem_app, H2; reflexivity).
    destruct Hp as [->|[p ->]].
    - rewrite app_nil_r. now apply split_on_nomem.
    - rewrite app_assoc. now apply split_on_app. }
  rewrite Hs. cbn [find_branch].
  assert (Hso : split_once 61 (lit "branch=" ++ b) = Some (lit "branch", b)).
  { change (lit "branch=" ++ b) with (lit "branch" ++ 61 :: b). apply split_once_app. reflexivity. }
  rewrite Hso. replace (eq_ic (trim (lit "branch")) (lit "branch")) with true by reflexivity.
  now rewrite H3.
Qed.
Print Assumptions C10_key_of_via.

(** C10: a response that matches no client transaction changes nothing and
    produces nothing. *)
Theorem C10_unmatched : forall net r m,
  (forall b mt, extract_branch (rs_headers r) = Some b ->
                extract_cseq_method (rs_headers r) = Some mt -> clookup (b, mt) m = None) ->
  receive_response net r m = (m, []).
Proof.
  intros net r m H. unfold receive_response.
  destruct (extract_branch (rs_headers r)) as [b|]; [|reflexivity].
  destruct (extract_cseq_method (rs_headers r)) as [mt|]; [|reflexivity].
  unfold client_feed. rewrite (H b mt) by reflexivity. now destruct (rs_code r <? 200).
Qed.
Print Assumptions C10_unmatched.

Lemma feed_out : forall net k fi fn m e,
  clookup k m = Some e ->
  forallb quiet_action (snd (cli_event fi fn (ce_kind e))) = true ->
  snd (client_feed net k fi fn m) = flat_map (callback k (ce_tu e)) (snd (cli_event fi fn (ce_kind e))).
Proof.
  intros net k fi fn m e E Hq. unfold client_feed. rewrite E.
  destruct (cli_event fi fn (ce_kind e)) as [f acts]. cbn [snd] in *.
  unfold apply_client.
  pose proof (client_actions_out acts net k (cput k (ce_set f e) m) (ce_set f e) Hq (clookup_cput_same _ _ _)) as H.
  destruct (client_actions net k acts _) as [[m1 o] n]. cbn [fst snd] in *. exact H.
Qed.

(** C10: a response matching transaction [k] touches no other client
    transaction and no server transaction; every callback is about [k], its
    own user and this response; and while [k] waits for its final response the
    response is handed over exactly once. *)
Theorem C10_matched : forall net r m b mt e,
  extract_branch (rs_headers r) = Some b -> extract_cseq_method (rs_headers r) = Some mt ->
  let k := (b, mt) in
  clookup k m = Some e ->
  let m' := fst (receive_response net r m) in
  let o := snd (receive_response net r m) in
  mg_server m' = mg_server m
  /\ (forall k', k' <> k -> clookup k' m' = clookup k' m)
  /\ Forall (about k (ce_tu e) r) o
  /\ (waiting (ce_kind e) = true -> flat_map handed o = [(k, ce_tu e, r)]).
Proof.
  intros net r m b mt e Hb Hm k E. cbv zeta. unfold receive_response. rewrite Hb, Hm. fold k.
  set (fi := fun f => ci_step f (if rs_code r <? 200 then CiProv r else CiFinal r)).
  set (fn := fun f => cn_step f (if rs_code r <? 200 then CnProv r else CnFinal r)).
  assert (HF : (if rs_code r <? 200
                then client_feed net k (fun f => ci_step f (CiProv r)) (fun f => cn_step f (CnProv r)) m
                else client_feed net k (fun f => ci_step f (CiFinal r)) (fun f => cn_step f (CnFinal r)) m)
               = client_feed net k fi fn m) by (subst fi fn; now destruct (rs_code r <? 200)).
  rewrite HF. clear HF.
  pose proof (client_feed_frame net k fi fn m) as [F1 [F2 _]].
  split; [exact F1|]. split; [exact F2|].
  assert (Hq : forallb quiet_action (snd (cli_event fi fn (ce_kind e))) = true).
  { unfold cli_event, fi, fn. destruct (ce_kind e) as [x|x].
    - pose proof (resp_actions_quiet_ci x r (if rs_code r <? 200 then CiProv r else CiFinal r)) as Q.
      destruct (ci_step _ _). apply Q. destruct (rs_code r <? 200); auto.
    - pose proof (resp_actions_quiet_cn x r (if rs_code r <? 200 then CnProv r else CnFinal r)) as Q.
      destruct (cn_step _ _). apply Q. destruct (rs_code r <? 200); auto. }
  rewrite (feed_out _ _ _ _ _ _ E Hq). clear Hq.
  unfold cli_event, fi, fn. destruct (ce_kind e) as [x|x]; destruct x as [st tm a inv].
  - unfold ci_step, ci_provisional, ci_final, ci_final_2xx, ci_final_non2xx. cbn [ci_st].
    destruct (rs_code r <? 200) eqn:Ec; destruct st; cbn [waiting ci_st];
      splits; cbn [snd app flat_map callback]; rewrite ?Ec; cbn [app flat_map handed];
      (split; [repeat constructor|]); intros; try discriminate; reflexivity.
  - unfold cn_step, cn_final. cbn [cn_st].
    destruct (rs_code r <? 200) eqn:Ec; destruct st; cbn [waiting cn_st];
      splits; cbn [snd app flat_map callback]; rewrite ?Ec; cbn [app flat_map handed];
      (split; [repeat constructor|]); intros; try discriminate; reflexivity.
Qed.
Print Assumptions C10_matched.

Definition demo_resp (mt : method) (b : str) (code : N) : response :=
  mkResponse code [(lit "Via", lit "SIP/2.0/UDP h;branch=" ++ b); (lit "CSeq", lit "1 " ++ method_str mt)] (lit "resp").
Example C10_example :
  let m := fst (history (mkCfg 9 9 500 4000 5000) mgr_init
    [([], OStartClient 1 (demo_req MOptions (lit "z9a")) [demo_tg] 10);
     ([], OStartClient 2 (demo_req MInvite (lit "z9a")) [demo_tg] 11);
     ([], OStartClient 3 (demo_req MInvite (lit "z9b")) [demo_tg] 12)]) in
  let r := demo_resp MInvite (lit "z9a") 486 in
  (exists e, clookup (lit "z9a", MInvite) m = Some e /\ waiting (ce_kind e) = true /\ ce_tu e = 11)
  /\ snd (receive_response [] r m)
     = [OFinal (lit "z9a", MInvite) 11 r; OAck (lit "z9a", MInvite) 11 r false].
Proof. split; [eexists; split; [vm_compute; reflexivity|split; reflexivity]|vm_compute; reflexivity]. Qed.

(** ** C10, requests *)
Definition is_send (k : key) (o : out) : Prop := match o with OSend k' _ _ _ => k' = k | _ => False end.

Lemma server_actions_sends : forall l net k m e,
  slookup k m = Some e -> forallb (fun a => match a with Transmit _ => true | _ => false end) l = true ->
  (exists e', slookup k (fst (fst (server_actions net k l m))) = Some e' /\ e' = e)
  /\ mg_server (fst (fst (server_actions net k l m))) = mg_server m
  /\ Forall (is_send k) (snd (fst (server_actions net k l m))).
Proof.
  induction l as [|a l IH]; intros net k m e E Hl.
  - cbn. split; [exists e; auto|]. auto.
  - cbn [forallb] in Hl. apply andb_true_iff in Hl. destruct Hl as [Ha Hl].
    destruct a; try discriminate. cbn [server_actions server_action]. rewrite E.
    destruct (next net) as [ok net1].
    set (m1 := if ok then m else enqueue (CServerError k) m).
    assert (E1 : slookup k m1 = Some e) by (subst m1; destruct ok; exact E).
    assert (S1 : mg_server m1 = mg_server m) by (subst m1; now destruct ok).
    specialize (IH net1 k m1 e E1 Hl). destruct (server_actions net1 k l m1) as [[m2 o2] n2].
    cbn [fst snd] in *. destruct IH as [I1 [I2 I3]]. split; [exact I1|]. split; [congruence|].
    cbn [app]. constructor; [reflexivity|exact I3].
Qed.

Lemma lookup_insert_self : forall (k : key) V (e : V) (l : list (key * V)) k', lookup key_eqb k l = Some e ->
  lookup key_eqb k' (insert key_eqb k e l) = lookup key_eqb k' l.
Proof.
  intros. destruct (key_dec k' k) as [->|Hne].
  - now rewrite (lookup_insert_same _ key_eqb_spec).
  - now rewrite (lookup_insert_other _ key_eqb_spec).
Qed.

(** C10: a request repeated while its transaction is alive leaves every
    transaction as it was; the only effects are retransmissions of the stored
    response and the handle given back. *)
Theorem C10_retransmission_absorbed : forall c net now gen rq ctx m e,
  rq_method rq <> MAck -> slookup (request_key gen rq) m = Some e ->
  let k := request_key gen rq in
  let m' := fst (receive_request c net now gen rq ctx m) in
  let o := snd (receive_request c net now gen rq ctx m) in
  (forall k', slookup k' m' = slookup k' m) /\ mg_client m' = mg_client m
  /\ exists l, o = l ++ [OHandle k] /\ Forall (is_send k) l.
Proof.
  intros c net now gen rq ctx m e Ha E. cbv zeta. unfold receive_request.
  replace (match rq_method rq with
           | MAck => _ | _ => false end) with false by (destruct (rq_method rq); congruence).
  fold (request_key gen rq). set (k := request_key gen rq) in *. rewrite E.
  unfold server_feed. rewrite E.
  set (ev := srv_event _ _ (se_kind e)).
  assert (Hev : fst ev = se_kind e /\ forallb (fun a => match a with Transmit _ => true | _ => false end) (snd ev) = true).
  { subst ev. unfold srv_event. destruct (se_kind e) as [x|x].
    - unfold si_step. destruct x as [st tm g p f]. cbn [si_st]. unfold si_retransmit. cbn.
      destruct st, p, f; auto.
    - unfold sn_step. destruct x as [st tm l]. cbn [sn_st]. destruct st, l; cbn; auto. }
  destruct ev as [f acts]. cbn [fst snd] in Hev. destruct Hev as [-> Hacts].
  assert (He : se_set (se_kind e) e = e) by (now destruct e). rewrite He.
  unfold apply_server.
  pose proof (server_actions_sends acts net k (sput k e m) e (slookup_sput_same _ _ _) Hacts) as [_ [S1 S2]].
  pose proof (server_actions_frame acts net k (sput k e m)) as [C1 _].
  destruct (server_actions net k acts (sput k e m)) as [[m1 o1] n1]. cbn [fst snd] in *.
  split; [|split; [exact C1|exists o1; auto]].
  intros k'. unfold slookup. rewrite S1. now apply lookup_insert_self.
Qed.
Print Assumptions C10_retransmission_absorbed.

(** C10, the part that fails: siphond gives the request to its handlers on
    every arrival, so a retransmission is presented a second time while its
    transaction is alive. *)
Theorem C10_presented_once_refuted : exists c rq ctx,
  let '(m1, _, p1) := daemon_request c [] 1 [] rq ctx mgr_init in
  let '(m2, _, p2) := daemon_request c [] 2 [] rq ctx m1 in
  slookup (request_key [] rq) m1 <> None /\ mg_server m2 = mg_server m1 /\ p1 ++ p2 = [rq; rq].
Proof.
  exists demo_cfg, (demo_req MMessage (lit "z9a")), demo_tg. vm_compute. repeat split; discriminate.
Qed.
Print Assumptions C10_presented_once_refuted.
(** and the manager's own answer does not tell a retransmission from a new
    request: the same handle comes back *)
Theorem C10_handle_partial : forall c net now gen rq ctx m,
  rq_method rq <> MAck ->
  exists l, snd (receive_request c net now gen rq ctx m) = l ++ [OHandle (request_key gen rq)].
Proof.
  intros c net now gen rq ctx m Ha. unfold receive_request.
  replace (match rq_method rq with
           | MAck => _ | _ => false end) with false by (destruct (rq_method rq); congruence).
  fold (request_key gen rq). set (k := request_key gen rq).
  destruct (slookup k m).
  - destruct (server_feed _ _ _ _ _) as [m1 o]. exists o. reflexivity.
  - match goal with |- context [let '(_, _) := ?x in _] => destruct x as [m1 o1] end.
    match goal with |- context [let '(_, _) := (if ?b then ?x else ?y) in _] =>
      destruct (if b then x else y) as [f acts] end.
    destruct (apply_server _ _ _ _) as [m4 o2]. exists (o1 ++ o2). cbn [snd]. now rewrite app_assoc.
Qed.
Print Assumptions C10_handle_partial.

(** Finding: starting a second client transaction with the same branch and
    method silently replaces the first; its user hears nothing more. *)
Theorem C10_duplicate_start_refuted : exists c rq ctx r,
  let '(m, _) := history c mgr_init [([], OStartClient 1 rq [ctx] 10); ([], OStartClient 2 rq [ctx] 11)] in
  let '(m', o) := history c m [([], OResponse r)] in
  llen (mg_client m) = 1 /\ flat_map handed o = [((lit "z9a", MOptions), 11, r)].
Proof.
  exists (mkCfg 9 9 500 4000 5000), (demo_req MOptions (lit "z9a")), demo_tg, (demo_resp MOptions (lit "z9a") 200).
  vm_compute. auto.
Qed.
Print Assumptions C10_duplicate_start_refuted.

(** ** C11 *)

(** C11: one transmission of a client transaction tries a prefix of the
    targets still left, in order, each once, stopping at the first success;
    the transport error is queued exactly when all of them failed, and what
    remains for later transmissions starts at the last target tried. *)
Theorem C11_failover : forall net k bytes m e,
  clookup k m = Some e ->
  let '(m', o, _) := client_transmit net k bytes m in
  exists tried untried failed,
    ce_ctx e :: ce_rest e = tried ++ untried
    /\ tried <> []
    /\ flat_map (sends k) o
       = combine tried (repeat false (length tried - 1) ++ [negb failed])
    /\ (failed = true <-> untried = [] /\ forallb (fun p => negb (snd p)) (flat_map (sends k) o) = true)
    /\ mg_queue m' = mg_queue m ++ (if failed then [CClientError k] else [])
    /\ exists e', clookup k m' = Some e' /\ tried = removelast tried ++ [ce_ctx e'] /\ ce_rest e' = untried.
Proof.
  intros net k bytes m e E. unfold client_transmit. rewrite E.
  pose proof (failover_spec (ce_rest e) (ce_ctx e) net) as F.
  destruct (failover net (ce_ctx e) (ce_rest e)) as [[[att [cur rest]] failed] net'].
  destruct F as [n [H1 [H2 [H3 [H4 H5]]]]].
  set (all := ce_ctx e :: ce_rest e) in *.
  set (e' := mkC _ _ _ _ _ _).
  assert (Hlen : length (firstn n all) = n) by (apply firstn_length_le; subst all; cbn; lia).
  assert (Htr : firstn (S n) all = firstn n all ++ [cur]).
  { rewrite H4 at 1. rewrite firstn_app, Hlen. replace (S n - n)%nat with 1%nat by lia.
    rewrite firstn_all2 by lia. reflexivity. }
  assert (Hsend : flat_map (sends k) (map (fun p : target * bool => OSend k (fst p) bytes (snd p)) att) = att).
  { clear. induction att as [|[t b] att IH]; [reflexivity|]. cbn [map flat_map sends fst snd].
    replace (key_eqb k k) with true by (symmetry; now apply key_eqb_spec). cbn [app]. now rewrite IH. }
  assert (Hl : length (firstn n all ++ [cur]) = S n) by (rewrite app_length, Hlen; cbn; lia).
  exists (firstn n all ++ [cur]), rest, failed.
  split; [rewrite <- app_assoc; exact H4|].
  split; [intros H; apply (f_equal (@length _)) in H; rewrite Hl in H; discriminate|].
  rewrite Hl. cbn [Nat.sub]. rewrite Nat.sub_0_r.
  split; [rewrite Hsend, H1, Htr; reflexivity|].
  split.
  { rewrite Hsend, H1, Htr.
    assert (Hc : combine (firstn n all ++ [cur]) (repeat false n ++ [negb failed])
                 = combine (firstn n all) (repeat false n) ++ [(cur, negb failed)]).
    { revert Hlen. generalize (firstn n all). clear. intros l. revert n.
      induction l as [|x l IH]; intros n <-; [reflexivity|]. cbn [length repeat app combine].
      now rewrite IH. }
    rewrite Hc, forallb_app. cbn [forallb snd]. rewrite negb_involutive.
    split.
    - intros Hf. split; [auto|]. rewrite Hf. cbn [andb]. rewrite andb_true_r.
      generalize (firstn n all). clear. induction n as [|n IH]; intros l; destruct l; cbn; auto.
    - intros [_ H]. apply andb_true_iff in H. destruct H as [_ H]. apply andb_true_iff in H. tauto. }
  split.
  { destruct failed; cbn; [reflexivity|]. now rewrite app_nil_r. }
  exists e'. split; [destruct failed; apply clookup_cput_same|].
  split; [|reflexivity]. rewrite removelast_app by discriminate. cbn [removelast]. now rewrite app_nil_r.
Qed.
Print Assumptions C11_failover.

(** C11: the queued error reaches the user of that transaction and ends it *)
Theorem C11_error_reported : forall net m k e q,
  mg_queue m = CClientError k :: q -> clookup k m = Some e ->
  let '(m', o) := pump net m in
  In (OTransportError k (ce_tu e)) o /\ clookup k m' = None.
Proof.
  intros net m k e q Hq E. unfold pump. rewrite Hq. unfold client_error.
  set (m0 := mkM (mg_server m) (mg_client m) q).
  assert (E0 : clookup k m0 = Some e) by exact E. rewrite E0.
  pose proof E0 as E1. unfold client_feed. rewrite E0.
  destruct (cli_event _ _ (ce_kind e)) as [f acts] eqn:Ev.
  set (m1 := cput k (ce_set f e) m0).
  assert (Hg : clookup k (fst (apply_client net k acts m1)) = None).
  { apply (apply_client_terminated net k acts m1 (ce_set f e)); [apply clookup_cput_same|].
    cbn [ce_set ce_kind]. unfold cli_event in Ev. destruct (ce_kind e) as [[st tm a i]|[st tm a i]].
    - unfold ci_step in Ev. cbn [ci_st] in Ev. destruct st; injection Ev as <- <-; reflexivity.
    - unfold cn_step in Ev. cbn [cn_st] in Ev. destruct st; injection Ev as <- <-; reflexivity. }
  destruct (apply_client net k acts m1) as [m2 o]. split; [now left|exact Hg].
Qed.
Print Assumptions C11_error_reported.

Example C11_example :
  let ts := [mkTarget Udp 1; mkTarget Udp 2; mkTarget Tcp 3; mkTarget Tcp 4] in
  let h ops := history (mkCfg 9 9 500 4000 5000) mgr_init ops in
  flat_map (sends (lit "z9a", MOptions)) (snd (h [([false; false; true], OStartClient 1 (demo_req MOptions (lit "z9a")) ts 10)]))
    = [(mkTarget Udp 1, false); (mkTarget Udp 2, false); (mkTarget Tcp 3, true)]
  /\ In (OTransportError (lit "z9a", MOptions) 10)
       (snd (h [([false; false; false; false], OStartClient 1 (demo_req MOptions (lit "z9a")) ts 10); ([], OPump)])).
Proof. vm_compute. intuition. Qed.

(** ** C70 *)

(** C70: after any history, every client transaction in the table is live and
    has a timer pending (armed, or its expiry already queued) whose expiry
    removes it: no client transaction can stay for ever. *)
Theorem C70_client_deadline : forall c m, reachable c m ->
  forall k e, clookup k m = Some e ->
  client_terminated (ce_kind e) = false
  /\ exists t, (In t (ce_timers e) \/ In (CClientTimer k t) (mg_queue m))
               /\ forall net, clookup k (fst (client_timer net k t m)) = None.
Proof.
  intros c m [ops ->].
  assert (H : live_ok (fst (history c mgr_init ops))).
  { apply history_inv; [intros; now apply step_live|]. intros k e E. discriminate. }
  set (m := fst (history c mgr_init ops)) in *.
  intros k e E. split; [now apply (H k e E)|].
  destruct (live_finisher m k e H E) as [t [Hp Ht]]. exists t. split; [|exact Ht].
  destruct Hp as [[e0 [E0 Hi]]|Hi]; [left; congruence|now right].
Qed.
Print Assumptions C70_client_deadline.
Example C70_example :
  let m := fst (history (mkCfg 9 9 500 4000 5000) mgr_init
    [([], OStartClient 2 (demo_req MInvite (lit "z9a")) [demo_tg] 11);
     ([], OResponse (demo_resp MInvite (lit "z9a") 180))]) in
  exists e, clookup (lit "z9a", MInvite) m = Some e /\ ce_timers e = [TmB].
Proof. eexists. vm_compute. split; reflexivity. Qed.
