(** Lemmas on the transaction manager. *)
From Coq Require Import Arith NArith Bool List Lia ZifyBool ZifyN ZifyNat.
Import ListNotations.
From Verif Require Import Base BaseFacts Headers HeadersProofs Method Fsm FsmSpec FsmProofs TxManager.
Open Scope N_scope.

Lemma method_eqb_spec : forall a b, method_eqb a b = true <-> a = b.
Proof.
  intros a b. split.
  - destruct a, b; cbn; intros H; try discriminate; try reflexivity.
    apply str_eqb_spec in H. now subst.
  - intros <-. destruct a; cbn; try reflexivity. apply str_eqb_refl.
Qed.
Lemma key_eqb_spec : forall a b : key, key_eqb a b = true <-> a = b.
Proof.
  intros [b1 m1] [b2 m2]. unfold key_eqb. cbn. rewrite andb_true_iff, str_eqb_spec, method_eqb_spec.
  split; [intros [-> ->]; reflexivity|intros H; injection H; auto].
Qed.
Lemma key_dec : forall a b : key, a = b \/ a <> b.
Proof.
  intros a b. destruct (key_eqb a b) eqn:E; [left; now apply key_eqb_spec|right].
  intros H. apply key_eqb_spec in H. congruence.
Qed.

Lemma clookup_cput_same : forall k e m, clookup k (cput k e m) = Some e.
Proof. intros. unfold clookup, cput, set_client. cbn. apply (lookup_insert_same _ key_eqb_spec). Qed.
Lemma clookup_cput_other : forall k k' e m, k' <> k -> clookup k' (cput k e m) = clookup k' m.
Proof. intros. unfold clookup, cput, set_client. cbn. now apply (lookup_insert_other _ key_eqb_spec). Qed.
Lemma clookup_cdel_same : forall k m, clookup k (cdel k m) = None.
Proof. intros. unfold clookup, cdel, set_client. cbn. apply lookup_remove_same. Qed.
Lemma clookup_cdel_other : forall k k' m, k' <> k -> clookup k' (cdel k m) = clookup k' m.
Proof. intros. unfold clookup, cdel, set_client. cbn. now apply (lookup_remove_other _ key_eqb_spec). Qed.
Lemma slookup_sput_same : forall k e m, slookup k (sput k e m) = Some e.
Proof. intros. unfold slookup, sput, set_server. cbn. apply (lookup_insert_same _ key_eqb_spec). Qed.
Lemma slookup_sput_other : forall k k' e m, k' <> k -> slookup k' (sput k e m) = slookup k' m.
Proof. intros. unfold slookup, sput, set_server. cbn. now apply (lookup_insert_other _ key_eqb_spec). Qed.
Lemma slookup_sdel_same : forall k m, slookup k (sdel k m) = None.
Proof. intros. unfold slookup, sdel, set_server. cbn. apply lookup_remove_same. Qed.
Lemma slookup_sdel_other : forall k k' m, k' <> k -> slookup k' (sdel k m) = slookup k' m.
Proof. intros. unfold slookup, sdel, set_server. cbn. now apply (lookup_remove_other _ key_eqb_spec). Qed.

(** ** Frames: what an operation on key [k] leaves alone *)
Definition cframe (k : key) (m m' : mgr) : Prop :=
  mg_server m' = mg_server m
  /\ (forall k', k' <> k -> clookup k' m' = clookup k' m)
  /\ (exists q, mg_queue m' = mg_queue m ++ q /\ forall c, In c q ->
        c = CClientError k \/ exists t, c = CClientTimer k t)
  /\ (NoDup (keys (mg_client m)) -> NoDup (keys (mg_client m'))).
Definition sframe (k : key) (m m' : mgr) : Prop :=
  mg_client m' = mg_client m
  /\ (forall k', k' <> k -> slookup k' m' = slookup k' m)
  /\ (exists q, mg_queue m' = mg_queue m ++ q /\ forall c, In c q ->
        c = CServerError k \/ exists t, c = CServerTimer k t)
  /\ (NoDup (keys (mg_server m)) -> NoDup (keys (mg_server m'))).

Lemma cframe_refl : forall k m, cframe k m m.
Proof.
  intros. repeat split; auto. exists []. rewrite app_nil_r. split; [reflexivity|intros c []].
Qed.
Lemma cframe_trans : forall k a b c, cframe k a b -> cframe k b c -> cframe k a c.
Proof.
  intros k a b c [H1 [H2 [[q1 [H3 H3']] H4]]] [G1 [G2 [[q2 [G3 G3']] G4]]]. split; [congruence|].
  split; [intros k' Hk; rewrite G2, H2 by assumption; reflexivity|]. split; [|auto].
  exists (q1 ++ q2). split; [rewrite G3, H3, app_assoc; reflexivity|].
  intros x Hx. apply in_app_iff in Hx. destruct Hx; auto.
Qed.
Lemma sframe_refl : forall k m, sframe k m m.
Proof.
  intros. repeat split; auto. exists []. rewrite app_nil_r. split; [reflexivity|intros c []].
Qed.
Lemma sframe_trans : forall k a b c, sframe k a b -> sframe k b c -> sframe k a c.
Proof.
  intros k a b c [H1 [H2 [[q1 [H3 H3']] H4]]] [G1 [G2 [[q2 [G3 G3']] G4]]]. split; [congruence|].
  split; [intros k' Hk; rewrite G2, H2 by assumption; reflexivity|]. split; [|auto].
  exists (q1 ++ q2). split; [rewrite G3, H3, app_assoc; reflexivity|].
  intros x Hx. apply in_app_iff in Hx. destruct Hx; auto.
Qed.

Lemma cframe_cput : forall k e m, cframe k m (cput k e m).
Proof.
  intros. split; [reflexivity|]. split; [intros; now apply clookup_cput_other|]. split.
  - exists []. cbn. rewrite app_nil_r. split; [reflexivity|intros c []].
  - intros H. cbn [cput sput set_client set_server mg_client mg_server]. now apply (insert_nodup _ key_eqb_spec).
Qed.
Lemma cframe_cdel : forall k m, cframe k m (cdel k m).
Proof.
  intros. split; [reflexivity|]. split; [intros; now apply clookup_cdel_other|]. split.
  - exists []. cbn. rewrite app_nil_r. split; [reflexivity|intros c []].
  - intros H. cbn [cdel sdel set_client set_server mg_client mg_server]. now apply remove_key_nodup.
Qed.
Lemma sframe_sput : forall k e m, sframe k m (sput k e m).
Proof.
  intros. split; [reflexivity|]. split; [intros; now apply slookup_sput_other|]. split.
  - exists []. cbn. rewrite app_nil_r. split; [reflexivity|intros c []].
  - intros H. cbn [cput sput set_client set_server mg_client mg_server]. now apply (insert_nodup _ key_eqb_spec).
Qed.
Lemma sframe_sdel : forall k m, sframe k m (sdel k m).
Proof.
  intros. split; [reflexivity|]. split; [intros; now apply slookup_sdel_other|]. split.
  - exists []. cbn. rewrite app_nil_r. split; [reflexivity|intros c []].
  - intros H. cbn [cdel sdel set_client set_server mg_client mg_server]. now apply remove_key_nodup.
Qed.
Lemma cframe_enqueue : forall k c m, (c = CClientError k \/ exists t, c = CClientTimer k t) ->
  cframe k m (enqueue c m).
Proof.
  intros k c m Hc. split; [reflexivity|]. split; [reflexivity|]. split; [|auto].
  exists [c]. split; [reflexivity|]. intros x [<-|[]]. exact Hc.
Qed.
Lemma sframe_enqueue : forall k c m, (c = CServerError k \/ exists t, c = CServerTimer k t) ->
  sframe k m (enqueue c m).
Proof.
  intros k c m Hc. split; [reflexivity|]. split; [reflexivity|]. split; [|auto].
  exists [c]. split; [reflexivity|]. intros x [<-|[]]. exact Hc.
Qed.

Lemma client_action_frame : forall net k a m, cframe k m (fst (fst (client_action net k a m))).
Proof.
  intros net k a m. destruct a; cbn [client_action fst]; try apply cframe_refl.
  - unfold client_transmit. destruct (clookup k m) as [e|]; [|apply cframe_refl].
    destruct (failover net (ce_ctx e) (ce_rest e)) as [[[att [cur rest]] failed] net'].
    cbn [fst]. destruct failed; [|apply cframe_cput].
    eapply cframe_trans; [apply cframe_cput|]. apply cframe_enqueue. now left.
  - unfold client_schedule. destruct (clookup k m) as [e|]; [|apply cframe_refl].
    destruct (d =? 0); [|apply cframe_cput].
    eapply cframe_trans; [apply cframe_cput|]. apply cframe_enqueue. right. now exists t.
  - destruct (clookup k m); [apply cframe_cput|apply cframe_refl].
  - apply cframe_cdel.
Qed.
Lemma client_actions_frame : forall l net k m, cframe k m (fst (fst (client_actions net k l m))).
Proof.
  induction l as [|a l IH]; intros net k m; [apply cframe_refl|]. cbn [client_actions].
  pose proof (client_action_frame net k a m) as H.
  destruct (client_action net k a m) as [[m1 o1] net1]. cbn [fst] in H.
  specialize (IH net1 k m1). destruct (client_actions net1 k l m1) as [[m2 o2] net2].
  cbn [fst] in *. eapply cframe_trans; eauto.
Qed.
Lemma reap_frame : forall k m, cframe k m (reap k m).
Proof.
  intros. unfold reap. destruct (clookup k m) as [e|]; [|apply cframe_refl].
  destruct (client_terminated (ce_kind e)); [apply cframe_cdel|apply cframe_refl].
Qed.
Lemma apply_client_frame : forall net k l m, cframe k m (fst (apply_client net k l m)).
Proof.
  intros. unfold apply_client. pose proof (client_actions_frame l net k m) as H.
  destruct (client_actions net k l m) as [[m1 o] n]. cbn [fst] in *.
  eapply cframe_trans; [exact H|apply reap_frame].
Qed.
Lemma client_feed_frame : forall net k fi fn m, cframe k m (fst (client_feed net k fi fn m)).
Proof.
  intros. unfold client_feed. destruct (clookup k m) as [e|]; [|apply cframe_refl].
  destruct (cli_event fi fn (ce_kind e)) as [f acts].
  eapply cframe_trans; [apply cframe_cput|apply apply_client_frame].
Qed.

Lemma server_action_frame : forall net k a m, sframe k m (fst (fst (server_action net k a m))).
Proof.
  intros net k a m. destruct a; cbn [server_action fst]; try apply sframe_refl.
  - destruct (slookup k m) as [e|]; [|apply sframe_refl]. destruct (next net) as [ok net'].
    cbn [fst]. destruct ok; [apply sframe_refl|]. apply sframe_enqueue. now left.
  - unfold server_schedule. destruct (slookup k m) as [e|]; [|apply sframe_refl].
    destruct (d =? 0); [|apply sframe_sput].
    eapply sframe_trans; [apply sframe_sput|]. apply sframe_enqueue. right. now exists t.
  - destruct (slookup k m); [apply sframe_sput|apply sframe_refl].
  - apply sframe_sdel.
Qed.
Lemma server_actions_frame : forall l net k m, sframe k m (fst (fst (server_actions net k l m))).
Proof.
  induction l as [|a l IH]; intros net k m; [apply sframe_refl|]. cbn [server_actions].
  pose proof (server_action_frame net k a m) as H.
  destruct (server_action net k a m) as [[m1 o1] net1]. cbn [fst] in H.
  specialize (IH net1 k m1). destruct (server_actions net1 k l m1) as [[m2 o2] net2].
  cbn [fst] in *. eapply sframe_trans; eauto.
Qed.
Lemma apply_server_frame : forall net k l m, sframe k m (fst (apply_server net k l m)).
Proof.
  intros. unfold apply_server. pose proof (server_actions_frame l net k m) as H.
  destruct (server_actions net k l m) as [[m1 o] n]. exact H.
Qed.
Lemma server_feed_frame : forall net k fi fn m, sframe k m (fst (server_feed net k fi fn m)).
Proof.
  intros. unfold server_feed. destruct (slookup k m) as [e|]; [|apply sframe_refl].
  destruct (srv_event fi fn (se_kind e)) as [f acts].
  eapply sframe_trans; [apply sframe_sput|apply apply_server_frame].
Qed.

(** keys only shrink when an existing entry is fed *)
Lemma cframe_keys : forall k m m', cframe k m m' -> clookup k m <> None ->
  incl (keys (mg_client m')) (keys (mg_client m)).
Proof.
  intros k m m' [_ [H2 _]] Hk x Hx.
  destruct (key_dec x k) as [->|Hne].
  - destruct (clookup k m) as [e|] eqn:E; [|now elim Hk].
    apply (lookup_in _ key_eqb_spec) in E. apply in_map_iff. now exists (k, e).
  - specialize (H2 x Hne). unfold clookup in H2.
    destruct (lookup key_eqb x (mg_client m)) as [e|] eqn:E.
    + apply (lookup_in _ key_eqb_spec) in E. apply in_map_iff. now exists (x, e).
    + apply (lookup_none _ key_eqb_spec) in H2. now elim H2.
Qed.
Lemma sframe_keys : forall k m m', sframe k m m' -> slookup k m <> None ->
  incl (keys (mg_server m')) (keys (mg_server m)).
Proof.
  intros k m m' [_ [H2 _]] Hk x Hx.
  destruct (key_dec x k) as [->|Hne].
  - destruct (slookup k m) as [e|] eqn:E; [|now elim Hk].
    apply (lookup_in _ key_eqb_spec) in E. apply in_map_iff. now exists (k, e).
  - specialize (H2 x Hne). unfold slookup in H2.
    destruct (lookup key_eqb x (mg_server m)) as [e|] eqn:E.
    + apply (lookup_in _ key_eqb_spec) in E. apply in_map_iff. now exists (x, e).
    + apply (lookup_none _ key_eqb_spec) in H2. now elim H2.
Qed.

(** ** Bounds *)
Definition bounded (c : config) (m : mgr) : Prop :=
  NoDup (keys (mg_server m)) /\ NoDup (keys (mg_client m))
  /\ llen (mg_server m) <= N.max 1 (cf_max_server c)
  /\ llen (mg_client m) <= N.max 1 (cf_max_client c).

Lemma incl_llen : forall V (a b : list (key * V)), NoDup (keys a) -> incl (keys a) (keys b) ->
  llen a <= llen b.
Proof.
  intros V a b Hn Hi. pose proof (NoDup_incl_length Hn Hi) as H. unfold keys in H.
  rewrite !map_length in H. unfold llen. lia.
Qed.

Lemma bounded_cfeed : forall c net k fi fn m, bounded c m -> bounded c (fst (client_feed net k fi fn m)).
Proof.
  intros c net k fi fn m [H1 [H2 [H3 H4]]]. pose proof (client_feed_frame net k fi fn m) as F.
  unfold client_feed in *. destruct (clookup k m) as [e|] eqn:E; [|repeat split; assumption].
  assert (Hk : clookup k m <> None) by congruence.
  pose proof (cframe_keys _ _ _ F Hk) as Hi. destruct F as [F1 [F2 [F3 F4]]].
  set (m' := fst _) in *. specialize (F4 H2). unfold bounded. rewrite F1.
  repeat split; auto. pose proof (incl_llen _ _ _ F4 Hi). lia.
Qed.
Lemma bounded_sfeed : forall c net k fi fn m, bounded c m -> bounded c (fst (server_feed net k fi fn m)).
Proof.
  intros c net k fi fn m [H1 [H2 [H3 H4]]]. pose proof (server_feed_frame net k fi fn m) as F.
  unfold server_feed in *. destruct (slookup k m) as [e|] eqn:E; [|repeat split; assumption].
  assert (Hk : slookup k m <> None) by congruence.
  pose proof (sframe_keys _ _ _ F Hk) as Hi. destruct F as [F1 [F2 [F3 F4]]].
  set (m' := fst _) in *. specialize (F4 H1). unfold bounded. rewrite F1.
  repeat split; auto. pose proof (incl_llen _ _ _ F4 Hi). lia.
Qed.
(** cancelling a timer of an existing entry keeps the keys *)
Lemma bounded_cput : forall c k e e' m, clookup k m = Some e -> bounded c m -> bounded c (cput k e' m).
Proof.
  intros c k e e' m E [H1 [H2 [H3 H4]]]. pose proof (cframe_cput k e' m) as F.
  assert (Hk : clookup k m <> None) by congruence.
  pose proof (cframe_keys _ _ _ F Hk) as Hi. destruct F as [F1 [F2 [F3 F4]]].
  specialize (F4 H2). unfold bounded. rewrite F1. repeat split; auto.
  pose proof (incl_llen _ _ _ F4 Hi). lia.
Qed.
Lemma bounded_sput : forall c k e e' m, slookup k m = Some e -> bounded c m -> bounded c (sput k e' m).
Proof.
  intros c k e e' m E [H1 [H2 [H3 H4]]]. pose proof (sframe_sput k e' m) as F.
  assert (Hk : slookup k m <> None) by congruence.
  pose proof (sframe_keys _ _ _ F Hk) as Hi. destruct F as [F1 [F2 [F3 F4]]].
  specialize (F4 H1). unfold bounded. rewrite F1. repeat split; auto.
  pose proof (incl_llen _ _ _ F4 Hi). lia.
Qed.

Lemma oldest_spec : forall E (start : E -> N) l,
  match oldest start l with
  | None => l = []
  | Some (k, s) => (exists e, In (k, e) l /\ start e = s)
                   /\ forall k' e', In (k', e') l -> s <= start e'
  end.
Proof.
  induction l as [|[k e] l IH]; [reflexivity|]. cbn [oldest].
  destruct (oldest start l) as [[k' s']|].
  - destruct IH as [[e' [He Hs]] Hm]. destruct (start e <=? s') eqn:Ec.
    + split; [exists e; split; [now left|reflexivity]|].
      intros k2 e2 [H|H]; [injection H as <- <-; lia|]. specialize (Hm _ _ H). lia.
    + split; [exists e'; split; [now right|assumption]|].
      intros k2 e2 [H|H]; [injection H as <- <-; lia|]. exact (Hm _ _ H).
  - subst l. split; [exists e; split; [now left|reflexivity]|].
    intros k2 e2 [H|[]]. injection H as <- <-. lia.
Qed.

Lemma insert_llen : forall V k (v : V) m, llen (insert key_eqb k v m) <= 1 + llen m.
Proof.
  intros. unfold insert. rewrite llen_cons. pose proof (remove_key_length _ key_eqb_spec k m). unfold llen. lia.
Qed.

(** room for one more after the limit has been enforced *)
Lemma enforce_server_room : forall c m, bounded c m ->
  bounded c (enforce_server c m)
  /\ 1 + llen (mg_server (enforce_server c m)) <= N.max 1 (cf_max_server c)
  /\ mg_client (enforce_server c m) = mg_client m /\ mg_queue (enforce_server c m) = mg_queue m.
Proof.
  intros c m [H1 [H2 [H3 H4]]]. unfold enforce_server.
  destruct (cf_max_server c <=? llen (mg_server m)) eqn:E.
  - pose proof (oldest_spec _ se_start (mg_server m)) as S.
    destruct (oldest se_start (mg_server m)) as [[k s]|].
    + destruct S as [[e [He _]] _].
      assert (Hin : In k (keys (mg_server m))) by (apply in_map_iff; now exists (k, e)).
      pose proof (remove_key_length_in _ key_eqb_spec k (mg_server m) H1 Hin) as HL.
      unfold sdel, set_server, bounded. cbn [mg_server mg_client mg_queue].
      pose proof (remove_key_nodup key_eqb k (mg_server m) H1).
      unfold llen in *. repeat split; auto; lia.
    + assert (Hz : llen (mg_server m) = 0) by (now rewrite S). unfold bounded. cbn [fst]. repeat split; auto; lia.
  - unfold bounded. repeat split; auto. lia.
Qed.
Lemma enforce_client_room : forall c m, bounded c m ->
  let m' := fst (enforce_client c m) in
  bounded c m' /\ 1 + llen (mg_client m') <= N.max 1 (cf_max_client c)
  /\ mg_server m' = mg_server m /\ mg_queue m' = mg_queue m.
Proof.
  intros c m [H1 [H2 [H3 H4]]]. unfold enforce_client.
  destruct (cf_max_client c <=? llen (mg_client m)) eqn:E.
  - pose proof (oldest_spec _ ce_start (mg_client m)) as S.
    destruct (oldest ce_start (mg_client m)) as [[k s]|].
    + destruct S as [[e [He _]] _].
      assert (Hin : In k (keys (mg_client m))) by (apply in_map_iff; now exists (k, e)).
      pose proof (remove_key_length_in _ key_eqb_spec k (mg_client m) H2 Hin) as HL.
      unfold cdel, set_client, bounded. cbn [mg_server mg_client mg_queue fst].
      pose proof (remove_key_nodup key_eqb k (mg_client m) H2).
      unfold llen in *. repeat split; auto; lia.
    + assert (Hz : llen (mg_client m) = 0) by (now rewrite S). unfold bounded. cbn [fst]. repeat split; auto; lia.
  - unfold bounded. cbn [fst]. repeat split; auto. lia.
Qed.

Lemma bounded_queue : forall c s cl q q', bounded c (mkM s cl q) -> bounded c (mkM s cl q').
Proof. intros. exact H. Qed.

Lemma bounded_apply_server : forall c net k l e m, slookup k m = Some e -> bounded c m ->
  bounded c (fst (apply_server net k l m)).
Proof.
  intros c net k l e m E [H1 [H2 [H3 H4]]]. pose proof (apply_server_frame net k l m) as F.
  assert (Hk : slookup k m <> None) by congruence.
  pose proof (sframe_keys _ _ _ F Hk) as Hi. destruct F as [F1 [F2 [F3 F4]]].
  specialize (F4 H1). unfold bounded. rewrite F1. repeat split; auto.
  pose proof (incl_llen _ _ _ F4 Hi). lia.
Qed.
Lemma bounded_apply_client : forall c net k l e m, clookup k m = Some e -> bounded c m ->
  bounded c (fst (apply_client net k l m)).
Proof.
  intros c net k l e m E [H1 [H2 [H3 H4]]]. pose proof (apply_client_frame net k l m) as F.
  assert (Hk : clookup k m <> None) by congruence.
  pose proof (cframe_keys _ _ _ F Hk) as Hi. destruct F as [F1 [F2 [F3 F4]]].
  specialize (F4 H2). unfold bounded. rewrite F1. repeat split; auto.
  pose proof (incl_llen _ _ _ F4 Hi). lia.
Qed.

Lemma bounded_server_timer : forall c net k t m, bounded c m -> bounded c (fst (server_timer net k t m)).
Proof.
  intros. unfold server_timer. destruct (slookup k m) eqn:E; [|assumption].
  apply bounded_sfeed. eapply bounded_sput; eauto.
Qed.
Lemma bounded_client_timer : forall c net k t m, bounded c m -> bounded c (fst (client_timer net k t m)).
Proof.
  intros. unfold client_timer. destruct (clookup k m) eqn:E; [|assumption].
  apply bounded_cfeed. eapply bounded_cput; eauto.
Qed.
Lemma bounded_client_error : forall c net k m, bounded c m -> bounded c (fst (client_error net k m)).
Proof.
  intros c net k m H. unfold client_error. destruct (clookup k m) eqn:E; [|assumption].
  pose proof (bounded_cfeed c net k (fun f => ci_step f CiTransportError) (fun f => cn_step f CnTransportError) m H) as B.
  destruct (client_feed _ _ _ _ _). exact B.
Qed.

Lemma receive_request_bounded : forall c net now gen rq ctx m,
  bounded c m -> bounded c (fst (receive_request c net now gen rq ctx m)).
Proof.
  intros c net now gen rq ctx m H. unfold receive_request.
  set (branch := match extract_branch (rq_headers rq) with Some b => b | None => gen end).
  set (k := (branch, rq_method rq)). set (ik := (branch, MInvite)).
  match goal with |- context [if ?b then _ else _] => destruct b end.
  - pose proof (bounded_sfeed c net ik (fun f => si_step f SiAck) (fun f => (f, [])) m H) as B.
    destruct (server_feed _ _ _ _ _). exact B.
  - destruct (slookup k m) eqn:Ek.
    + pose proof (bounded_sfeed c net k (fun f => si_step f SiRetransmit) (fun f => sn_step f SnRetransmit) m H) as B.
      destruct (server_feed _ _ _ _ _). exact B.
    + match goal with |- context [let '(_, _) := ?x in _] => set (first := x) end.
      assert (B1 : bounded c (fst first)).
      { subst first. destruct (rq_method rq); try exact H.
        destruct (slookup ik m) as [e|]; [|exact H]. destruct (se_kind e); [|exact H].
        now apply bounded_sfeed. }
      destruct first as [m1 o1]. cbn [fst] in B1.
      destruct (enforce_server_room c m1 B1) as [B2 [R [Hc Hq]]].
      match goal with |- context [let '(_, _) := (if ?b then ?x else ?y) in _] =>
        destruct (if b then x else y) as [f acts] end.
      set (m2 := enforce_server c m1) in *. set (e := mkS f ctx [] now).
      assert (B3 : bounded c (sput k e m2)).
      { destruct B2 as [N1 [N2 [L1 L2]]]. unfold bounded, sput, set_server. cbn [mg_server mg_client].
        repeat split; auto; [now apply (insert_nodup _ key_eqb_spec)|].
        pose proof (insert_llen _ k e (mg_server m2)). lia. }
      pose proof (bounded_apply_server c net k acts e _ (slookup_sput_same k e m2) B3) as B4.
      destruct (apply_server net k acts (sput k e m2)). exact B4.
Qed.

Lemma start_client_bounded : forall c net now rq targets tu m,
  bounded c m -> bounded c (fst (start_client c net now rq targets tu m)).
Proof.
  intros c net now rq targets tu m H. unfold start_client.
  destruct targets as [|ctx rest]; [exact H|].
  destruct (extract_branch (rq_headers rq)) as [branch|]; [|exact H].
  destruct (enforce_client_room c m H) as [B2 [R [Hc Hq]]].
  destruct (enforce_client c m) as [m1 o1]. cbn [fst] in *.
  match goal with |- context [let '(_, _) := (if ?b then ?x else ?y) in _] =>
    destruct (if b then x else y) as [f acts] end.
  set (k := (branch, rq_method rq)). set (e := mkC f ctx tu [] now rest).
  assert (B3 : bounded c (cput k e m1)).
  { destruct B2 as [N1 [N2 [L1 L2]]]. unfold bounded, cput, set_client. cbn [mg_server mg_client].
    repeat split; auto; [now apply (insert_nodup _ key_eqb_spec)|].
    pose proof (insert_llen _ k e (mg_client m1)). lia. }
  pose proof (bounded_apply_client c net k acts e _ (clookup_cput_same k e m1) B3) as B4.
  destruct (apply_client net k acts (cput k e m1)). exact B4.
Qed.

Lemma step_bounded : forall c m x, bounded c m -> bounded c (fst (step c m x)).
Proof.
  intros c m [net o] H. destruct o; cbn [step].
  - now apply receive_request_bounded.
  - now apply start_client_bounded.
  - unfold receive_response. destruct (extract_branch _); [|exact H].
    destruct (extract_cseq_method _); [|exact H]. destruct (rs_code r <? 200); now apply bounded_cfeed.
  - now apply bounded_server_timer.
  - now apply bounded_client_timer.
  - unfold pump. destruct (mg_queue m) as [|cm q] eqn:Eq; [exact H|].
    assert (H' : bounded c (mkM (mg_server m) (mg_client m) q)) by exact H.
    destruct cm.
    + now apply bounded_server_timer.
    + now apply bounded_client_timer.
    + now apply bounded_client_error.
    + now apply bounded_sfeed.
  - now apply bounded_sfeed.
  - now apply bounded_sfeed.
  - now apply bounded_sfeed.
Qed.

(** ** Fail-over *)
Lemma failover_spec : forall rest cur net,
  let '(att, (cur', rest'), failed, net') := failover net cur rest in
  exists n, att = combine (firstn (S n) (cur :: rest)) (repeat false n ++ [negb failed])
    /\ (n <= length rest)%nat
    /\ (failed = true -> n = length rest)
    /\ cur :: rest = firstn n (cur :: rest) ++ cur' :: rest'
    /\ (failed = true -> rest' = []).
Proof.
  induction rest as [|nx rest IH]; intros cur net; cbn [failover].
  - destruct (next net) as [[] net1].
    + exists 0%nat. cbn. repeat split; auto; discriminate.
    + exists 0%nat. cbn. repeat split; auto.
  - destruct (next net) as [[] net1].
    + exists 0%nat. cbn. repeat split; auto; [lia| |]; discriminate.
    + specialize (IH nx net1). destruct (failover net1 nx rest) as [[[att [cur' rest']] failed] net2].
      destruct IH as [n [H1 [H2 [H3 [H4 H5]]]]]. exists (S n). subst att.
      split; [reflexivity|]. cbn [length]. split; [lia|]. split; [intros H; f_equal; auto|].
      split; [|assumption]. cbn [firstn app]. f_equal. exact H4.
Qed.

(** ** Live client transactions always have a deadline *)
Definition pending (k : key) (t : timer) (m : mgr) : Prop :=
  (exists e, clookup k m = Some e /\ In t (ce_timers e)) \/ In (CClientTimer k t) (mg_queue m).

Definition kind_deadline (f : client_kind) (L : list timer) : Prop :=
  match f with CkInvite f => ci_deadline f L | CkNon f => cn_deadline f L end.

Definition live_ok (m : mgr) : Prop :=
  forall k e, clookup k m = Some e ->
    client_terminated (ce_kind e) = false
    /\ exists L, (forall t, In t L -> pending k t m) /\ kind_deadline (ce_kind e) L.

Lemma in_drop : forall t u l, In t l -> t <> u -> In t (drop_timer u l).
Proof. exact in_disarm. Qed.
Lemma in_drop_inv : forall t u l, In t (drop_timer u l) -> In t l /\ t <> u.
Proof.
  intros t u l H. apply filter_In in H. destruct H as [H1 H2]. split; [assumption|].
  intros ->. rewrite timer_eqb_refl in H2. discriminate.
Qed.
Lemma timer_dec : forall a b : timer, a = b \/ a <> b.
Proof. intros a b. destruct (timer_eqb a b) eqn:E; [left; now apply timer_eqb_spec|right].
  intros H. apply timer_eqb_spec in H. congruence. Qed.

Definition is_terminate (a : action) : bool := match a with Terminate => true | _ => false end.

(** a non-terminating action keeps the entry's machine and the pending set
    follows [arm1] *)
Lemma client_action_entry : forall net k a m e L,
  is_terminate a = false -> clookup k m = Some e -> (forall t, In t L -> pending k t m) ->
  let m' := fst (fst (client_action net k a m)) in
  (exists e', clookup k m' = Some e' /\ ce_kind e' = ce_kind e /\ ce_tu e' = ce_tu e
              /\ ce_start e' = ce_start e)
  /\ (forall t, In t (arm1 L a) -> pending k t m').
Proof.
  intros net k a m e L Ha E HL.
  destruct a; cbn [is_terminate] in Ha; try discriminate; cbn [client_action fst arm1];
    try (split; [exists e; auto|exact HL]).
  - unfold client_transmit. rewrite E.
    destruct (failover net (ce_ctx e) (ce_rest e)) as [[[att [cur rest]] failed] net'].
    cbn [fst]. set (e' := mkC _ _ _ _ _ _).
    assert (HE : clookup k (if failed then enqueue (CClientError k) (cput k e' m) else cput k e' m) = Some e')
      by (destruct failed; apply clookup_cput_same).
    split; [exists e'; rewrite HE; auto|].
    intros t Ht. destruct (HL t Ht) as [[e0 [E0 Hi]]|Hq].
    + left. exists e'. rewrite HE. split; [reflexivity|]. rewrite E in E0. injection E0 as <-. exact Hi.
    + right. destruct failed; cbn; [apply in_app_iff; now left|exact Hq].
  - unfold client_schedule. rewrite E. destruct (d =? 0) eqn:Ed.
    + split; [exists (ce_cancel t e); split; [apply clookup_cput_same|auto]|].
      intros u [<-|Hu].
      * right. cbn. apply in_app_iff. right. now left.
      * destruct (timer_dec u t) as [->|Hne].
        -- right. cbn. apply in_app_iff. right. now left.
        -- destruct (HL u Hu) as [[e0 [E0 Hi]]|Hq].
           ++ left. exists (ce_cancel t e). split; [apply clookup_cput_same|].
              rewrite E in E0. injection E0 as <-. now apply in_drop.
           ++ right. cbn. apply in_app_iff. now left.
    + split; [exists (ce_arm t e); split; [apply clookup_cput_same|auto]|].
      intros u [<-|Hu].
      * left. exists (ce_arm t e). split; [apply clookup_cput_same|]. now left.
      * destruct (HL u Hu) as [[e0 [E0 Hi]]|Hq]; [|now right].
        left. exists (ce_arm t e). split; [apply clookup_cput_same|].
        rewrite E in E0. injection E0 as <-. destruct (timer_dec u t) as [->|Hne]; [now left|].
        right. now apply in_drop.
  - rewrite E. split; [exists (ce_cancel t e); split; [apply clookup_cput_same|auto]|].
    intros u Hu. apply in_drop_inv in Hu. destruct Hu as [Hu Hne].
    destruct (HL u Hu) as [[e0 [E0 Hi]]|Hq]; [|now right].
    left. exists (ce_cancel t e). split; [apply clookup_cput_same|].
    rewrite E in E0. injection E0 as <-. now apply in_drop.
Qed.

Lemma client_actions_entry : forall l net k m e L,
  existsb is_terminate l = false -> clookup k m = Some e -> (forall t, In t L -> pending k t m) ->
  let m' := fst (fst (client_actions net k l m)) in
  (exists e', clookup k m' = Some e' /\ ce_kind e' = ce_kind e /\ ce_tu e' = ce_tu e
              /\ ce_start e' = ce_start e)
  /\ (forall t, In t (arm L l) -> pending k t m').
Proof.
  induction l as [|a l IH]; intros net k m e L Hl E HL.
  - cbn. split; [exists e; auto|exact HL].
  - cbn [existsb] in Hl. apply orb_false_iff in Hl. destruct Hl as [Ha Hl].
    pose proof (client_action_entry net k a m e L Ha E HL) as [[e1 [E1 [K1 [T1 S1]]]] H1].
    cbn [client_actions]. destruct (client_action net k a m) as [[m1 o1] net1]. cbn [fst] in *.
    pose proof (IH net1 k m1 e1 (arm1 L a) Hl E1 H1) as [[e2 [E2 [K2 [T2 S2]]]] H2].
    destruct (client_actions net1 k l m1) as [[m2 o2] net2]. cbn [fst] in *.
    split; [exists e2; repeat split; congruence|]. exact H2.
Qed.

Lemma client_action_gone : forall net k a m, clookup k m = None ->
  clookup k (fst (fst (client_action net k a m))) = None.
Proof.
  intros net k a m E. destruct a; cbn [client_action fst]; auto.
  - unfold client_transmit. now rewrite E.
  - unfold client_schedule. now rewrite E.
  - now rewrite E.
  - apply clookup_cdel_same.
Qed.
Lemma client_actions_gone : forall l net k m,
  clookup k m = None \/ existsb is_terminate l = true ->
  clookup k (fst (fst (client_actions net k l m))) = None.
Proof.
  induction l as [|a l IH]; intros net k m H.
  - destruct H; [assumption|discriminate].
  - cbn [client_actions].
    assert (H1 : clookup k (fst (fst (client_action net k a m))) = None \/ existsb is_terminate l = true).
    { destruct H as [H|H]; [left; now apply client_action_gone|].
      cbn in H. apply orb_true_iff in H. destruct H as [H|H]; [|now right].
      destruct a; try discriminate. left. apply clookup_cdel_same. }
    destruct (client_action net k a m) as [[m1 o1] net1]. cbn [fst] in H1.
    specialize (IH net1 k m1 H1). destruct (client_actions net1 k l m1) as [[m2 o2] net2]. exact IH.
Qed.

Lemma reap_gone : forall k m, clookup k m = None -> reap k m = m.
Proof. intros. unfold reap. now rewrite H. Qed.

(** other keys keep their deadline across a frame *)
Lemma pending_frame : forall k k' t m m', cframe k m m' -> k' <> k -> pending k' t m -> pending k' t m'.
Proof.
  intros k k' t m m' [_ [H2 [[q [Hq _]] _]]] Hne [[e [E Hi]]|Hi].
  - left. exists e. rewrite H2 by assumption. auto.
  - right. rewrite Hq. apply in_app_iff. now left.
Qed.

(** giving actions to an entry whose new machine state meets its deadline *)
Lemma apply_client_live : forall net k l m e L,
  clookup k m = Some e -> (forall t, In t L -> pending k t m) ->
  kind_deadline (ce_kind e) (arm L l) ->
  (forall k' e', k' <> k -> clookup k' m = Some e' ->
     client_terminated (ce_kind e') = false
     /\ exists L, (forall t, In t L -> pending k' t m) /\ kind_deadline (ce_kind e') L) ->
  live_ok (fst (apply_client net k l m)).
Proof.
  intros net k l m e L E HL HD Hoth k' e' E'.
  pose proof (apply_client_frame net k l m) as F.
  destruct (key_dec k' k) as [->|Hne].
  - unfold apply_client in *.
    destruct (existsb is_terminate l) eqn:Et.
    + pose proof (client_actions_gone l net k m (or_intror Et)) as Hg.
      destruct (client_actions net k l m) as [[m1 o] n]. cbn [fst] in *.
      rewrite reap_gone in E' by assumption. congruence.
    + destruct (client_actions_entry l net k m e L Et E HL) as [[e1 [E1 [K1 [T1 S1]]]] H1].
      destruct (client_actions net k l m) as [[m1 o] n]. cbn [fst] in *.
      unfold reap in *. rewrite E1 in *. destruct (client_terminated (ce_kind e1)) eqn:Ec.
      * rewrite clookup_cdel_same in E'. discriminate.
      * rewrite E1 in E'. injection E' as <-. split; [assumption|].
        exists (arm L l). split; [exact H1|]. now rewrite K1.
  - destruct F as [F1 [F2 F3]]. rewrite F2 in E' by assumption.
    destruct (Hoth k' e' Hne E') as [Ht [L' [HL' HD']]]. split; [assumption|].
    exists L'. split; [|assumption]. intros t Ht'. eapply pending_frame; eauto.
    apply apply_client_frame.
Qed.

Lemma live_put_same_timers : forall k e e' m, clookup k m = Some e -> ce_timers e' = ce_timers e ->
  forall k0 t, pending k0 t m -> pending k0 t (cput k e' m).
Proof.
  intros k e e' m E Ht k0 t [[e0 [E0 Hi]]|Hq]; [|now right]. left.
  destruct (key_dec k0 k) as [->|Hne].
  - exists e'. split; [apply clookup_cput_same|]. rewrite E in E0. injection E0 as <-. now rewrite Ht.
  - exists e0. rewrite clookup_cput_other by assumption. auto.
Qed.

(** an event given to a live machine *)
Lemma client_feed_live : forall net k fi fn m,
  live_ok m ->
  (forall f L, ci_deadline f L -> ci_deadline (fst (fi f)) (arm L (snd (fi f)))) ->
  (forall f L, cn_deadline f L -> cn_deadline (fst (fn f)) (arm L (snd (fn f)))) ->
  live_ok (fst (client_feed net k fi fn m)).
Proof.
  intros net k fi fn m H Hi Hn. unfold client_feed. destruct (clookup k m) as [e|] eqn:E; [|exact H].
  destruct (cli_event fi fn (ce_kind e)) as [f acts] eqn:Ev.
  destruct (H k e E) as [_ [L [HL HD]]].
  set (e' := ce_set f e).
  apply (apply_client_live net k acts _ e' L).
  - apply clookup_cput_same.
  - intros t Ht. eapply live_put_same_timers; eauto.
  - cbn [e' ce_set ce_kind]. unfold cli_event in Ev. destruct (ce_kind e) as [x|x]; cbn [kind_deadline] in HD.
    + specialize (Hi x L HD). destruct (fi x). injection Ev as <- <-. exact Hi.
    + specialize (Hn x L HD). destruct (fn x). injection Ev as <- <-. exact Hn.
  - intros k' e0 Hne E0. rewrite clookup_cput_other in E0 by assumption.
    destruct (H k' e0 E0) as [Ht [L' [HL' HD']]]. split; [assumption|]. exists L'. split; [|assumption].
    intros t Ht'. eapply live_put_same_timers; eauto.
Qed.

(** timer expiry: like [client_feed] but the timer itself stops pending *)
Lemma client_timer_live : forall net k t m q0,
  (forall k' e, clookup k' m = Some e ->
     client_terminated (ce_kind e) = false
     /\ exists L, (forall u, In u L -> pending k' u (mkM (mg_server m) (mg_client m) q0))
                  /\ kind_deadline (ce_kind e) L) ->
  (forall c, In c q0 -> In c (mg_queue m) \/ c = CClientTimer k t) ->
  live_ok (fst (client_timer net k t m)).
Proof.
  intros net k t m q0 H Hq. unfold client_timer. destruct (clookup k m) as [e|] eqn:E.
  2: { intros k' e' E'. destruct (H k' e' E') as [Ht [L [HL HD]]]. split; [assumption|].
       exists L. split; [|assumption]. intros u Hu. destruct (HL u Hu) as [[e0 [E0 Hi]]|Hi].
       - left. exists e0. auto.
       - destruct (Hq _ Hi) as [Hi'|Hi']; [now right|]. injection Hi' as -> ->.
         cbn [fst] in E'; rewrite E in E'. discriminate. }
  unfold client_feed. rewrite clookup_cput_same. cbn [ce_cancel ce_kind].
  destruct (cli_event _ _ (ce_kind e)) as [f acts] eqn:Ev.
  destruct (H k e E) as [_ [L [HL HD]]].
  assert (Hpend : forall k0 u, pending k0 u (mkM (mg_server m) (mg_client m) q0) ->
            (k0 <> k \/ u <> t) ->
            forall e0, ce_timers e0 = drop_timer t (ce_timers e) ->
            pending k0 u (cput k e0 (cput k (ce_cancel t e) m))).
  { intros k0 u [[e1 [E1 Hi]]|Hi] Hne e0 He0.
    - left. destruct (key_dec k0 k) as [->|Hk].
      + exists e0. split; [apply clookup_cput_same|]. change (clookup k m = Some e1) in E1.
        rewrite E in E1. injection E1 as <-. rewrite He0. apply in_drop; [assumption|]. tauto.
      + exists e1. rewrite !clookup_cput_other by assumption. auto.
    - right. cbn. destruct (Hq _ Hi) as [Hi'|Hi']; [assumption|]. injection Hi' as -> ->. tauto. }
  set (e' := ce_set f (ce_cancel t e)).
  apply (apply_client_live net k acts _ e' (disarm t L)).
  - apply clookup_cput_same.
  - intros u Hu. apply in_drop_inv in Hu. destruct Hu as [Hu Hne].
    apply Hpend; [now apply HL|now right|reflexivity].
  - cbn [e' ce_set ce_kind]. unfold cli_event in Ev. destruct (ce_kind e) as [x|x]; cbn [kind_deadline] in HD.
    + pose proof (ci_deadline_step x (CiTimer t) L HD) as Hs. cbn [ci_fired] in Hs.
      destruct (ci_step x (CiTimer t)). injection Ev as <- <-. exact Hs.
    + pose proof (cn_deadline_step x (CnTimer t) L HD) as Hs. cbn [cn_fired] in Hs.
      destruct (cn_step x (CnTimer t)). injection Ev as <- <-. exact Hs.
  - intros k' e0 Hne E0. rewrite !clookup_cput_other in E0 by assumption.
    destruct (H k' e0 E0) as [Ht [L' [HL' HD']]]. split; [assumption|]. exists L'. split; [|assumption].
    intros u Hu. apply Hpend; [now apply HL'|now left|reflexivity].
Qed.

Lemma live_same_client : forall m m', live_ok m -> mg_client m' = mg_client m ->
  (forall k t, In (CClientTimer k t) (mg_queue m) -> In (CClientTimer k t) (mg_queue m')) ->
  live_ok m'.
Proof.
  intros m m' H Hc Hq k e E. unfold clookup in E. rewrite Hc in E.
  destruct (H k e E) as [Ht [L [HL HD]]]. split; [assumption|]. exists L. split; [|assumption].
  intros t Hi. destruct (HL t Hi) as [[e0 [E0 Hi0]]|Hi0]; [left|right; auto].
  exists e0. unfold clookup. rewrite Hc. auto.
Qed.
Lemma sframe_live : forall k m m', sframe k m m' -> live_ok m -> live_ok m'.
Proof.
  intros k m m' [H1 [_ [[q [Hq _]] _]]] H. apply (live_same_client m); auto.
  intros k0 t Hi. rewrite Hq. apply in_app_iff. now left.
Qed.

Lemma start_client_live : forall c net now rq targets tu m,
  live_ok m -> live_ok (fst (start_client c net now rq targets tu m)).
Proof.
  intros c net now rq targets tu m H. unfold start_client.
  destruct targets as [|ctx rest]; [exact H|].
  destruct (extract_branch (rq_headers rq)) as [branch|]; [|exact H].
  assert (H1 : live_ok (fst (enforce_client c m))).
  { unfold enforce_client. destruct (cf_max_client c <=? llen (mg_client m)); [|exact H].
    destruct (oldest ce_start (mg_client m)) as [[k0 s]|]; [|exact H]. cbn [fst].
    intros k e E. destruct (key_dec k k0) as [->|Hne]; [rewrite clookup_cdel_same in E; discriminate|].
    rewrite clookup_cdel_other in E by assumption.
    destruct (H k e E) as [Ht [L [HL HD]]]. split; [assumption|]. exists L. split; [|assumption].
    intros t Hi. eapply pending_frame; [apply cframe_cdel|assumption|auto]. }
  destruct (enforce_client c m) as [m1 o1]. cbn [fst] in H1.
  set (tm := timers_of c ctx). set (k := (branch, rq_method rq)).
  destruct (if is_invite (rq_method rq) then _ else _) as [f acts] eqn:Ef.
  set (e := mkC f ctx tu [] now rest).
  assert (HL : live_ok (fst (apply_client net k acts (cput k e m1)))).
  { apply (apply_client_live net k acts _ e []).
    - apply clookup_cput_same.
    - intros t [].
    - cbn [e ce_kind]. destruct (is_invite (rq_method rq)); injection Ef as <- <-; cbn [kind_deadline].
      + unfold ci_deadline, sched_nz. cbn [ci_st].
        match goal with |- context [if ?b then _ else _] => destruct b end; cbn; auto.
      + unfold cn_deadline, sched_nz. cbn [cn_st].
        match goal with |- context [if ?b then _ else _] => destruct b end; cbn; auto.
    - intros k' e' Hne E'. rewrite clookup_cput_other in E' by assumption.
      destruct (H1 k' e' E') as [Ht [L [HL HD]]]. split; [assumption|]. exists L. split; [|assumption].
      intros t Hi. eapply pending_frame; [apply cframe_cput|assumption|auto]. }
  destruct (apply_client net k acts (cput k e m1)). exact HL.
Qed.

Lemma receive_request_live : forall c net now gen rq ctx m,
  live_ok m -> live_ok (fst (receive_request c net now gen rq ctx m)).
Proof.
  intros c net now gen rq ctx m H. unfold receive_request.
  set (branch := match extract_branch (rq_headers rq) with Some b => b | None => gen end).
  set (k := (branch, rq_method rq)). set (ik := (branch, MInvite)).
  match goal with |- context [if ?b then _ else _] => destruct b end.
  - pose proof (sframe_live _ _ _ (server_feed_frame net ik (fun f => si_step f SiAck) (fun f => (f, [])) m) H) as B.
    destruct (server_feed _ _ _ _ _). exact B.
  - destruct (slookup k m) eqn:Ek.
    + pose proof (sframe_live _ _ _ (server_feed_frame net k (fun f => si_step f SiRetransmit) (fun f => sn_step f SnRetransmit) m) H) as B.
      destruct (server_feed _ _ _ _ _). exact B.
    + match goal with |- context [let '(_, _) := ?x in _] => set (first := x) end.
      assert (B1 : live_ok (fst first)).
      { subst first. destruct (rq_method rq); try exact H.
        destruct (slookup ik m) as [e|]; [|exact H]. destruct (se_kind e); [|exact H].
        exact (sframe_live _ _ _ (server_feed_frame _ _ _ _ _) H). }
      destruct first as [m1 o1]. cbn [fst] in B1.
      match goal with |- context [let '(_, _) := (if ?b then ?x else ?y) in _] =>
        destruct (if b then x else y) as [f acts] end.
      set (m2 := enforce_server c m1) in *. set (e := mkS f ctx [] now).
      assert (B2 : live_ok m2).
      { subst m2. unfold enforce_server. destruct (cf_max_server c <=? llen (mg_server m1)); [|exact B1].
        destruct (oldest se_start (mg_server m1)) as [[k0 s]|]; [|exact B1].
        exact (sframe_live _ _ _ (sframe_sdel k0 m1) B1). }
      pose proof (sframe_live _ _ _ (sframe_sput k e m2) B2) as B3.
      pose proof (sframe_live _ _ _ (apply_server_frame net k acts _) B3) as B4.
      destruct (apply_server net k acts (sput k e m2)). exact B4.
Qed.

Lemma ci_deadline_ev : forall ev, (match ev with CiTimer _ => False | _ => True end) ->
  forall f L, ci_deadline f L -> ci_deadline (fst (ci_step f ev)) (arm L (snd (ci_step f ev))).
Proof. intros ev He f L H. pose proof (ci_deadline_step f ev L H) as D. destruct ev; try exact D. destruct He. Qed.
Lemma cn_deadline_ev : forall ev, (match ev with CnTimer _ => False | _ => True end) ->
  forall f L, cn_deadline f L -> cn_deadline (fst (cn_step f ev)) (arm L (snd (cn_step f ev))).
Proof. intros ev He f L H. pose proof (cn_deadline_step f ev L H) as D. destruct ev; try exact D. destruct He. Qed.

Lemma client_timer_live' : forall net k t m, live_ok m -> live_ok (fst (client_timer net k t m)).
Proof.
  intros net k t m H. apply (client_timer_live net k t m (mg_queue m)).
  - intros k' e E. destruct (H k' e E) as [Ht [L [HL HD]]]. split; [assumption|]. exists L.
    split; [|assumption]. intros u Hu. exact (HL u Hu).
  - auto.
Qed.

Lemma step_live : forall c m x, live_ok m -> live_ok (fst (step c m x)).
Proof.
  intros c m [net o] H. destruct o; cbn [step].
  - now apply receive_request_live.
  - now apply start_client_live.
  - unfold receive_response. destruct (extract_branch _); [|exact H].
    destruct (extract_cseq_method _); [|exact H].
    destruct (rs_code r <? 200); apply client_feed_live; auto;
      intros; first [apply ci_deadline_ev|apply cn_deadline_ev]; solve [exact I|assumption].
  - unfold server_timer. destruct (slookup k m) eqn:E; [|exact H].
    eapply sframe_live; [apply server_feed_frame|]. eapply sframe_live; [apply sframe_sput|exact H].
  - now apply client_timer_live'.
  - unfold pump. destruct (mg_queue m) as [|cm q] eqn:Eq; [exact H|].
    destruct cm.
    + set (m' := mkM (mg_server m) (mg_client m) q).
      assert (H' : live_ok m').
      { apply (live_same_client m); auto. intros k0 t0 Hi. rewrite Eq in Hi.
        destruct Hi as [Hi|Hi]; [discriminate|exact Hi]. }
      unfold server_timer. destruct (slookup k m') eqn:E; [|exact H'].
      eapply sframe_live; [apply server_feed_frame|]. eapply sframe_live; [apply sframe_sput|exact H'].
    + apply (client_timer_live net k t _ (mg_queue m)).
      * intros k' e E. destruct (H k' e E) as [Ht [L [HL HD]]]. split; [assumption|]. exists L.
        split; [|assumption]. intros u Hu. exact (HL u Hu).
      * intros x Hx. rewrite Eq in Hx. destruct Hx as [<-|Hx]; [now right|now left].
    + set (m' := mkM (mg_server m) (mg_client m) q).
      assert (H' : live_ok m').
      { apply (live_same_client m); auto. intros k0 t0 Hi. rewrite Eq in Hi.
        destruct Hi as [Hi|Hi]; [discriminate|exact Hi]. }
      unfold client_error. destruct (clookup k m') as [e|] eqn:E; [|exact H'].
      assert (B : live_ok (fst (client_feed net k (fun f => ci_step f CiTransportError)
                                 (fun f => cn_step f CnTransportError) m'))).
      { apply client_feed_live; auto; intros;
          first [apply ci_deadline_ev|apply cn_deadline_ev]; solve [exact I|assumption]. }
      destruct (client_feed _ _ _ _ _). exact B.
    + set (m' := mkM (mg_server m) (mg_client m) q).
      assert (H' : live_ok m').
      { apply (live_same_client m); auto. intros k0 t0 Hi. rewrite Eq in Hi.
        destruct Hi as [Hi|Hi]; [discriminate|exact Hi]. }
      eapply sframe_live; [apply server_feed_frame|exact H'].
  - eapply sframe_live; [apply server_feed_frame|exact H].
  - eapply sframe_live; [apply server_feed_frame|exact H].
  - eapply sframe_live; [apply server_feed_frame|exact H].
Qed.

(** ** Outputs of a fed client transaction *)
Definition callback (k : key) (tu : N) (a : action) : list out :=
  match a with
  | Deliver r => [if rs_code r <? 200 then OProvisional k tu r else OFinal k tu r]
  | ExpectPrack r => [OPrack k tu r]
  | GenerateAck r b => [OAck k tu r b]
  | _ => []
  end.
Definition quiet_action (a : action) : bool :=
  match a with Transmit _ | Terminate | Panic => false | _ => true end.

Lemma client_actions_out : forall l net k m e,
  forallb quiet_action l = true -> clookup k m = Some e ->
  snd (fst (client_actions net k l m)) = flat_map (callback k (ce_tu e)) l.
Proof.
  induction l as [|a l IH]; intros net k m e Hl E; [reflexivity|].
  cbn [forallb] in Hl. apply andb_true_iff in Hl. destruct Hl as [Ha Hl].
  cbn [client_actions flat_map].
  assert (Hnt : is_terminate a = false) by (destruct a; cbn in *; congruence).
  destruct (client_action_entry net k a m e [] Hnt E (fun t H => match H with end)) as [[e1 [E1 [_ [T1 _]]]] _].
  assert (Ho : snd (fst (client_action net k a m)) = callback k (ce_tu e) a).
  { destruct a; cbn in Ha; try discriminate; cbn [client_action fst snd callback]; unfold of_client; rewrite ?E; reflexivity. }
  destruct (client_action net k a m) as [[m1 o1] net1]. cbn [fst snd] in *.
  specialize (IH net1 k m1 e1 Hl E1). destruct (client_actions net1 k l m1) as [[m2 o2] net2].
  cbn [fst snd] in *. rewrite Ho, IH, T1. reflexivity.
Qed.

Lemma resp_actions_quiet_ci : forall f r ev, ev = CiProv r \/ ev = CiFinal r ->
  forallb quiet_action (snd (ci_step f ev)) = true.
Proof.
  intros [st tm a inv] r ev [->| ->]; unfold ci_step, ci_provisional, ci_final, ci_final_2xx, ci_final_non2xx;
    cbn [ci_st]; destruct st; try reflexivity; splits; reflexivity.
Qed.
Lemma resp_actions_quiet_cn : forall f r ev, ev = CnProv r \/ ev = CnFinal r ->
  forallb quiet_action (snd (cn_step f ev)) = true.
Proof.
  intros [st tm a inv] r ev [->| ->]; unfold cn_step, cn_final; cbn [cn_st]; destruct st; reflexivity.
Qed.

(** an entry whose machine has terminated disappears *)
Lemma apply_client_terminated : forall net k l m e, clookup k m = Some e ->
  client_terminated (ce_kind e) = true -> clookup k (fst (apply_client net k l m)) = None.
Proof.
  intros net k l m e E Ht. unfold apply_client.
  destruct (existsb is_terminate l) eqn:Et.
  - pose proof (client_actions_gone l net k m (or_intror Et)) as Hg.
    destruct (client_actions net k l m) as [[m1 o] n]. cbn [fst] in *. now rewrite reap_gone.
  - destruct (client_actions_entry l net k m e [] Et E (fun t H => match H with end)) as [[e1 [E1 [K1 _]]] _].
    destruct (client_actions net k l m) as [[m1 o] n]. cbn [fst] in *.
    unfold reap. rewrite E1, K1, Ht. apply clookup_cdel_same.
Qed.

(** every live client transaction has a pending timer that ends it *)
Lemma live_finisher : forall m k e, live_ok m -> clookup k m = Some e ->
  exists t, pending k t m /\ forall net, clookup k (fst (client_timer net k t m)) = None.
Proof.
  intros m k e H E. destruct (H k e E) as [Ht [L [HL HD]]].
  assert (G : forall t, In t L ->
            (match ce_kind e with
             | CkInvite f => ci_st (fst (ci_step f (CiTimer t))) = CiTerminated
             | CkNon f => cn_st (fst (cn_step f (CnTimer t))) = CnTerminated end) ->
            exists t, pending k t m /\ forall net, clookup k (fst (client_timer net k t m)) = None).
  { intros t Hi Hs. exists t. split; [now apply HL|]. intros net. unfold client_timer. rewrite E.
    unfold client_feed. rewrite clookup_cput_same. cbn [ce_cancel ce_kind].
    destruct (cli_event _ _ (ce_kind e)) as [f acts] eqn:Ev.
    eapply apply_client_terminated; [apply clookup_cput_same|]. cbn [ce_set ce_kind].
    unfold cli_event in Ev. destruct (ce_kind e) as [x|x].
    - destruct (ci_step x (CiTimer t)). injection Ev as <- <-. cbn [fst] in Hs. cbn. now rewrite Hs.
    - destruct (cn_step x (CnTimer t)). injection Ev as <- <-. cbn [fst] in Hs. cbn. now rewrite Hs. }
  destruct (ce_kind e) as [x|x]; destruct x as [st tm a inv]; cbn [kind_deadline] in HD.
  - unfold ci_deadline in HD. cbn [ci_st] in HD. cbn [client_terminated ci_st] in Ht.
    destruct st; try discriminate; try (destruct HD; fail).
    + apply (G TmB); [assumption|reflexivity].
    + apply (G TmB); [assumption|reflexivity].
    + apply (G TmD); [assumption|reflexivity].
  - unfold cn_deadline in HD. cbn [cn_st] in HD. cbn [client_terminated cn_st] in Ht.
    destruct st; try discriminate.
    + apply (G TmF); [assumption|reflexivity].
    + apply (G TmF); [assumption|reflexivity].
    + apply (G TmK); [assumption|reflexivity].
Qed.
