(** Lemmas about dialogs. *)
From Coq Require Import Arith NArith Bool String List Lia ZifyBool ZifyN ZifyNat.
Import ListNotations.
From Verif Require Import Base BaseFacts Headers Method Text TextFacts Uri UriProofs Msg Dialog DialogSpec.
Open Scope N_scope.
Open Scope list_scope.

Lemma did_eqb_spec : forall a b, did_eqb a b = true <-> a = b.
Proof.
  intros [a1 a2 a3] [b1 b2 b3]. unfold did_eqb. cbn. rewrite !andb_true_iff, !str_eqb_spec. intuition congruence.
Qed.
Lemma did_eqb_refl : forall a, did_eqb a a = true.
Proof. intros. now apply did_eqb_spec. Qed.

(** ** update_from_request *)
Lemma ufr_cases : forall d r,
  (exists e, update_from_request d r = (d, Some e))
  \/ exists n d1, parse_cseq_number (q_headers r) = Some n /\ n <> 0
     /\ update_from_request d r = (match extract_contact (q_headers r) with Some u => set_target d1 u | None => d1 end, None)
     /\ ((is_ackb r = true /\ d1 = set_ack d n /\ n = d_rcseq d)
         \/ (is_ackb r = false /\ d1 = set_rcseq d n /\ n <= MAX_CSEQ_VALUE
             /\ (d_rcseq d = 0 \/ d_rcseq d < n /\ n <= d_rcseq d + MAX_CSEQ_JUMP))).
Proof.
  intros d r. unfold update_from_request. destruct (parse_cseq_number (q_headers r)) as [n|]; [|left; eauto].
  destruct (n =? 0) eqn:Z; [left; eauto|]. unfold is_ackb. destruct (str_eqb _ _) eqn:A.
  - destruct (negb (n =? d_rcseq d) || (d_rcseq d =? 0)) eqn:C; [left; eauto|]. right. exists n, (set_ack d n).
    apply orb_false_iff in C. destruct C as [C1 C2]. apply negb_false_iff in C1. apply N.eqb_eq in C1. apply N.eqb_neq in Z.
    split; [reflexivity|]. split; [assumption|]. split; [reflexivity|]. left. auto.
  - unfold validate_cseq. rewrite Z. destruct (MAX_CSEQ_VALUE <? n) eqn:M; [left; eauto|].
    apply N.eqb_neq in Z. apply N.ltb_ge in M. destruct (0 <? d_rcseq d) eqn:P.
    + unfold validate_cseq_increment. destruct (n <=? d_rcseq d) eqn:L; [left; eauto|].
      destruct (MAX_CSEQ_JUMP <? n - d_rcseq d) eqn:J; [left; eauto|].
      right. exists n, (set_rcseq d n). split; [reflexivity|]. split; [assumption|]. split; [reflexivity|]. right.
      split; [reflexivity|]. split; [reflexivity|]. split; [assumption|]. right. apply N.leb_gt in L. apply N.ltb_ge in J. lia.
    + right. exists n, (set_rcseq d n). split; [reflexivity|]. split; [assumption|]. split; [reflexivity|]. right.
      split; [reflexivity|]. split; [reflexivity|]. split; [assumption|]. left. apply N.ltb_ge in P. lia.
Qed.

Lemma ufr_error : forall d r e, snd (update_from_request d r) = Some e -> fst (update_from_request d r) = d.
Proof.
  intros d r e H. destruct (ufr_cases d r) as [(x & E)|(n & d1 & _ & _ & E & _)]; rewrite E in *; [reflexivity|discriminate].
Qed.

(** what no operation on a dialog touches *)
Definition same_identity (a b : dialog) : Prop :=
  d_id a = d_id b /\ d_luri a = d_luri b /\ d_ruri a = d_ruri b /\ d_uac a = d_uac b /\ d_secure a = d_secure b.
Lemma same_identity_trans : forall a b c, same_identity a b -> same_identity b c -> same_identity a c.
Proof. unfold same_identity. intuition congruence. Qed.
Lemma ufr_frame : forall d r, let d' := fst (update_from_request d r) in
  same_identity d' d /\ d_routes d' = d_routes d /\ d_state d' = d_state d /\ d_lcseq d' = d_lcseq d
  /\ d_expires d' = d_expires d /\ d_refresher d' = d_refresher d.
Proof.
  intros d r. unfold same_identity. destruct (ufr_cases d r) as [(x & E)|(n & d1 & _ & _ & E & C)]; rewrite E; cbn [fst].
  - tauto.
  - destruct C as [(_ & -> & _)|(_ & -> & _)]; destruct (extract_contact _); cbn; tauto.
Qed.
Lemma resp_frame : forall d r, let d' := update_from_response d r in
  same_identity d' d /\ d_lcseq d' = d_lcseq d /\ d_rcseq d' = d_rcseq d /\ d_ack d' = d_ack d.
Proof.
  intros d r. unfold update_from_response, same_identity.
  remember (match extract_contact (p_headers r) with Some u => set_target d u | None => d end) as d1.
  assert (F1 : same_identity d1 d /\ d_lcseq d1 = d_lcseq d /\ d_rcseq d1 = d_rcseq d /\ d_ack d1 = d_ack d).
  { subst d1. unfold same_identity. destruct (extract_contact _); cbn; tauto. }
  remember (if dstate_eqb (d_state d1) Early && _ then _ else d1) as d2.
  assert (F2 : same_identity d2 d /\ d_lcseq d2 = d_lcseq d /\ d_rcseq d2 = d_rcseq d /\ d_ack d2 = d_ack d).
  { subst d2. destruct (_ && _); [|exact F1]. destruct (build_route_set _ _) as [[|x l]|]; exact F1. }
  remember (match extract_session_timer r with Some (e, rf) => set_timer d2 (Some e) rf | None => d2 end) as d3.
  assert (F3 : same_identity d3 d /\ d_lcseq d3 = d_lcseq d /\ d_rcseq d3 = d_rcseq d /\ d_ack d3 = d_ack d).
  { subst d3. destruct (extract_session_timer r) as [[e rf]|]; exact F2. }
  unfold confirm. destruct ((200 <=? p_code r) && (p_code r <? 300)); [|exact F3]. destruct (d_state d3); exact F3.
Qed.
Lemma step_frame : forall d o, same_identity (dlg_step d o) d.
Proof.
  intros d o. destruct o; cbn [dlg_step].
  - unfold confirm, same_identity. destruct (d_state d); cbn; tauto.
  - unfold same_identity; cbn; tauto.
  - unfold same_identity; cbn; tauto.
  - apply resp_frame.
  - apply ufr_frame.
  - unfold set_session_expires, same_identity. destruct (validate_session_expires e); cbn; tauto.
Qed.
Lemma run_frame : forall ops d, same_identity (dlg_run d ops) d.
Proof.
  induction ops as [|o ops IH]; intros d; [unfold same_identity; cbn; tauto|]. cbn [dlg_run fold_left].
  apply (same_identity_trans _ (dlg_step d o)); [apply IH|apply step_frame].
Qed.
Lemma step_rcseq : forall d o, d_rcseq (dlg_step d o) =
  match o with ORequest q => d_rcseq (fst (update_from_request d q)) | _ => d_rcseq d end.
Proof.
  intros d o. destruct o; cbn [dlg_step]; try reflexivity.
  - unfold confirm. destruct (d_state d); reflexivity.
  - apply resp_frame.
  - unfold set_session_expires. destruct (validate_session_expires e); reflexivity.
Qed.
Lemma ufr_rcseq : forall d r, d_rcseq (fst (update_from_request d r)) =
  match snd (update_from_request d r), parse_cseq_number (q_headers r) with
  | None, Some n => if is_ackb r then d_rcseq d else n
  | _, _ => d_rcseq d
  end.
Proof.
  intros d r. destruct (ufr_cases d r) as [(x & E)|(n & d1 & P & _ & E & C)]; rewrite E; cbn [fst snd]; [reflexivity|].
  rewrite P. destruct C as [(A & -> & _)|(A & -> & _)]; rewrite A; destruct (extract_contact _); reflexivity.
Qed.

(** ** C21 *)
Fixpoint chain (prev : N) (l : list N) : Prop :=
  match l with
  | [] => True
  | n :: r => n <> 0 /\ n <= MAX_CSEQ_VALUE /\ (prev = 0 \/ prev < n /\ n <= prev + MAX_CSEQ_JUMP) /\ chain n r
  end.
Lemma accepted_chain : forall ops d, chain (d_rcseq d) (accepted d ops).
Proof.
  induction ops as [|o ops IH]; intros d; [exact I|]. cbn [accepted].
  specialize (IH (dlg_step d o)). rewrite step_rcseq in IH. destruct o; try exact IH.
  rewrite ufr_rcseq in IH. destruct (ufr_cases d r) as [(x & E)|(n & d1 & P & Z & E & C)]; rewrite E in *; cbn [fst snd app] in *.
  - exact IH.
  - rewrite P in *. destruct C as [(A & -> & En)|(A & -> & M & J)]; rewrite A in *; [exact IH|].
    cbn [app chain]. repeat (split; [assumption|]). exact IH.
Qed.
Lemma chain_gt : forall l p, p <> 0 -> chain p l -> Forall (fun n => p < n) l.
Proof.
  induction l as [|n l IH]; intros p Hp H; [constructor|]. cbn in H. destruct H as (Hn & _ & [J|J] & H); [lia|].
  constructor; [lia|]. specialize (IH n Hn H). eapply Forall_impl; [|exact IH]. cbn; intros; lia.
Qed.

(** ** Routes *)
Lemma resp_routes : forall d r,
  d_routes (update_from_response d r) = d_routes d
  \/ (d_state d = Early /\ 200 <= p_code r < 300 /\ build_route_set (p_headers r) true = Ok (d_routes (update_from_response d r))).
Proof.
  intros d r. unfold update_from_response.
  remember (match extract_contact (p_headers r) with Some u => set_target d u | None => d end) as d1.
  assert (E1 : d_routes d1 = d_routes d /\ d_state d1 = d_state d) by (subst d1; destruct (extract_contact _); cbn; tauto).
  destruct E1 as [E1 S1]. destruct ((200 <=? p_code r) && (p_code r <? 300)) eqn:OK.
  - rewrite S1. destruct (d_state d) eqn:S; cbn [dstate_eqb andb].
    + destruct (build_route_set (p_headers r) true) as [[|x l]|e] eqn:B.
      * left. destruct (extract_session_timer r) as [[e rf]|]; unfold confirm; cbn; rewrite ?S1; cbn; rewrite ?E1; try reflexivity; destruct (d_state d1); cbn; rewrite ?E1; reflexivity.
      * right. split; [reflexivity|]. split; [lia|]. f_equal.
        destruct (extract_session_timer r) as [[e rf]|]; unfold confirm; cbn; rewrite ?S1; reflexivity.
      * left. destruct (extract_session_timer r) as [[e' rf]|]; unfold confirm; cbn; rewrite ?S1; cbn; rewrite ?E1; try reflexivity; destruct (d_state d1); cbn; rewrite ?E1; reflexivity.
    + left. destruct (extract_session_timer r) as [[e rf]|]; unfold confirm; cbn; rewrite ?S1; cbn; rewrite ?E1; reflexivity.
    + left. destruct (extract_session_timer r) as [[e rf]|]; unfold confirm; cbn; rewrite ?S1; cbn; rewrite ?E1; reflexivity.
  - left. rewrite andb_false_r. destruct (extract_session_timer r) as [[e rf]|]; cbn; assumption.
Qed.
Lemma resp_state : forall d r, d_state (update_from_response d r) =
  if (200 <=? p_code r) && (p_code r <? 300) then match d_state d with Early => Confirmed | s => s end else d_state d.
Proof.
  intros d r. unfold update_from_response.
  remember (match extract_contact (p_headers r) with Some u => set_target d u | None => d end) as d1.
  assert (S1 : d_state d1 = d_state d) by (subst d1; destruct (extract_contact _); reflexivity). rewrite <- S1. clear Heqd1 S1 d.
  remember (if dstate_eqb (d_state d1) Early && _ then _ else d1) as d2.
  assert (S2 : d_state d2 = d_state d1).
  { subst d2. destruct (_ && _); [|reflexivity]. destruct (build_route_set _ _) as [[|x l]|]; reflexivity. }
  rewrite <- S2. clear Heqd2 S2 d1.
  destruct (_ && _).
  - unfold confirm. destruct (extract_session_timer r) as [[e rf]|]; cbn [set_timer d_state]; destruct (d_state d2) eqn:X; cbn; rewrite ?X; reflexivity.
  - destruct (extract_session_timer r) as [[e rf]|]; reflexivity.
Qed.
Lemma step_state : forall d o, d_state (dlg_step d o) = d_state d
  \/ (d_state d = Early /\ d_state (dlg_step d o) = Confirmed) \/ d_state (dlg_step d o) = Terminated.
Proof.
  intros d o. destruct o; cbn [dlg_step].
  - unfold confirm. destruct (d_state d) eqn:S; cbn; rewrite ?S; auto.
  - cbn. auto.
  - now left.
  - rewrite resp_state. destruct (_ && _); [|now left]. destruct (d_state d); auto.
  - left. apply ufr_frame.
  - left. unfold set_session_expires. destruct (validate_session_expires e); reflexivity.
Qed.
Lemma step_routes : forall d o, d_routes (dlg_step d o) = d_routes d
  \/ exists r, o = OResponse r /\ d_state d = Early /\ 200 <= p_code r < 300
       /\ d_state (dlg_step d o) = Confirmed /\ build_route_set (p_headers r) true = Ok (d_routes (dlg_step d o)).
Proof.
  intros d o. destruct o; cbn [dlg_step].
  - left. unfold confirm. destruct (d_state d); reflexivity.
  - now left.
  - now left.
  - destruct (resp_routes d r) as [E|(S & C & B)]; [now left|]. right. exists r. rewrite resp_state, S.
    replace ((200 <=? p_code r) && (p_code r <? 300)) with true by lia. tauto.
  - left. apply ufr_frame.
  - left. unfold set_session_expires. destruct (validate_session_expires e); reflexivity.
Qed.
Lemma run_routes : forall ops d, d_state d <> Early -> d_routes (dlg_run d ops) = d_routes d /\ d_state (dlg_run d ops) <> Early.
Proof.
  induction ops as [|o ops IH]; intros d H; [auto|]. cbn [dlg_run fold_left].
  assert (H1 : d_state (dlg_step d o) <> Early) by (destruct (step_state d o) as [E|[[E _]|E]]; congruence).
  destruct (IH _ H1) as [A B]. split; [|exact B]. unfold dlg_run in A. rewrite A.
  destruct (step_routes d o) as [E|(r & _ & E & _)]; [assumption|contradiction].
Qed.
Lemma run_terminated : forall ops d, d_state d = Terminated -> d_state (dlg_run d ops) = Terminated.
Proof.
  induction ops as [|o ops IH]; intros d H; [assumption|]. cbn [dlg_run fold_left]. apply IH.
  destruct (step_state d o) as [E|[[E _]|E]]; congruence.
Qed.

(** ** Record-Route *)
Lemma shv_inside : forall s r d cur, mem 34 s = false -> mem 60 s = false -> mem 62 s = false -> d <> O ->
  shv false d cur (s ++ r) = shv false d (rev s ++ cur) r.
Proof.
  induction s as [|c s IH]; intros r d cur A B C D; [reflexivity|].
  apply mem_cons_false in A, B, C. destruct A as [A1 A], B as [B1 B], C as [C1 C]. cbn [app shv].
  replace (c =? 34) with false by lia. replace (c =? 60) with false by lia. replace (c =? 62) with false by lia.
  destruct d as [|d]; [now elim D|]. rewrite andb_false_r. rewrite IH by assumption. cbn [rev]. now rewrite <- app_assoc.
Qed.
Lemma shv_route : forall u r cur, clean_route u ->
  shv false O cur (route_text u ++ r) = shv false O (rev (route_text u) ++ cur) r.
Proof.
  intros u r cur (_ & _ & A & B & C). apply mem_false in A, B, C. unfold route_text. rewrite <- !app_assoc.
  change (lit "<" ++ u_raw u ++ lit ">" ++ r) with (60 :: u_raw u ++ 62 :: r). cbn [shv N.eqb Pos.eqb].
  rewrite shv_inside by (assumption || discriminate). cbn [shv N.eqb Pos.eqb pred].
  f_equal. change (lit "<" ++ u_raw u ++ lit ">") with ((60 :: u_raw u) ++ [62]). rewrite rev_app_distr. cbn [rev app]. now rewrite <- app_assoc.
Qed.
Lemma route_text_edge : forall u, no_edge is_ws (route_text u).
Proof.
  intros u. unfold route_text. split; [reflexivity|]. change (lit "<" ++ u_raw u ++ lit ">") with ((60 :: u_raw u) ++ [62]).
  rewrite rev_app_distr. reflexivity.
Qed.
Lemma trim_ws_front : forall s, no_edge is_ws s -> s <> [] -> trim (32 :: s) = s.
Proof.
  intros s E Hn. unfold trim, trim_by, trim_start_by. cbn [drop_while is_ws]. change (is_ws 32) with true. cbn iota.
  pose proof (trim_edge s E) as T. unfold trim, trim_by, trim_start_by in T. exact T.
Qed.
Lemma split_route_value : forall us, Forall clean_route us -> split_header_values (route_value us) = map route_text us.
Proof.
  intros us H. unfold split_header_values, route_value.
  assert (G : forall us, Forall clean_route us -> forall cur, (cur = [] \/ cur = [32]) ->
             shv false O cur (join (lit ", ") (map route_text us)) = map route_text us).
  { clear. induction us as [|u us IH]; intros H cur Hc.
    - cbn. destruct Hc as [->| ->]; reflexivity.
    - inversion H as [|? ? Hu Hus]; subst.
      assert (T : trim (rev (rev (route_text u) ++ cur)) = route_text u).
      { rewrite rev_app_distr, rev_involutive. destruct Hc as [->| ->].
        - cbn [rev app]. apply trim_edge, route_text_edge.
        - cbn [rev app]. apply trim_ws_front; [apply route_text_edge|discriminate]. }
      destruct us as [|v us].
      + cbn [map join]. rewrite <- (app_nil_r (route_text u)) at 1. rewrite shv_route by assumption. cbn [shv]. rewrite T. reflexivity.
      + change (map route_text (u :: v :: us)) with (route_text u :: map route_text (v :: us)).
        change (join (lit ", ") (route_text u :: map route_text (v :: us))) with (route_text u ++ 44 :: 32 :: join (lit ", ") (map route_text (v :: us))).
        rewrite shv_route by assumption. cbn [shv N.eqb Pos.eqb andb negb]. rewrite T.
        destruct (route_text u) as [|c0 l0] eqn:RT; [discriminate RT|]. f_equal.
        apply (IH Hus). now right. }
  apply G; auto.
Qed.
Lemma parse_route_text : forall u, clean_route u -> parse_uri_from_header (route_text u) = Some u.
Proof.
  intros u (P & T & A & B & C). unfold parse_uri_from_header. rewrite (trim_edge _ (route_text_edge u)).
  unfold route_text. change (lit "<" ++ u_raw u ++ lit ">") with ([] ++ 60 :: (u_raw u ++ 62 :: [])).
  rewrite split_once_app by reflexivity. rewrite split_once_app by (now apply mem_false). now rewrite T.
Qed.
Lemma add_routes_texts : forall us acc, Forall clean_route us -> Forall (fun u => dlg_validate_uri u = None) us ->
  llen (acc ++ us) <= MAX_ROUTE_SET_SIZE -> add_routes (map route_text us) acc = Ok (acc ++ us).
Proof.
  induction us as [|u us IH]; intros acc C V L; [now rewrite app_nil_r|].
  inversion C; inversion V; subst. cbn [map add_routes]. rewrite llen_app, llen_cons in L.
  replace (MAX_ROUTE_SET_SIZE <=? llen acc) with false by lia. rewrite parse_route_text by assumption.
  match goal with H : dlg_validate_uri u = None |- _ => rewrite H end.
  rewrite IH; try assumption; rewrite <- app_assoc; [reflexivity|]. cbn [app]. rewrite llen_app, llen_cons. lia.
Qed.
Lemma flat_split : forall uss, Forall (Forall clean_route) uss ->
  flat_map split_header_values (map route_value uss) = map route_text (concat uss).
Proof.
  induction uss as [|us uss IH]; intros H; [reflexivity|]. inversion H; subst. cbn [map flat_map concat].
  rewrite map_app, IH, split_route_value by assumption. reflexivity.
Qed.
Lemma build_route_values : forall hs uss rv, hget_all (lit "Record-Route") hs = map route_value uss ->
  Forall (Forall clean_route) uss -> Forall (fun u => dlg_validate_uri u = None) (concat uss) -> llen (concat uss) <= MAX_ROUTE_SET_SIZE ->
  build_route_set hs rv = Ok (if rv then rev (concat uss) else concat uss).
Proof.
  intros hs uss rv H C V L. unfold build_route_set. rewrite H, flat_split by assumption.
  rewrite (add_routes_texts (concat uss) []); [reflexivity| |assumption|assumption].
  clear - C. induction C as [|us uss H C IH]; [constructor|]. cbn [concat]. apply Forall_app. auto.
Qed.

(** ** The table *)
Definition dm_ok (m : dmap) : Prop :=
  NoDup (keys m) /\ (forall id d, In (id, d) m -> d_id d = id) /\ llen m <= MAX_CONFIRMED_DIALOGS
  /\ forall call, early_count call m <= MAX_EARLY_DIALOGS_PER_CALL_ID.

Lemma filter_le : forall A (f : A -> bool) l, llen (filter f l) <= llen l.
Proof. intros A f l. induction l as [|x l IH]; [apply N.le_refl|]. cbn [filter]. destruct (f x); rewrite ?llen_cons; lia. Qed.
Lemma filter_filter_le : forall A (f g : A -> bool) l, llen (filter f (filter g l)) <= llen (filter f l).
Proof.
  intros A f g l. induction l as [|x l IH]; [apply N.le_refl|]. cbn [filter].
  destruct (g x), (f x) eqn:F; cbn [filter]; rewrite ?F, ?llen_cons; lia.
Qed.
Lemma remove_key_filter : forall V k (m : list (dialog_id * V)), remove_key did_eqb k m = filter (fun e => negb (did_eqb k (fst e))) m.
Proof. intros V k m. reflexivity. Qed.
Lemma filter_ok : forall (f : dialog_id * dialog -> bool) m, dm_ok m -> dm_ok (filter f m).
Proof.
  intros f m (A & B & C & D). split; [|split; [|split]].
  - clear - A. induction m as [|e m IH]; [constructor|]. cbn [keys map] in *. inversion A; subst. cbn [filter]. destruct (f e); [|auto].
    cbn [map]. constructor; [|now apply IH]. intros Hi. apply in_map_iff in Hi. destruct Hi as (x & E & Hx). apply filter_In in Hx.
    match goal with H : ~ In _ _ |- _ => apply H end. rewrite <- E. apply in_map. apply Hx.
  - intros id d Hi. apply filter_In in Hi. now apply B.
  - pose proof (filter_le _ f m). lia.
  - intros call. specialize (D call). unfold early_count in *. pose proof (filter_filter_le _ (fun e => dstate_eqb (d_state (snd e)) Early && str_eqb (di_call (fst e)) call) f m). lia.
Qed.
Lemma early_remove : forall call id m, early_count call (remove_key did_eqb id m)
  = llen (filter (fun e => (dstate_eqb (d_state (snd e)) Early && str_eqb (di_call (fst e)) call) && negb (did_eqb (fst e) id)) m).
Proof.
  intros call id m. unfold early_count. rewrite remove_key_filter. f_equal. induction m as [|e m IH]; [reflexivity|]. cbn [filter].
  assert (S : did_eqb id (fst e) = did_eqb (fst e) id).
  { destruct (did_eqb id (fst e)) eqn:X, (did_eqb (fst e) id) eqn:Y; try reflexivity.
    - apply did_eqb_spec in X. rewrite X, did_eqb_refl in Y. discriminate.
    - apply did_eqb_spec in Y. rewrite <- Y, did_eqb_refl in X. discriminate. }
  rewrite S. destruct (did_eqb (fst e) id); cbn [negb filter]; rewrite ?andb_false_r, ?andb_true_r; [exact IH|].
  destruct (_ && _); [now rewrite IH|exact IH].
Qed.
Lemma insert_ok : forall len early m d, dm_ok m -> llen m <= len -> early_others (d_id d) m <= early ->
  dm_ok (fst (dm_insert_seen len early m d)).
Proof.
  intros len early m d (A & B & C & D) HL HE. unfold dm_insert_seen.
  destruct (MAX_CONFIRMED_DIALOGS <=? len) eqn:L; [now repeat split|].
  destruct (dstate_eqb (d_state d) Early && (MAX_EARLY_DIALOGS_PER_CALL_ID <=? early)) eqn:G; [now repeat split|].
  cbn [fst]. split; [|split; [|split]].
  - apply insert_nodup; [apply did_eqb_spec|assumption].
  - intros id d' Hi. unfold insert in Hi. destruct Hi as [E|Hi]; [now injection E as <- <-|].
    apply (remove_key_in _ did_eqb_spec) in Hi. now apply B.
  - unfold insert. rewrite llen_cons. pose proof (remove_key_length _ did_eqb_spec (d_id d) m) as X. unfold llen in *. lia.
  - intros call. unfold insert. unfold early_count. cbn [filter].
    pose proof (early_remove call (d_id d) m) as ER. unfold early_count in ER.
    assert (R : early_count call (remove_key did_eqb (d_id d) m) <= early_count call m).
    { rewrite remove_key_filter. unfold early_count. apply filter_filter_le. }
    unfold early_count in R. specialize (D call). unfold early_count in D. cbn [snd fst].
    destruct (dstate_eqb (d_state d) Early) eqn:S; cbn [andb] in *; [|lia].
    destruct (str_eqb (di_call (d_id d)) call) eqn:K; [|lia]. apply str_eqb_spec in K. rewrite llen_cons, ER.
    unfold early_others, early_same in HE. rewrite K in HE. lia.
Qed.
Lemma dsys_ok : forall acts s s', dsys_run s acts = Some s' -> dm_ok (ds_map s) -> dm_ok (ds_map s').
Proof.
  induction acts as [|a acts IH]; intros s s' H Hok; cbn [dsys_run] in H; [now injection H as <-|].
  destruct (dsys_step s a) as [s1|] eqn:E; [|discriminate]. apply (IH s1 s' H). clear H IH.
  destruct a; cbn [dsys_step] in E.
  - destruct (ds_busy s); [discriminate|]. injection E as <-. exact Hok.
  - destruct (ds_busy s) as [d|]; [|discriminate]. destruct (_ && _) eqn:G; [|discriminate]. injection E as <-. cbn [ds_map].
    apply andb_true_iff in G. destruct G as [G1 G2]. apply insert_ok; [assumption|lia|lia].
  - injection E as <-. cbn [ds_map fst dm_remove]. rewrite remove_key_filter. now apply filter_ok.
  - injection E as <-. cbn [ds_map]. now apply filter_ok.
Qed.

(** ** Local CSeq *)
Lemma step_lcseq : forall d o, d_lcseq (dlg_step d o) = match o with ONext => N.min u32_max (d_lcseq d + 1) | _ => d_lcseq d end.
Proof.
  intros d o. destruct o; cbn [dlg_step]; try reflexivity.
  - unfold confirm. destruct (d_state d); reflexivity.
  - apply resp_frame.
  - apply ufr_frame.
  - unfold set_session_expires. destruct (validate_session_expires e); reflexivity.
Qed.
Lemma handed_count : forall ops d k n, d_lcseq d <= u32_max -> nth_error (handed d ops) k = Some n -> n = N.min u32_max (d_lcseq d + 1 + N.of_nat k).
Proof.
  induction ops as [|o ops IH]; intros d k n Hd H; [destruct k; discriminate|]. cbn [handed] in H.
  assert (Hd' : d_lcseq (dlg_step d o) <= u32_max) by (rewrite step_lcseq; destruct o; lia).
  destruct o; try (specialize (IH _ k n Hd' H); rewrite step_lcseq in IH; exact IH).
  destruct k as [|k]; cbn [app nth_error] in H.
  - injection H as <-. cbn [next_local_cseq snd]. lia.
  - specialize (IH _ k n Hd' H). rewrite step_lcseq in IH. lia.
Qed.

(** ** Tags *)
Lemma split_bytes_ascii : forall a b, forallb is_ascii a = true -> split_bytes (llen a) (a ++ b) = Some (a, b).
Proof.
  induction a as [|c a IH]; intros b H; [destruct b; reflexivity|]. cbn [forallb] in H. apply andb_true_iff in H. destruct H as [Hc Ha].
  rewrite llen_cons. cbn [app split_bytes]. replace (1 + llen a =? 0) with false by lia.
  unfold len_utf8. unfold is_ascii in Hc. rewrite Hc. replace (1 <=? 1 + llen a) with true by lia.
  replace (1 + llen a - 1) with (llen a) by lia. now rewrite IH.
Qed.
Lemma split_bytes_total : forall s n, forallb is_ascii s = true -> n <= blen s -> split_bytes n s <> None.
Proof.
  induction s as [|c s IH]; intros n H L.
  - cbn in L. assert (n = 0) by lia. subst. discriminate.
  - cbn [forallb] in H. apply andb_true_iff in H. destruct H as [Hc Hs]. cbn [split_bytes]. destruct (n =? 0) eqn:Z; [discriminate|].
    assert (E : len_utf8 c = 1) by (unfold len_utf8; unfold is_ascii in Hc; now rewrite Hc).
    rewrite E. replace (1 <=? n) with true by lia. cbn [blen] in L. rewrite E in L.
    specialize (IH (n - 1) Hs ltac:(lia)). destruct (split_bytes (n - 1) s) as [[a b]|]; [discriminate|contradiction].
Qed.
Lemma trim_forallb : forall (p : N -> bool) s, forallb p s = true -> forallb p (trim s) = true.
Proof.
  intros p s H. destruct (trim_by_sub is_ws s) as (a & b & E & _). unfold trim. apply (f_equal (forallb p)) in E. rewrite H, !forallb_app in E.
  symmetry in E. rewrite !andb_true_iff in E. tauto.
Qed.
Lemma find_tag_ascii : forall segs, Forall (fun s => forallb is_ascii s = true) segs -> exists r, find_tag segs = Ret r.
Proof.
  induction segs as [|s segs IH]; intros H; [cbn; eauto|]. inversion H; subst. cbn [find_tag].
  destruct (4 <=? blen (trim s)) eqn:L; [|auto].
  destruct (split_bytes 4 (trim s)) as [[a b]|] eqn:E.
  - destruct (eq_ic a (lit "tag=")); eauto.
  - exfalso. revert E. apply split_bytes_total; [now apply trim_forallb|lia].
Qed.
Lemma split_on_forallb : forall (p : N -> bool) c s, forallb p s = true -> Forall (fun x => forallb p x = true) (split_on c s).
Proof.
  intros p c s. induction s as [|x s IH]; intros H; [repeat constructor|]. cbn [forallb] in H. apply andb_true_iff in H. destruct H as [Hx Hs].
  specialize (IH Hs). cbn [split_on]. destruct (x =? c); [constructor; [reflexivity|assumption]|].
  destruct (split_on c s) as [|h t] eqn:E; [constructor; [cbn; now rewrite Hx|constructor]|].
  inversion IH; subst. constructor; [cbn; rewrite Hx; assumption|assumption].
Qed.
Lemma extract_tag_ascii : forall v, forallb is_ascii v = true -> exists r, extract_tag v = Ret r.
Proof. intros v H. apply find_tag_ascii. now apply split_on_forallb. Qed.
Lemma id_of_headers_ascii : forall hs, (forall v, header_of hs (lit "From") = Some v -> forallb is_ascii v = true) ->
  (forall v, header_of hs (lit "To") = Some v -> forallb is_ascii v = true) -> exists r, id_of_headers hs = Ret r.
Proof.
  intros hs HF HT. unfold id_of_headers. destruct (header_of hs (lit "Call-ID")); [|eauto].
  destruct (header_of hs (lit "From")) as [f|]; [|eauto]. destruct (extract_tag_ascii f (HF f eq_refl)) as [[ft|] ->]; [|eauto].
  destruct (header_of hs (lit "To")) as [t|]; [|eauto]. destruct (extract_tag_ascii t (HT t eq_refl)) as [[tot|] ->]; eauto.
Qed.
Lemma split_on_app_parts : forall c a b, split_on c (a ++ c :: b) = split_on c a ++ split_on c b.
Proof.
  intros c a b. induction a as [|x a IH].
  - cbn [app split_on]. now rewrite N.eqb_refl.
  - cbn [app split_on]. rewrite IH. destruct (x =? c); [reflexivity|].
    pose proof (split_on_nonempty c a). destruct (split_on c a); [congruence|reflexivity].
Qed.
Lemma extract_tag_value : forall addr t,
  (forall s, In s (split_on 59 addr) -> forallb is_ascii s = true /\ starts_with (lit "tag=") (lower (trim s)) = false) ->
  ~ In 59 t -> trim t = t ->
  extract_tag (addr ++ lit ";tag=" ++ t) = Ret (Some t).
Proof.
  intros addr t H Ht Tt. unfold extract_tag. change (lit ";tag=" ++ t) with (59 :: (lit "tag=" ++ t)). rewrite split_on_app_parts.
  induction (split_on 59 addr) as [|s segs IH].
  - cbn [app]. rewrite split_on_nomem.
    2:{ rewrite mem_app. cbn. now apply mem_false. }
    cbn [find_tag].
    assert (E : trim (lit "tag=" ++ t) = lit "tag=" ++ t).
    { apply trim_edge. destruct t as [|c t]; [split; reflexivity|]. apply no_edge_app; [discriminate|discriminate|split; reflexivity|].
      rewrite <- Tt. apply trim_by_no_edge. }
    rewrite E. rewrite blen_app. replace (4 <=? blen (lit "tag=") + blen t) with true by (change (blen (lit "tag=")) with 4; lia).
    change 4 with (llen (lit "tag=")). rewrite split_bytes_ascii by reflexivity. reflexivity.
  - cbn [app find_tag]. destruct (H s (or_introl eq_refl)) as [A B].
    assert (IH' : find_tag (segs ++ split_on 59 (lit "tag=" ++ t)) = Ret (Some t)) by (apply IH; intros x Hx; apply H; now right).
    destruct (4 <=? blen (trim s)) eqn:L; [|exact IH'].
    destruct (split_bytes 4 (trim s)) as [[a b]|] eqn:E.
    + assert (X : eq_ic a (lit "tag=") = false).
      { destruct (eq_ic a (lit "tag=")) eqn:X; [|reflexivity]. apply eq_ic_spec in X. change (lower (lit "tag=")) with (lit "tag=") in X.
        assert (Y : trim s = a ++ b).
        { clear - E. revert E. generalize (trim s) 4. intros u n. revert a b n.
          induction u as [|c u IHu]; intros a b n E; cbn [split_bytes] in E.
          - destruct (n =? 0); [now injection E as <- <-|discriminate].
          - destruct (n =? 0); [now injection E as <- <-|]. destruct (len_utf8 c <=? n); [|discriminate].
            destruct (split_bytes (n - len_utf8 c) u) as [[a' b']|] eqn:Y; [|discriminate]. injection E as <- <-.
            cbn [app]. f_equal. now apply (IHu a' b' (n - len_utf8 c)). }
        rewrite Y, lower_app, X, starts_with_app in B. discriminate. }
      rewrite X. exact IH'.
    + exfalso. revert E. apply split_bytes_total; [now apply trim_forallb|lia].
Qed.
