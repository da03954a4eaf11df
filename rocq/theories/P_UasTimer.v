(** Properties C140 and C141: session timers and reliable provisional responses
    of the user agent server. *)
From Coq Require Import Arith NArith Bool String List Lia ZifyBool ZifyN ZifyNat.
Import ListNotations.
From Verif Require Import Base BaseFacts NumFacts Headers HeadersProofs Method Text TextFacts Uri Msg Message MessageProofs Dialog DialogSpec DialogProofs P_Dialog Prack PrackSpec PrackProofs P_Prack SessionTimer SessionTimerProofs P_SessionTimer Via TxManager Dns Uac UacSpec UacProofs UacReads P_Uac Uas UasServe UasSpec UasProofs UasCalls UasTalk P_Uas P_UasCall.
Open Scope N_scope.
Open Scope list_scope.

(** ** C140: session timers *)
Lemma hpush_inv : forall hs n v hs', hpush hs n v = Ok hs' -> hs' = hs ++ [(n, v)].
Proof.
  intros hs n v hs' E. unfold hpush in E. destruct (MAX_HEADERS <=? llen hs); [discriminate|]. destruct (header_new n v) as [h|] eqn:E2; [|discriminate]. injection E as <-.
  apply header_new_ok in E2. destruct E2 as [-> _]. reflexivity.
Qed.
Definition timer_lines (t : option (N * refresher)) : list (str * str) :=
  match t with Some (v, w) => [ln "Session-Expires" (se_print (v / NS) (Some w)); ln "Require" (lit "timer")] | None => [] end.
Definition ok_extra (s : uas) (b : option str) : list (str * str) :=
  contact_line s :: match b with Some _ => [ln "Content-Type" (lit "application/sdp")] | None => [] end.
Definition ok_length (b : option str) : str := match b with Some x => print_N (blen x) | None => lit "0" end.
Lemma accept_timer_parts : forall s a rq sdp p tag s' r d t, accept_invite_timer s a rq sdp p tag = Ret (Some (Accepted s' r d t)) ->
  authorised a = true /\ method_str (q_method rq) = lit "INVITE" /\ s' = store s d
  /\ r = mkResp 200 (lit "OK") (shape rq (tagged_to rq 200 tag) (ok_length sdp) (ok_extra s sdp ++ timer_lines t)) (body_bytes sdp)
  /\ (exists ru, from_uri rq = Some ru /\ new_uas rq r (us_local s) ru = Ret (Some d))
  /\ match requested_se rq with
     | None => t = None
     | Some (n, hint) => exists v, negotiate (n * NS) (po_min p) (remote_min_se rq) (po_pref p) = Ok v
         /\ t = Some (v, match po_force p with Some w => w | None => match hint with Some w => w | None => RUac end end)
     end.
Proof.
  intros s a rq sdp p tag s' r d t H. unfold accept_invite_timer, invite_admitted in H.
  destruct (str_eqb (method_str (q_method rq)) (lit "INVITE")) eqn:M; cbn [negb] in H; [|discriminate H]. apply str_eqb_spec in M.
  destruct (validate_invite rq tag) as [[v|]|]; cbn [obind is_none andb negb] in H; [discriminate H| |discriminate H].
  destruct (authorised a); cbn [negb] in H; [|discriminate H].
  assert (A : forall t', (rbind (create_ok s rq sdp tag) (fun r0 => match with_timer t' r0 with
      | None => Ret None
      | Some r' => match from_uri rq with None => Ret None | Some ru => rbind (new_uas rq r' (us_local s) ru) (fun d0 => Ret (Some (Accepted (store s d0) r' d0 t'))) end end))
      = Ret (Some (Accepted s' r d t)) -> t = t' /\ s' = store s d
      /\ r = mkResp 200 (lit "OK") (shape rq (tagged_to rq 200 tag) (ok_length sdp) (ok_extra s sdp ++ timer_lines t)) (body_bytes sdp)
      /\ exists ru, from_uri rq = Some ru /\ new_uas rq r (us_local s) ru = Ret (Some d)).
  { intros t' X. destruct (create_ok s rq sdp tag) as [[r0|]|] eqn:C; cbn [rbind] in X; [|discriminate X..]. apply create_ok_inv in C. destruct C as [_ C].
    destruct (with_timer t' r0) as [r'|] eqn:W; [|discriminate X]. destruct (from_uri rq) as [ru|]; [|discriminate X].
    destruct (new_uas rq r' (us_local s) ru) as [[d0|]|] eqn:D; cbn [rbind] in X; [|discriminate X..]. injection X as <- <- <- <-.
    split; [reflexivity|]. split; [reflexivity|]. split; [|exists ru; split; [reflexivity|exact D]].
    unfold with_timer in W. destruct t' as [[v w]|].
    - destruct (hpush (p_headers r0) _ _) as [h1|] eqn:P1; [|discriminate W]. destruct (hpush h1 _ _) as [h2|] eqn:P2; [|discriminate W]. injection W as <-.
      apply hpush_inv in P1, P2. subst h2 h1 r0. cbn [p_code p_reason p_headers p_body]. f_equal. unfold timer_lines. rewrite !shape_snoc. unfold ok_extra, ln. f_equal. rewrite <- !app_assoc. reflexivity.
    - injection W as <-. subst r0. unfold timer_lines. rewrite app_nil_r. reflexivity. }
  split; [reflexivity|]. split; [exact M|]. cbv zeta in H. destruct (requested_se rq) as [[n hint]|].
  - destruct (negotiate _ _ _ _) as [v|m] eqn:N.
    + apply A in H. destruct H as (-> & H1 & H2 & H3). split; [exact H1|]. split; [exact H2|]. split; [exact H3|]. exists v. split; reflexivity.
    + destruct (create_422 _ _ _) as [r0|]; cbn [obind] in H; discriminate H.
  - apply A in H. destruct H as (-> & H1 & H2 & H3). split; [exact H1|]. split; [exact H2|]. split; [exact H3|reflexivity].
Qed.
Lemma dlg_make_timer : forall uac id rq rs la ra d, dlg_make uac id rq rs la ra = Some d ->
  d_expires d = match extract_session_timer rs with Some (x, _) => Some x | None => None end
  /\ d_refresher d = match extract_session_timer rs with Some (_, w) => w | None => None end.
Proof.
  intros uac id rq rs la ra d H. unfold dlg_make in H. destruct (state_of_code _) as [st|]; [|discriminate].
  destruct (negb _); [discriminate|]. destruct (build_route_set _ _) as [routes|]; [|discriminate].
  destruct (is_some (validate_route_set routes)); [discriminate|]. destruct (parse_cseq_number _) as [n|]; [|discriminate].
  destruct (is_some _); [discriminate|]. match type of H with (if ?b then _ else _) = _ => destruct b end; [discriminate|].
  injection H as <-. split; reflexivity.
Qed.
Lemma extra_clean : forall s sdp t n, In n [lit "Via"; lit "From"; lit "Call-ID"; lit "CSeq"; lit "To"; lit "Record-Route"; lit "Content-Length"] -> unnamed n (ok_extra s sdp ++ timer_lines t).
Proof. intros s sdp t n H. repeat (destruct H as [<- | H]; [destruct sdp, t as [[v w]|]; repeat constructor|]). destruct H. Qed.
(** an accepted call with a timer *)
Theorem C140_accepted : forall s a rq sdp p tag s' r d t, accept_invite_timer s a rq sdp p tag = Ret (Some (Accepted s' r d t)) ->
  authorised a = true /\ p_code r = 200 /\ mirrors rq r /\ s' = store s d
  /\ match requested_se rq with
     | None => t = None /\ values "Session-Expires" (p_headers r) = [] /\ d_expires d = None
     | Some (n, hint) => exists v w, t = Some (v, w)
         /\ po_min p <= v <= n * NS /\ at_least v (remote_min_se rq)
         /\ (po_pref p = None -> v = n * NS) /\ (forall x, po_pref p = Some x -> x <= n * NS -> po_min p <= x -> at_least x (remote_min_se rq) -> v = x)
         /\ w = match po_force p, hint with Some x, _ => x | None, Some x => x | None, None => RUac end
         /\ values "Session-Expires" (p_headers r) = [se_print (v / NS) (Some w)] /\ values "Require" (p_headers r) = [lit "timer"]
         /\ (90 * NS <= po_min p -> d_expires d = Some (v / NS * NS) /\ d_refresher d = Some w)
     end.
Proof.
  intros s a rq sdp p tag s' r d t H. apply accept_timer_parts in H. destruct H as (A & M & S & R & (ru & _ & D) & Q).
  split; [exact A|]. split; [now rewrite R|]. split.
  { rewrite R. unfold mirrors. cbn [p_headers].
    destruct (shape_values rq (tagged_to rq 200 tag) (ok_length sdp) (ok_extra s sdp ++ timer_lines t)) as (V1 & V2 & V3 & V4 & V5 & _); [apply extra_clean; cbn; tauto..|].
    now repeat split. }
  split; [exact S|].
  assert (V : forall n, ~ In (lower (lit n)) (map (fun k => lower (lit k)) seven) -> values n (p_headers r) = values n (ok_extra s sdp ++ timer_lines t)).
  { intros n Hn. rewrite R. cbn [p_headers]. now apply shape_extra. }
  assert (VS : values "Session-Expires" (p_headers r) = match t with Some (v, w) => [se_print (v / NS) (Some w)] | None => [] end).
  { rewrite V by (cbn; intuition discriminate). destruct sdp, t as [[v w]|]; reflexivity. }
  assert (VR : values "Require" (p_headers r) = match t with Some (v, w) => [lit "timer"] | None => [] end).
  { rewrite V by (cbn; intuition discriminate). destruct sdp, t as [[v w]|]; reflexivity. }
  assert (T : d_expires d = match extract_session_timer r with Some (x, _) => Some x | None => None end /\ d_refresher d = match extract_session_timer r with Some (_, w) => w | None => None end).
  { unfold new_uas in D. destruct (id_from_response_uas r) as [[i|]|]; [|discriminate D..]. injection D as D. now apply dlg_make_timer in D. }
  destruct T as [T1 T2].
  assert (X : header_of (p_headers r) (lit "Session-Expires") = match values "Session-Expires" (p_headers r) with x :: _ => Some x | [] => None end).
  { destruct (values "Session-Expires" (p_headers r)) as [|x l] eqn:E; [|exact (value_of _ _ _ _ E)].
    unfold header_of. change (canonical_name (lit "Session-Expires")) with (lit "Session-Expires"). rewrite !first_get. unfold first_value. now rewrite E. }
  unfold extract_session_timer in T1, T2. rewrite X, VS in T1, T2.
  destruct (requested_se rq) as [[n hint]|] eqn:Rq.
  - destruct Q as (v & N & ->). destruct (C31_bounds _ _ _ _ _ N) as (B1 & B2 & B3). assert (P := C31_preference _ _ _ _ _ N).
    set (w := match po_force p with Some w => w | None => match hint with Some w => w | None => RUac end end) in *.
    exists v, w. split; [reflexivity|]. split; [lia|]. split; [exact B3|]. split; [intros E; rewrite E in P; exact P|]. split.
    { intros x E L1 L2 L3. rewrite E in P. destruct (P x L1 L2 L3) as [P1 P2]. destruct (N.lt_ge_cases v x) as [L | L]; [specialize (P2 L); lia|]. specialize (P1 L (N.le_refl x)). lia. }
    split; [unfold w; destruct (po_force p), hint; reflexivity|]. split; [exact VS|]. split; [exact VR|]. intros L.
    assert (G : 90 <= n <= 86400).
    { unfold requested_se in Rq. destruct (header_of _ _) as [y|]; [|discriminate Rq]. now apply (proj1 C84_range) in Rq. }
    assert (K : 90 <= v / NS <= 86400).
    { assert (N0 : NS <> 0) by discriminate. split.
      - apply N.div_le_lower_bound; [exact N0|]. lia.
      - assert (Z : v / NS <= n * NS / NS) by (apply N.div_le_mono; [exact N0|lia]). rewrite N.div_mul in Z by exact N0. lia. }
    rewrite (C84_se_roundtrip (v / NS) (Some w) K) in T1, T2. split; assumption.
  - subst t. split; [reflexivity|]. split; [exact VS|exact T1].
Qed.
Print Assumptions C140_accepted.
(** both ends of the call take the same timer *)
Theorem C140_both : forall s a rq sdp p tag s' r d t la ra e, accept_invite_timer s a rq sdp p tag = Ret (Some (Accepted s' r d t)) ->
  new_uac rq r la ra = Ret (Some e) -> two_ends d e /\ d_expires e = d_expires d /\ d_refresher e = d_refresher d.
Proof.
  intros s a rq sdp p tag s' r d t la ra e H E. assert (H' := H). apply C140_accepted in H'. destruct H' as (_ & A1 & (_ & A2 & _) & _).
  apply accept_timer_parts in H. destruct H as (_ & _ & _ & _ & (ru & _ & D) & _).
  unfold new_uas, id_from_response_uas in D. unfold new_uac, id_from_response_uac in E. destruct (id_of_headers (p_headers r)) as [[[[c f] tg]|]|]; [|discriminate..].
  injection D as D. injection E as E. destruct (dlg_make_timer _ _ _ _ _ _ _ D) as [T1 T2]. destruct (dlg_make_timer _ _ _ _ _ _ _ E) as [T3 T4].
  split; [|split; congruence]. apply dlg_make_inv in D, E. destruct D as (D1 & D2 & D3 & n & D4 & D5 & D6). destruct E as (E1 & E2 & E3 & n' & E4 & E5 & E6).
  rewrite D4 in E4. injection E4 as <-. cbv iota in *. rewrite D2 in E2. injection E2 as E2.
  unfold two_ends. rewrite D1, E1. cbn [di_call di_local di_remote]. split; [reflexivity|]. split; [congruence|]. split; [congruence|]. split; [|congruence].
  unfold build_route_set in D3, E3. unfold values in A2. rewrite A2 in E3. destruct (add_routes _ _) as [l|]; [|discriminate]. injection D3 as <-. injection E3 as <-. now rewrite rev_involutive.
Qed.
Print Assumptions C140_both.
(** a call is refused with 422 exactly when what was asked for is too short, and
    the response says what would do (for whole seconds) *)
Theorem C140_refused : forall s a rq sdp p tag r m, accept_invite_timer s a rq sdp p tag = Ret (Some (TooSmall r m)) ->
  authorised a = true /\ p_code r = 422 /\ mirrors rq r /\ values "Min-SE" (p_headers r) = [print_N (m / NS mod 4294967296)]
  /\ po_min p <= m /\ at_least m (remote_min_se rq)
  /\ exists n h, requested_se rq = Some (n, h) /\ n * NS < m.
Proof.
  intros s a rq sdp p tag r m H. unfold accept_invite_timer, invite_admitted in H.
  destruct (str_eqb (method_str (q_method rq)) (lit "INVITE")) eqn:M; cbn [negb] in H; [|discriminate H].
  destruct (validate_invite rq tag) as [[v|]|]; cbn [obind is_none andb negb] in H; [discriminate H| |discriminate H].
  destruct (authorised a); cbn [negb] in H; [|discriminate H]. split; [reflexivity|]. cbv zeta in H.
  assert (A : forall t', (rbind (create_ok s rq sdp tag) (fun r0 => match with_timer t' r0 with
      | None => Ret None
      | Some r' => match from_uri rq with None => Ret None | Some ru => rbind (new_uas rq r' (us_local s) ru) (fun d0 => Ret (Some (Accepted (store s d0) r' d0 t'))) end end))
      = Ret (Some (TooSmall r m)) -> False).
  { intros t' X. destruct (create_ok s rq sdp tag) as [[r0|]|]; cbn [rbind] in X; [|discriminate X..]. destruct (with_timer t' r0) as [r'|]; [|discriminate X]. destruct (from_uri rq) as [ru|]; [|discriminate X].
    destruct (new_uas rq r' (us_local s) ru) as [[d0|]|]; cbn [rbind] in X; discriminate X. }
  destruct (requested_se rq) as [[n hint]|]; [|now apply A in H]. destruct (negotiate _ _ _ _) as [v|m'] eqn:N; [now apply A in H|].
  destruct (create_422 rq (secs_u32 m') tag) as [r0|] eqn:C; cbn [obind] in H; [|discriminate H]. injection H as <- <-.
  assert (Q := reply_answers s rq tag (YInterval (secs_u32 m')) r0 ltac:(cbn [make]; rewrite C; reflexivity) (fun c t X => ltac:(discriminate X))).
  destruct Q as (Q1 & _ & Q2 & _ & _ & Q3). cbn [status_wanted] in Q1. apply pair_equal_spec in Q1. split; [tauto|]. split; [exact Q2|]. split; [apply (Q3 "Min-SE"%string); now left|].
  apply C31_refused in N. destruct N as (N1 & N2 & N3 & N4). split; [exact N2|]. split; [exact N3|]. exists n, hint. split; [reflexivity|].
  destruct N1 as [N1 | N1]; [lia|]. destruct (remote_min_se rq) as [x|]; cbn [at_least] in *; [lia|]. now elim N1.
Qed.
Print Assumptions C140_refused.
Definition timed (se min : string) : req :=
  mkReq MInvite (SipU robert) (q_headers invite_1 ++ [(lit "Session-Expires", lit se); (lit "Min-SE", lit min)]) [].
Example C140_example :
  (exists s r d, accept_invite_timer server1 NoAuth (timed "1800;refresher=uac" "120") None (mkPolicy (90 * NS) (Some (600 * NS)) None) (lit "srv1") = Ret (Some (Accepted s r d (Some (600 * NS, RUac)))))
  /\ exists r, accept_invite_timer server1 NoAuth (timed "100" "90") None (mkPolicy (120 * NS) None None) (lit "srv1") = Ret (Some (TooSmall r (120 * NS))).
Proof. split; [do 3 eexists|eexists]; vm_compute; reflexivity. Qed.
(** an interval below 90 seconds is not refused: the call is accepted without a timer *)
Theorem C140_short_refuted : exists rq s r d, values "Session-Expires" (q_headers rq) = [lit "60"]
  /\ accept_invite_timer server1 NoAuth rq None (mkPolicy (1800 * NS) None None) (lit "srv1") = Ret (Some (Accepted s r d None)) /\ p_code r = 200.
Proof. exists (timed "60" "90"). do 3 eexists. split; [vm_compute; reflexivity|]. split; [vm_compute; reflexivity|reflexivity]. Qed.
Print Assumptions C140_short_refuted.
(** the minimum in the 422 is cut to whole seconds: a caller who repeats the call
    with it is refused again, with the same number *)
Theorem C140_loop_refuted : exists p r, accept_invite_timer server1 NoAuth (timed "90" "90") None p (lit "srv1") = Ret (Some (TooSmall r (po_min p)))
  /\ values "Min-SE" (p_headers r) = [lit "90"].
Proof. exists (mkPolicy (90 * NS + 500000000) None None). eexists. split; vm_compute; reflexivity. Qed.
Print Assumptions C140_loop_refuted.
(** a server set to less than 90 seconds promises a timer that neither end reads *)
Definition timed_only : req := mkReq MInvite (SipU robert) (q_headers invite_1 ++ [(lit "Session-Expires", lit "1800")]) [].
Theorem C140_unread_refuted : exists p s r d e, accept_invite_timer server1 NoAuth timed_only None p (lit "srv1") = Ret (Some (Accepted s r d (Some (60 * NS, RUac))))
  /\ d_expires d = None /\ new_uac timed_only r alice robert = Ret (Some e) /\ d_expires e = None.
Proof. exists (mkPolicy (30 * NS) (Some (60 * NS)) None). do 4 eexists. split; [vm_compute; reflexivity|]. split; [reflexivity|]. split; [vm_compute; reflexivity|reflexivity]. Qed.
Print Assumptions C140_unread_refuted.
