(** Lemmas on the headers an integrated server fills in before a response leaves. *)
From Coq Require Import Arith NArith Bool String List Lia ZifyBool ZifyN ZifyNat.
Import ListNotations.
From Verif Require Import Base BaseFacts Headers HeadersProofs Method Text TextFacts Uri UriProofs Msg Message Dialog Via ViaSpec ViaProofs TxManager Dns
  ProxyCoreProofs Uac UacSpec UacProofs Uas UasSpec UasProofs UasCalls UasServe.
From Verif Require UacSendProofs.
Open Scope N_scope.
Open Scope list_scope.

(** ** Via: filling in twice is filling in once *)
Lemma bput_grows : forall V k (v : V) m, llen m <= llen (bput k v m).
Proof.
  intros V k v m. induction m as [|[k' v'] m IH]; cbn [bput]; [unfold llen; cbn; lia|].
  destruct (str_eqb k k'); [|destruct (str_ltb k k')]; unfold llen in *; cbn [length] in *; lia.
Qed.
Lemma fill_grows : forall v ip port, llen (w_params v) <= llen (w_params (fst (fill_via v ip port))).
Proof.
  assert (G : forall v n x v', via_set_param v n x = Some v' -> llen (w_params v) <= llen (w_params v')).
  { intros v n x v' H. apply via_set_cases in H. destruct H as (_ & _ & _ & ->). cbn [w_params]. apply bput_grows. }
  intros v ip port. unfold fill_via. destruct (via_param v (lit "rport")) as [[y|]|].
  - destruct (_ && _); [|apply N.le_refl]. destruct (via_set_param v (lit "received") _) as [v2|] eqn:E; cbn [fst]; [now apply G in E|apply N.le_refl].
  - destruct (via_set_param v (lit "rport") _) as [v1|] eqn:E1.
    + apply G in E1. destruct (_ && _); [|exact E1]. destruct (via_set_param v1 (lit "received") _) as [v2|] eqn:E; cbn [fst]; [apply G in E; exact (N.le_trans _ _ _ E1 E)|exact E1].
    + destruct (_ && _); [|apply N.le_refl]. destruct (via_set_param v (lit "received") _) as [v2|] eqn:E; cbn [fst]; [now apply G in E|apply N.le_refl].
  - destruct (_ && _); [|apply N.le_refl]. destruct (via_set_param v (lit "received") _) as [v2|] eqn:E; cbn [fst]; [now apply G in E|apply N.le_refl].
Qed.
Lemma fill_twice : forall v ip port, via_inv v -> Forall vplain (w_params v) -> address_text ip -> port <= 65535 ->
  fill_via (fst (fill_via v ip port)) ip port = (fst (fill_via v ip port), false).
Proof.
  intros v ip port Hi Hp Ha Hport. pose proof (fill_grows v ip port) as G. destruct (fill_spec v ip port Hi Hp Ha Hport) as (I1 & _ & _ & _ & B & _ & R1 & R2 & C1 & C2 & C3).
  set (w := fst (fill_via v ip port)) in *.
  assert (R : via_param w (lit "rport") <> Some None).
  { destruct (via_param v (lit "rport")) as [[y|]|] eqn:E; [rewrite R2 by discriminate; discriminate|rewrite R1 by reflexivity; discriminate|rewrite R2 by discriminate; discriminate]. }
  assert (F : forall (k : via * bool -> via * bool), k (match via_param w (lit "rport") with Some None => match via_set_param w (lit "rport") (Some (print_N port)) with Some v1 => (v1, true) | None => (w, false) end | _ => (w, false) end) = k (w, false)).
  { intros k. destruct (via_param w (lit "rport")) as [[y|]|]; [reflexivity|congruence|reflexivity]. }
  unfold fill_via at 1. rewrite (F (fun x => let '(v1, filled) := x in _)). rewrite orb_false_r.
  destruct (via_param w (lit "received")) as [x|] eqn:C; [now rewrite andb_false_r|]. cbn [is_none]. rewrite andb_true_r.
  destruct (str_eqb (sent_by_host (w_sent_by w)) ip) eqn:H; [reflexivity|]. cbn [negb].
  assert (S : ~ sent_from (w_sent_by v) ip).
  { intros X. rewrite <- B in X. apply (sent_by_host_spec (w_sent_by w) ip (proj1 (proj2 I1)) Ha) in X. congruence. }
  assert (V : via_param v (lit "received") = None).
  { destruct (via_param v (lit "received")) as [x|] eqn:E; [|reflexivity]. specialize (C1 x eq_refl). congruence. }
  assert (L : 20 <= llen (w_params v)).
  { destruct (20 <=? llen (w_params v)) eqn:E; [lia|]. assert (E' : llen (w_params v) < 20) by lia. specialize (C2 V E' (or_intror S)). congruence. }
  destruct (address_facts ip Ha) as (A1 & _). destruct received_name as [CN _]. unfold via_set_param. rewrite CN. cbn [negb]. unfold via_param in C. rewrite C. cbn [is_some negb andb].
  replace (MAX_VIA_PARAMS <=? llen (w_params w)) with true by (unfold MAX_VIA_PARAMS; lia). cbv iota. reflexivity.
Qed.
Lemma apply_twice : forall hs hs2 ip port, address_text ip -> port <= 65535 -> hget (lit "Via") hs2 = hget (lit "Via") (apply_via hs ip port) -> apply_via hs2 ip port = hs2.
Proof.
  intros hs hs2 ip port Ha Hp E. destruct (hget (lit "Via") hs) as [t|] eqn:G.
  - destruct (via_parse t) as [v|] eqn:P.
    + destruct (apply_via_spec hs ip port t v G P Ha Hp) as (a & n & b & t' & E1 & E2 & E3 & E4 & E5).
      assert (X : hget (lit "Via") hs2 = Some t').
      { rewrite E, E2. apply hget_some. exists a, n, b. split; [reflexivity|]. split; [exact E3|exact E4]. }
      unfold apply_via. rewrite X, E5. destruct (via_parse_inv t v P) as [I0 P0]. rewrite fill_twice by assumption. reflexivity.
    + assert (X : apply_via hs ip port = hs) by (unfold apply_via; now rewrite G, P). rewrite X, G in E. unfold apply_via. now rewrite E, P.
  - assert (X : apply_via hs ip port = hs) by (unfold apply_via; now rewrite G). rewrite X, G in E. unfold apply_via. now rewrite E.
Qed.
Lemma apply_other : forall n hs ip port, eq_ic (lit "Via") n = false -> hget_all n (apply_via hs ip port) = hget_all n hs.
Proof.
  intros n hs ip port H. unfold apply_via. destruct (hget (lit "Via") hs) as [t|]; [|reflexivity]. destruct (via_parse t) as [v|]; [|reflexivity].
  destruct (fill_via v ip port) as [v' ch]. destruct ch; [|reflexivity]. now apply set_or_push_all_other.
Qed.

(** ** Setting a header *)
Lemma set_first_values : forall n v hs hs', set_first n v hs = Some hs' -> hget_all n hs' = v :: tl (hget_all n hs) /\ hget_all n hs <> [] /\ llen hs' = llen hs.
Proof.
  intros n v hs. induction hs as [|[k x] hs IH]; intros hs' H; cbn [set_first] in H; [discriminate|]. unfold name_eq in H. cbn [fst] in H. destruct (eq_ic k n) eqn:E.
  - injection H as <-. rewrite !hget_all_cons. cbn [fst snd]. rewrite E. split; [reflexivity|]. split; [discriminate|reflexivity].
  - destruct (set_first n v hs) as [r|] eqn:S; [|discriminate]. injection H as <-. rewrite !hget_all_cons. cbn [fst]. rewrite E. destruct (IH r eq_refl) as (X & Y & Z).
    split; [exact X|]. split; [exact Y|]. unfold llen in *. cbn [length]. lia.
Qed.
Lemma set_first_none : forall n v hs, set_first n v hs = None -> hget_all n hs = [].
Proof.
  intros n v hs. induction hs as [|[k x] hs IH]; intros H; [reflexivity|]. cbn [set_first] in H. unfold name_eq in H. cbn [fst] in H. rewrite hget_all_cons. cbn [fst].
  destruct (eq_ic k n); [discriminate|]. destruct (set_first n v hs); [discriminate|now apply IH].
Qed.
Lemma set_first_same : forall n v hs r, hget_all n hs = v :: r -> set_first n v hs = Some hs.
Proof.
  intros n v hs r. induction hs as [|[k x] hs IH]; intros H; [discriminate|]. rewrite hget_all_cons in H. cbn [fst snd] in H. cbn [set_first]. unfold name_eq. cbn [fst]. destruct (eq_ic k n).
  - injection H as -> _. reflexivity.
  - now rewrite (IH H).
Qed.
Lemma set_values : forall n v hs hs', hset_or_push hs n v = Ok hs' -> hget_all n hs' = v :: tl (hget_all n hs).
Proof.
  intros n v hs hs' H. assert (N : eq_ic n n = true) by apply eq_ic_refl. apply set_or_push_cases in H. destruct H as [H | [H ->]].
  - now apply set_first_values in H.
  - apply set_first_none in H. etransitivity; [exact (hget_all_app n hs [(n, v)])|]. rewrite hget_all_cons. cbn [fst snd]. rewrite N, H. reflexivity.
Qed.
Lemma apply_via_values : forall hs ip port, tl (hget_all (lit "Via") (apply_via hs ip port)) = tl (hget_all (lit "Via") hs)
  /\ (hget_all (lit "Via") hs = [] -> hget_all (lit "Via") (apply_via hs ip port) = []) /\ llen (apply_via hs ip port) = llen hs.
Proof.
  intros hs ip port. unfold apply_via. destruct (hget (lit "Via") hs) as [t|] eqn:G; [|split; auto]. destruct (via_parse t) as [v|]; [|split; auto].
  destruct (fill_via v ip port) as [v' ch]. destruct ch; [|split; auto]. destruct (hset_or_push hs (lit "Via") (via_print v')) as [hs'|] eqn:E; [|split; auto]. cbn [or_same].
  rewrite UacSendProofs.get_first in G. change (@nil header) with (@nil (str * str)) in *.
  split; [rewrite (set_values _ _ _ _ E); reflexivity|]. split.
  - intros X. rewrite X in G. discriminate.
  - apply set_or_push_cases in E. destruct E as [E | [E _]]; [now apply set_first_values in E|]. apply set_first_none in E. rewrite E in G. discriminate.
Qed.

(** ** The whole of it *)
Definition with_contact (g : settings) (s : uas) (c : arrival) (hs : headers) : headers :=
  if se_contact g then or_same hs (hset_or_push hs (lit "Contact") (contact_value (contact_user s) (advertised g) (ar_local c) (ar_transport c))) else hs.
Definition with_via (g : settings) (c : arrival) (hs : headers) : headers :=
  if se_via g then apply_via hs (fst (ar_peer c)) (snd (ar_peer c)) else hs.
Lemma fill_inv : forall g s c r r', auto_fill g s c r = Ret r' -> exists h3 h4,
  add_missing "Allow" (se_allow g) (with_contact g s c (with_via g c (p_headers r))) = Ret h3 /\ add_missing "Server" (se_agent g) h3 = Ret h4
  /\ r' = mkResp (p_code r) (p_reason r) h4 (p_body r).
Proof.
  intros g s c r r' H. unfold auto_fill in H. cbv zeta in H. fold (with_via g c (p_headers r)) in H. fold (with_contact g s c (with_via g c (p_headers r))) in H.
  destruct (add_missing "Allow" _ _) as [h3|] eqn:A; cbn [obind] in H; [|discriminate]. destruct (add_missing "Server" _ _) as [h4|] eqn:B; cbn [obind] in H; [|discriminate].
  injection H as <-. now exists h3, h4.
Qed.
Lemma add_missing_inv : forall n v hs hs', add_missing n v hs = Ret hs' ->
  (hget (lit n) hs <> None /\ hs' = hs) \/ (hget_all (lit n) hs = [] /\ hs' = hs ++ [(lit n, v)] /\ llen hs < 200 /\ line_ok (lit n, v)).
Proof.
  intros n v hs hs' H. unfold add_missing in H. destruct (hget (lit n) hs) as [x|] eqn:G; [left; injection H as <-; now split|]. right.
  rewrite UacSendProofs.get_first in G. destruct (hget_all (lit n) hs) eqn:A; [|discriminate]. unfold hpush in H. destruct (MAX_HEADERS <=? llen hs) eqn:L; [discriminate|].
  unfold header_new in H. destruct (validate_header_name (lit n)) as [e|] eqn:E1; [discriminate|]. destruct (validate_header_value v) as [e|] eqn:E2; [discriminate|]. injection H as <-.
  split; [reflexivity|]. split; [reflexivity|]. split; [unfold MAX_HEADERS in L; lia|]. now split.
Qed.
Lemma add_other : forall n v hs hs' m, add_missing n v hs = Ret hs' -> eq_ic (lit n) m = false -> hget_all m hs' = hget_all m hs.
Proof.
  intros n v hs hs' m H E. apply add_missing_inv in H. destruct H as [[_ ->] | (_ & -> & _)]; [reflexivity|].
  etransitivity; [exact (hget_all_app m hs [(lit n, v)])|]. rewrite hget_all_cons. cbn [fst]. rewrite E. apply app_nil_r.
Qed.
Lemma add_same : forall n v hs hs', add_missing n v hs = Ret hs' -> hget_all (lit n) hs' = match hget_all (lit n) hs with [] => [v] | l => l end.
Proof.
  intros n v hs hs' H. apply add_missing_inv in H. destruct H as [[G ->] | (A & -> & _)].
  - rewrite UacSendProofs.get_first in G. now destruct (hget_all (lit n) hs).
  - etransitivity; [exact (hget_all_app (lit n) hs [(lit n, v)])|]. rewrite A, hget_all_cons. cbn [fst snd]. now rewrite eq_ic_refl.
Qed.
Lemma contact_other : forall g s c hs m, eq_ic (lit "Contact") m = false -> hget_all m (with_contact g s c hs) = hget_all m hs.
Proof. intros g s c hs m E. unfold with_contact. destruct (se_contact g); [|reflexivity]. now apply set_or_push_all_other. Qed.
Lemma via_other : forall g c hs m, eq_ic (lit "Via") m = false -> hget_all m (with_via g c hs) = hget_all m hs.
Proof. intros g c hs m E. unfold with_via. destruct (se_via g); [|reflexivity]. now apply apply_other. Qed.
Lemma via_keeps : forall g c hs, tl (hget_all (lit "Via") (with_via g c hs)) = tl (hget_all (lit "Via") hs)
  /\ (hget_all (lit "Via") hs = [] -> hget_all (lit "Via") (with_via g c hs) = []) /\ llen (with_via g c hs) = llen hs.
Proof. intros g c hs. unfold with_via. destruct (se_via g); [apply apply_via_values|split; auto]. Qed.
Lemma add_idem : forall n v hs hs', hget_all (lit n) hs <> [] -> add_missing n v hs = Ret hs' -> hs' = hs.
Proof. intros n v hs hs' H E. apply add_missing_inv in E. destruct E as [[_ E] | (E & _)]; [exact E|contradiction]. Qed.
Lemma add_present : forall n v hs, hget_all (lit n) hs <> [] -> add_missing n v hs = Ret hs.
Proof. intros n v hs H. unfold add_missing. rewrite UacSendProofs.get_first. now destruct (hget_all (lit n) hs). Qed.
Lemma fill_idempotent : forall g s c r r', address_text (fst (ar_peer c)) -> snd (ar_peer c) <= 65535 -> auto_fill g s c r = Ret r' -> auto_fill g s c r' = Ret r'.
Proof.
  intros g s c r r' Ha Hp H. apply fill_inv in H. destruct H as (h3 & h4 & A & B & ->). set (h1 := with_via g c (p_headers r)) in *. set (h2 := with_contact g s c h1) in *.
  assert (NA : hget_all (lit "Allow") h4 <> []).
  { rewrite (add_other _ _ _ _ (lit "Allow") B eq_refl), (add_same _ _ _ _ A). destruct (hget_all (lit "Allow") h2); discriminate. }
  assert (NS : hget_all (lit "Server") h4 <> []).
  { rewrite (add_same _ _ _ _ B). destruct (hget_all (lit "Server") h3); discriminate. }
  assert (V : with_via g c h4 = h4).
  { unfold with_via. destruct (se_via g) eqn:SV; [|reflexivity]. apply (apply_twice (p_headers r)); [exact Ha|exact Hp|].
    rewrite !UacSendProofs.get_first. rewrite (add_other _ _ _ _ (lit "Via") B eq_refl), (add_other _ _ _ _ (lit "Via") A eq_refl). unfold h2. rewrite contact_other by reflexivity. unfold h1, with_via. now rewrite SV. }
  assert (C : with_contact g s c h4 = h4).
  { unfold with_contact. destruct (se_contact g) eqn:SC; [|reflexivity]. set (v := contact_value _ _ _ _).
    assert (C4 : hget_all (lit "Contact") h4 = hget_all (lit "Contact") h2) by now rewrite (add_other _ _ _ _ (lit "Contact") B eq_refl), (add_other _ _ _ _ (lit "Contact") A eq_refl).
    unfold h2, with_contact in C4. rewrite SC in C4. fold v in C4. unfold hset_or_push. change (validate_header_name (lit "Contact")) with (@None header_error). cbv iota.
    destruct (hset_or_push h1 (lit "Contact") v) as [h2'|] eqn:E.
    - cbn [or_same] in C4. rewrite (set_values _ _ _ _ E) in C4. unfold hset_or_push in E. change (validate_header_name (lit "Contact")) with (@None header_error) in E. cbv iota in E.
      destruct (validate_header_value v); [discriminate|]. now rewrite (set_first_same _ _ _ _ C4).
    - cbn [or_same] in C4. unfold hset_or_push in E. change (validate_header_name (lit "Contact")) with (@None header_error) in E. cbv iota in E.
      destruct (validate_header_value v) as [er|] eqn:VV; [reflexivity|]. destruct (set_first (lit "Contact") v h1) as [x|] eqn:SF; [discriminate|].
      destruct (MAX_HEADERS <=? llen h1) eqn:L; [|discriminate].
      assert (H2 : h2 = h1).
      { unfold h2, with_contact. rewrite SC. fold v. unfold hset_or_push. change (validate_header_name (lit "Contact")) with (@None header_error). cbv iota. now rewrite VV, SF, L. }
      rewrite H2 in A. unfold MAX_HEADERS in *.
      assert (H3 : h3 = h1) by (apply add_missing_inv in A; destruct A as [[_ A] | (_ & _ & A & _)]; [exact A|lia]). subst h3.
      assert (H4 : h4 = h1) by (apply add_missing_inv in B; destruct B as [[_ B] | (_ & _ & B & _)]; [exact B|lia]). rewrite H4, SF. unfold MAX_HEADERS. now rewrite L. }
  unfold auto_fill. cbv zeta. cbn [p_code p_reason p_body p_headers]. fold (with_via g c h4). rewrite V. fold (with_contact g s c h4). rewrite C. rewrite (add_present _ _ _ NA). cbn [obind].
  rewrite (add_present _ _ _ NS). reflexivity.
Qed.
Lemma contact_len : forall g s c hs, llen (with_contact g s c hs) <= llen hs + 1.
Proof.
  intros g s c hs. unfold with_contact. destruct (se_contact g); [|lia]. destruct (hset_or_push hs _ _) as [h|] eqn:E; cbn [or_same]; [|lia].
  apply set_or_push_cases in E. destruct E as [E | [_ ->]]; [apply set_first_values in E; lia|]. unfold llen. rewrite app_length. cbn. lia.
Qed.
Lemma add_ret : forall n v hs, validate_header_name (lit n) = None -> validate_header_value v = None -> llen hs < 200 -> exists hs', add_missing n v hs = Ret hs' /\ llen hs' <= llen hs + 1.
Proof.
  intros n v hs Hn Hv L. unfold add_missing. destruct (hget (lit n) hs); [exists hs; split; [reflexivity|lia]|]. unfold hpush, MAX_HEADERS. replace (200 <=? llen hs) with false by lia.
  unfold header_new. rewrite Hn, Hv. exists (hs ++ [(lit n, v)]). split; [reflexivity|]. unfold llen. rewrite app_length. cbn. lia.
Qed.
Lemma fill_ret : forall g s c r, llen (p_headers r) <= 197 -> validate_header_value (se_allow g) = None -> validate_header_value (se_agent g) = None -> exists r', auto_fill g s c r = Ret r'.
Proof.
  intros g s c r L Va Vs. unfold auto_fill. cbv zeta. fold (with_via g c (p_headers r)). fold (with_contact g s c (with_via g c (p_headers r))).
  destruct (via_keeps g c (p_headers r)) as (_ & _ & L1). pose proof (contact_len g s c (with_via g c (p_headers r))) as L2.
  destruct (add_ret "Allow" (se_allow g) (with_contact g s c (with_via g c (p_headers r))) eq_refl Va ltac:(lia)) as (h3 & -> & L3). cbn [obind].
  destruct (add_ret "Server" (se_agent g) h3 eq_refl Vs ltac:(lia)) as (h4 & -> & L4). cbn [obind]. eauto.
Qed.
