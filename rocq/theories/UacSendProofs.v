(** What the integrated client does to its requests. *)
From Coq Require Import String Arith NArith Bool List Lia ZifyBool ZifyN ZifyNat.
Import ListNotations.
From Verif Require Import Base BaseFacts NumFacts Headers HeadersProofs Method Text TextFacts Uri Msg Message AnyUri Dialog Auth Uac UacSend UacSpec UacProofs UacReads UacRegister UacAuth.
Open Scope N_scope.
Open Scope list_scope.

(** ** Header lists *)
Lemma get_removed : forall n hs, hget_all n (hremove n hs) = [].
Proof.
  intros n hs. unfold hget_all, hremove. induction hs as [|h hs IH]; [reflexivity|]. cbn [filter]. destruct (name_eq h n) eqn:E; cbn [negb]; [exact IH|]. cbn [filter]. now rewrite E.
Qed.
Lemma get_kept : forall n k hs, eq_ic k n = false -> hget_all n (hremove k hs) = hget_all n hs.
Proof.
  intros n k hs H. induction hs as [|[a v] hs IH]; [reflexivity|]. unfold hremove. cbn [filter]. fold (hremove k hs). transitivity (if eq_ic a n then v :: hget_all n hs else hget_all n hs); [|symmetry; exact (get_all_cons n a v hs)]. destruct (name_eq (a, v) k) eqn:E; cbn [negb].
  - rewrite IH. destruct (eq_ic a n) eqn:E2; [|reflexivity]. exfalso. unfold name_eq in E. cbn [fst] in E. unfold eq_ic in *. apply str_eqb_spec in E. apply str_eqb_spec in E2.
    assert (X : lower k = lower n) by congruence. rewrite X, str_eqb_refl in H. discriminate.
  - now rewrite get_all_cons, IH.
Qed.
Lemma get_same_name : forall n vs, hget_all n (map (fun v => (n, v)) vs) = vs.
Proof. intros n vs. induction vs as [|v vs IH]; [reflexivity|]. cbn [map]. now rewrite get_yes, IH by apply eq_ic_refl. Qed.
Lemma get_other_name : forall n k vs, eq_ic k n = false -> hget_all n (map (fun v => (k, v)) vs) = [].
Proof. intros n k vs H. induction vs as [|v vs IH]; [reflexivity|]. cbn [map]. now rewrite get_no by assumption. Qed.
Lemma get_first : forall n hs, hget n hs = match hget_all n hs with [] => None | v :: _ => Some v end.
Proof.
  intros n hs. destruct (hget_all n hs) as [|v r] eqn:E; [now apply get_none|now apply (get_head n hs v r)].
Qed.
Lemma loose_iff : forall u, is_loose u = true <-> loose u.
Proof.
  intros u. unfold is_loose, loose, bget. destruct (lookup str_eqb (lit "lr") (u_params u)) as [v|] eqn:E; cbn [is_some]; split; intros H; try discriminate; try reflexivity.
  - exists v. apply (lookup_in str_eqb str_eqb_spec) in E. exact E.
  - destruct H as [v H]. exfalso. revert E H. generalize (u_params u). induction l as [|[k w] l IH]; intros E H; [destruct H|]. cbn [lookup] in E. destruct H as [H|H].
    + injection H as -> ->. rewrite str_eqb_refl in E. discriminate E.
    + apply IH; [|exact H]. match type of E with (if ?x then _ else _) = _ => destruct x end; [discriminate E|exact E].
Qed.
Lemma routing_routed : forall d uri routes hop, routing d = (uri, routes, hop) ->
  routed (d_target d) (d_routes d) uri (map snd routes) hop /\ routes = map (fun v => (lit "Route", v)) (map snd routes).
Proof.
  intros d uri routes hop H. unfold routing in H. destruct (d_routes d) as [|r rest]; [injection H as <- <- <-; split; [constructor|reflexivity]|].
  assert (M : forall l, map snd (map route_line l) = map bracketed l) by (intros l; rewrite map_map; reflexivity).
  assert (M2 : forall l, map route_line l = map (fun v => (lit "Route", v)) (map bracketed l)) by (intros l; rewrite map_map; reflexivity).
  destruct (is_loose r) eqn:E.
  - assert (X : uri = d_target d /\ routes = map route_line (r :: rest) /\ hop = r) by (injection H; intros; subst; repeat split; reflexivity). destruct X as (-> & -> & ->). rewrite M, <- M2. split; [|reflexivity]. constructor. now apply loose_iff.
  - assert (X : uri = r /\ routes = map route_line (rest ++ [d_target d]) /\ hop = r) by (injection H; intros; subst; rewrite map_app; repeat split; reflexivity). destruct X as (-> & -> & ->). rewrite M, <- M2. split; [|reflexivity]. constructor.
    intros L. apply loose_iff in L. congruence.
Qed.

(** ** In-dialog requests *)
Lemma prepare_inv : forall d q d' q' hop, UacSend.prepare d q = (d', Ret (q', hop)) ->
  d' = set_lcseq d (N.min 4294967295 (d_lcseq d + 1))
  /\ q_method q' = q_method q /\ q_body q' = q_body q
  /\ once q' "CSeq" (print_N (N.min 4294967295 (d_lcseq d + 1)) ++ lit " " ++ method_str (q_method q))
  /\ (forall n, eq_ic (lit "CSeq") n = false -> eq_ic (lit "Route") n = false -> hget_all n (q_headers q') = hget_all n (q_headers q))
  /\ exists uri, q_uri q' = SipU uri /\ routed (d_target d) (d_routes d) uri (hget_all (lit "Route") (q_headers q')) hop.
Proof.
  intros d q d' q' hop H. unfold UacSend.prepare, next_local_cseq in H. change u32_max with 4294967295 in H. destruct (routing d) as [[uri routes] hop0] eqn:Er. apply routing_routed in Er as [R1 R2].
  apply pair_equal_spec in H as [<- H]. match type of H with match ?x with _ => _ end = _ => destruct x as [h1|] eqn:E1; [|discriminate] end. apply push_all_eq in E1. subst h1.
  match type of H with match ?x with _ => _ end = _ => destruct x as [h2|] eqn:E2; [|discriminate] end. apply push_all_eq in E2. subst h2. unfold finish, request_new in H. destruct (MAX_BODY_SIZE <? llen (q_body q)); [discriminate|].
  injection H as <- <-. cbn [q_method q_body q_uri q_headers]. unfold once. cbn [q_headers]. split; [reflexivity|]. split; [reflexivity|]. split; [reflexivity|].
  rewrite R2. split; [|split].
  - rewrite get_all_app, get_other_name by reflexivity. rewrite app_nil_r, get_kept by reflexivity. rewrite get_all_app, get_removed. rewrite get_yes by reflexivity. reflexivity.
  - intros n N1 N2. rewrite get_all_app, get_other_name by assumption. rewrite app_nil_r, get_kept by assumption. rewrite get_all_app, get_no by assumption. rewrite get_all_nil, app_nil_r. now apply get_kept.
  - exists uri. split; [reflexivity|]. rewrite get_all_app, get_removed, get_same_name. exact R1.
Qed.

(** ** ACK *)
Lemma mk_ack_inv : forall u f invite rs sdp a, mk_ack u f invite rs sdp = Ret a ->
  a = mkReq MAck (q_uri invite)
    ([via_line f] ++ opt_line "From" (hget (lit "From") (q_headers invite)) ++ opt_line "To" (hget (lit "To") (p_headers rs))
     ++ opt_line "Call-ID" (hget (lit "Call-ID") (q_headers invite)) ++ opt_line "CSeq" (ack_cseq invite)
     ++ [max_forwards; agent_line u] ++ body_lines "application/sdp" sdp) (body_bytes sdp).
Proof.
  intros u f invite rs sdp a H. unfold mk_ack in H. match type of H with match ?x with _ => _ end = _ => destruct x as [hs|] eqn:E; [|discriminate] end.
  apply push_all_eq in E. cbn [app] in E. subst hs. unfold request_new in H. destruct (MAX_BODY_SIZE <? llen (body_bytes sdp)); [discriminate|]. now injection H as <-.
Qed.
Lemma set_via_inv : forall q v q', set_via q v = Ret q' -> q' = mkReq (q_method q) (q_uri q) (hremove (lit "Via") (q_headers q) ++ [(lit "Via", v)]) (q_body q).
Proof.
  intros q v q' H. unfold set_via in H. match type of H with match ?x with _ => _ end = _ => destruct x as [hs|] eqn:E; [|discriminate] end. apply push_all_eq in E. subst hs. now injection H as <-.
Qed.
Lemma get_opt : forall k n v r, hget_all (lit n) (opt_line k v ++ r) = (if eq_ic (lit k) (lit n) then match v with Some x => [x] | None => [] end else []) ++ hget_all (lit n) r.
Proof. intros k n v r. destruct v as [x|]; cbn [opt_line]; [|destruct (eq_ic (lit k) (lit n)); reflexivity]. unfold ln. rewrite get_all_app, get_all_cons. destruct (eq_ic (lit k) (lit n)); reflexivity. Qed.
Ltac decide_names := repeat match goal with |- context [if eq_ic ?a ?b then _ else _] => let x := eval vm_compute in (eq_ic a b) in change (eq_ic a b) with x; cbv iota end; cbn [app].
Lemma ack_reads : forall u f invite rs sdp q, q_method q = MAck -> q_body q = body_bytes sdp ->
  (forall n, eq_ic (lit "Via") n = false -> eq_ic (lit "Route") n = false ->
     hget_all n (q_headers q) = hget_all n ([via_line f] ++ opt_line "From" (hget (lit "From") (q_headers invite)) ++ opt_line "To" (hget (lit "To") (p_headers rs))
     ++ opt_line "Call-ID" (hget (lit "Call-ID") (q_headers invite)) ++ opt_line "CSeq" (ack_cseq invite)
     ++ [max_forwards; agent_line u] ++ body_lines "application/sdp" sdp)) ->
  acknowledges (ua_agent u) invite rs sdp q.
Proof.
  intros u f invite rs sdp q E1 E2 Hg.
  assert (R : forall n, eq_ic (lit "Via") (lit n) = false -> eq_ic (lit "Route") (lit n) = false -> hget_all (lit n) (q_headers q)
     = (if eq_ic (lit "From") (lit n) then match hget (lit "From") (q_headers invite) with Some x => [x] | None => [] end else [])
     ++ (if eq_ic (lit "To") (lit n) then match hget (lit "To") (p_headers rs) with Some x => [x] | None => [] end else [])
     ++ (if eq_ic (lit "Call-ID") (lit n) then match hget (lit "Call-ID") (q_headers invite) with Some x => [x] | None => [] end else [])
     ++ (if eq_ic (lit "CSeq") (lit n) then match ack_cseq invite with Some x => [x] | None => [] end else [])
     ++ hget_all (lit n) ([max_forwards; agent_line u] ++ body_lines "application/sdp" sdp)).
  { intros n N1 N2. rewrite Hg by assumption. change ([via_line f] ++ ?x) with (via_line f :: x). unfold via_line. rewrite get_no by assumption. now rewrite !get_opt. }
  clear Hg. unfold acknowledges, copies, once, never. rewrite E1, E2. split; [reflexivity|].
  assert (S : forall n, existsb (fun k => eq_ic (lit k) (lit n)) ["From"; "To"; "Call-ID"; "CSeq"]%string = true -> hget_all (lit n) ([max_forwards; agent_line u] ++ body_lines "application/sdp" sdp) = []).
  { intros n Hn. unfold max_forwards, agent_line, body_lines, zero_length, length_line, ln. cbn [existsb] in Hn. rewrite get_all_app.
    assert (X : forall k, In k ["Max-Forwards"; "User-Agent"; "Content-Type"; "Content-Length"]%string -> eq_ic (lit k) (lit n) = false).
    { intros k Hk. unfold eq_ic in *. rewrite !orb_false_r in Hn. destruct (str_eqb (lower (lit k)) (lower (lit n))) eqn:Ek; [|reflexivity]. apply str_eqb_spec in Ek. rewrite <- Ek in Hn. exfalso. cbn [In] in Hk. intuition (subst k; vm_compute in Hn; discriminate). }
    destruct sdp; cbn [app]; rewrite ?get_no by (apply X; cbn [In]; auto); reflexivity. }
  split; [rewrite R, S by reflexivity; decide_names; rewrite get_first; now destruct (hget_all (lit "From") (q_headers invite))|].
  split; [rewrite R, S by reflexivity; decide_names; rewrite get_first; now destruct (hget_all (lit "Call-ID") (q_headers invite))|].
  split; [rewrite R, S by reflexivity; decide_names; rewrite get_first; now destruct (hget_all (lit "To") (p_headers rs))|].
  split. { intros n m vs Hc. rewrite R, S by reflexivity. decide_names. rewrite app_nil_r. unfold ack_cseq. rewrite get_first, Hc. change (print_N n ++ lit " " ++ m) with (print_N n ++ 32 :: m).
    rewrite split_once_app; [reflexivity|]. apply mem_false. intros X. apply print_N_digits in X. lia. }
  repeat split; rewrite ?R by reflexivity; decide_names; unfold max_forwards, agent_line, ln; destruct sdp as [s|]; cbn [body_lines app]; unfold zero_length, length_line, ln; repeat split; rewrite ?R by reflexivity; repeat read_step; cbn [body_bytes]; try reflexivity; now rewrite llen_utf8.
Qed.
Lemma ack_error_good : forall u f invite rs q, ack_error u f invite rs = Ret q ->
  acknowledges (ua_agent u) invite rs None q /\ q_uri q = q_uri invite
  /\ hget_all (lit "Route") (q_headers q) = hget_all (lit "Route") (q_headers invite)
  /\ (hget_all (lit "Via") (q_headers invite) <> [] -> copies "Via" (q_headers invite) q).
Proof.
  intros u f invite rs q H. unfold ack_error in H. destruct (mk_ack u f invite rs None) as [a|] eqn:Ea; [|discriminate]. apply mk_ack_inv in Ea.
  match type of H with match ?x with _ => _ end = _ => destruct x as [hs|] eqn:Eh; [|discriminate] end. apply push_all_eq in Eh. subst hs. cbv zeta in H.
  match type of H with match ?x with _ => _ end = _ => destruct x as [v|] eqn:Ev; [|discriminate] end. apply set_via_inv in H. subst q. cbn [q_method q_uri q_headers q_body].
  split; [|split; [now subst a|split]].
  - apply (ack_reads u f); [now subst a|now subst a|]. intros n N1 N2. cbn [q_headers]. rewrite get_all_app, get_no by assumption. rewrite get_all_nil, app_nil_r, get_kept by assumption.
    rewrite get_all_app, get_other_name by assumption. rewrite app_nil_r, get_kept by assumption. now subst a.
  - rewrite get_all_app, get_no by reflexivity. rewrite get_all_nil, app_nil_r, get_kept by reflexivity. rewrite get_all_app, get_removed, get_same_name. reflexivity.
  - intros Hv. unfold copies. cbn [q_headers]. rewrite get_all_app, get_removed, get_yes by reflexivity. rewrite get_first in Ev. destruct (hget_all (lit "Via") (q_headers invite)) as [|x vs]; [easy|]. injection Ev as <-. reflexivity.
Qed.
Lemma ack_ok_good : forall u f f2 d invite rs sdp q, ack_ok u f f2 d invite rs sdp = Ret q ->
  acknowledges (ua_agent u) invite rs sdp q
  /\ (exists uri hop, q_uri q = SipU uri /\ routed (d_target d) (d_routes d) uri (hget_all (lit "Route") (q_headers q)) hop)
  /\ (forall v vs, hget_all (lit "Via") (q_headers invite) = v :: vs -> once q "Via" (replace_branch v (branch_of f2))).
Proof.
  intros u f f2 d invite rs sdp q H. unfold ack_ok in H. destruct (mk_ack u f invite rs sdp) as [a|] eqn:Ea; [|discriminate]. apply mk_ack_inv in Ea.
  unfold apply_routes in H. destruct (routing d) as [[uri routes] hop] eqn:Er. apply routing_routed in Er as [R1 R2].
  match type of H with match match ?x with _ => _ end with _ => _ end = _ => destruct x as [hs|] eqn:Eh; [|discriminate] end. apply push_all_eq in Eh. subst hs. unfold finish, request_new in H.
  destruct (MAX_BODY_SIZE <? llen (q_body a)); [discriminate|].
  match type of H with match ?x with _ => _ end = _ => destruct x as [v|] eqn:Ev; [|discriminate] end. apply set_via_inv in H. subst q. unfold once. cbn [q_method q_uri q_headers q_body]. rewrite R2.
  split; [|split].
  - apply (ack_reads u f); [now subst a|now subst a|]. intros n N1 N2. cbn [q_headers]. rewrite get_all_app, get_no by assumption. rewrite get_all_nil, app_nil_r, get_kept by assumption.
    rewrite get_all_app, get_other_name by assumption. rewrite app_nil_r, get_kept by assumption. now subst a.
  - exists uri, hop. split; [reflexivity|]. rewrite get_all_app, get_no by reflexivity. rewrite get_all_nil, app_nil_r, get_kept by reflexivity. rewrite get_all_app, get_removed, get_same_name. exact R1.
  - intros w vs Hv. rewrite get_all_app, get_removed, get_yes by reflexivity. rewrite get_first, Hv in Ev. injection Ev as <-. reflexivity.
Qed.

(** ** CANCEL *)
Lemma cancel_get : forall hs k, In k ["Via"; "From"; "To"; "Call-ID"; "Route"]%string ->
  spelled ["Via"; "From"; "To"; "Call-ID"; "Route"]%string hs -> hget_all (lit k) (cancel_lines hs) = hget_all (lit k) hs.
Proof.
  intros hs k Hk Sp. induction hs as [|[n v] hs IH]; [reflexivity|]. assert (Sp' : spelled ["Via"; "From"; "To"; "Call-ID"; "Route"]%string hs) by (intros a b c Ha; apply (Sp a b c); now right).
  unfold cancel_lines. cbn [flat_map]. fold (cancel_lines hs). rewrite get_all_app, (IH Sp').
  transitivity (if eq_ic n (lit k) then v :: hget_all (lit k) hs else hget_all (lit k) hs); [|symmetry; exact (get_all_cons (lit k) n v hs)].
  destruct (eq_ic n (lit k)) eqn:E.
  - assert (En := Sp n v k (or_introl eq_refl) Hk E). subst n.
    assert (X : existsb (str_eqb (lit k)) [lit "Via"; lit "From"; lit "To"; lit "Call-ID"; lit "Route"] = true).
    { apply existsb_exists. exists (lit k). split; [|apply str_eqb_refl]. cbn [In] in *. intuition (subst; auto). }
    rewrite X. rewrite get_yes by exact E. reflexivity.
  - destruct (existsb (str_eqb n) [lit "Via"; lit "From"; lit "To"; lit "Call-ID"; lit "Route"]); [rewrite get_no by exact E; reflexivity|].
    destruct (str_eqb n (lit "CSeq")); [|reflexivity]. destruct (split_once 32 v) as [[a b]|]; [|reflexivity]. rewrite get_no; [reflexivity|]. cbn [In] in Hk. intuition (subst k; reflexivity).
Qed.
Lemma cancel_cseq : forall hs m n, spelled ["CSeq"]%string hs -> hget_all (lit "CSeq") hs = [print_N n ++ lit " " ++ m] -> hget_all (lit "CSeq") (cancel_lines hs) = [print_N n ++ lit " CANCEL"].
Proof.
  intros hs m n Sp. assert (G : forall hs, spelled ["CSeq"]%string hs -> hget_all (lit "CSeq") (cancel_lines hs) = flat_map (fun v => match split_once 32 v with Some (k, _) => [k ++ lit " CANCEL"] | None => [] end) (hget_all (lit "CSeq") hs)).
  { clear. intros hs Sp. induction hs as [|[a v] hs IH]; [reflexivity|]. assert (Sp' : spelled ["CSeq"]%string hs) by (intros x y z Hx; apply (Sp x y z); now right).
    unfold cancel_lines. cbn [flat_map]. fold (cancel_lines hs). rewrite get_all_app, (IH Sp').
    assert (X : hget_all (lit "CSeq") ((a, v) :: hs) = if eq_ic a (lit "CSeq") then v :: hget_all (lit "CSeq") hs else hget_all (lit "CSeq") hs) by exact (get_all_cons (lit "CSeq") a v hs).
    transitivity (flat_map (fun v => match split_once 32 v with Some (k, _) => [k ++ lit " CANCEL"] | None => [] end) (if eq_ic a (lit "CSeq") then v :: hget_all (lit "CSeq") hs else hget_all (lit "CSeq") hs)); [|now rewrite <- X].
    destruct (eq_ic a (lit "CSeq")) eqn:E.
    - assert (En := Sp a v "CSeq"%string (or_introl eq_refl) (or_introl eq_refl) E). subst a. replace (existsb (str_eqb (lit "CSeq")) _) with false by reflexivity. replace (str_eqb (lit "CSeq") (lit "CSeq")) with true by reflexivity.
      cbn [flat_map]. destruct (split_once 32 v) as [[k m]|]; [|reflexivity]. rewrite get_yes by reflexivity. reflexivity.
    - destruct (existsb (str_eqb a) [lit "Via"; lit "From"; lit "To"; lit "Call-ID"; lit "Route"]) eqn:E2; [now rewrite get_no by exact E|].
      destruct (str_eqb a (lit "CSeq")) eqn:E3; [|reflexivity]. apply str_eqb_spec in E3. subst a. discriminate E. }
  intros Hc. rewrite (G hs Sp), Hc. cbn [flat_map]. change (print_N n ++ lit " " ++ m) with (print_N n ++ 32 :: m). rewrite split_once_app; [reflexivity|]. apply mem_false. intros X. apply print_N_digits in X. lia.
Qed.
Lemma cancel_inv : forall invite q, cancel_of invite = Ret q -> q = mkReq MCancel (q_uri invite) (cancel_lines (q_headers invite) ++ [max_forwards; zero_length]) [].
Proof.
  intros invite q H. unfold cancel_of in H. match type of H with match ?x with _ => _ end = _ => destruct x as [hs|] eqn:Eh; [|discriminate] end. apply push_all_eq in Eh. cbn [app] in Eh. subst hs. unfold request_new in H.
  destruct (MAX_BODY_SIZE <? llen []); [discriminate|]. now injection H as <-.
Qed.
(** a CANCEL carries nothing else *)
Lemma cancel_names : forall hs n v, In (n, v) (cancel_lines hs) -> In n (map lit ["Via"; "From"; "To"; "Call-ID"; "Route"; "CSeq"]%string).
Proof.
  intros hs n v H. unfold cancel_lines in H. apply in_flat_map in H as ([a w] & _ & H). destruct (existsb (str_eqb a) [lit "Via"; lit "From"; lit "To"; lit "Call-ID"; lit "Route"]) eqn:E.
  - destruct H as [[= <- <-]|[]]. apply existsb_exists in E as (x & Hx & E). apply str_eqb_spec in E. subst x. cbn [map In] in *. tauto.
  - destruct (str_eqb a (lit "CSeq")); [|destruct H]. destruct (split_once 32 w) as [[k m]|]; [|destruct H]. destruct H as [[= <- <-]|[]]. cbn [map In]. tauto.
Qed.

(** ** The shared dialog *)
(** numbers handed out but not yet sent *)
Definition pending (ts : list (N * refresh)) : list N :=
  flat_map (fun e => match snd e with Reserved c => [sh_cseq c + 1] | InFlight _ => [] end) ts.
Definition world_inv (c0 : N) (w : world) : Prop :=
  c0 <= sh_cseq (w_dialog w) /\ NoDup (keys (w_tasks w))
  /\ NoDup (pending (w_tasks w) ++ w_wire w)
  /\ (forall n, In n (pending (w_tasks w) ++ w_wire w) -> c0 < n <= sh_cseq (w_dialog w))
  /\ (forall t c, In (t, InFlight c) (w_tasks w) -> sh_cseq c <= sh_cseq (w_dialog w)).
Lemma pending_in : forall t c ts, In (t, Reserved c) ts -> In (sh_cseq c + 1) (pending ts).
Proof. intros t c ts H. apply in_flat_map. exists (t, Reserved c). split; [exact H|now left]. Qed.
Lemma neqb_spec : forall a b, N.eqb a b = true <-> a = b. Proof. apply N.eqb_eq. Qed.
Lemma insert_split : forall (t : N) (r r0 : refresh) ts, NoDup (keys ts) -> lookup N.eqb t ts = Some r0 ->
  exists a b, ts = a ++ (t, r0) :: b /\ remove_key N.eqb t ts = a ++ b.
Proof.
  intros t r r0 ts. induction ts as [|[k v] ts IH]; intros Nd L; [discriminate|]. cbn [lookup] in L. cbn [keys map] in Nd. inversion Nd as [|? ? N1 N2]; subst.
  destruct (N.eqb t k) eqn:E.
  - apply N.eqb_eq in E. subst k. injection L as ->. exists [], ts. split; [reflexivity|]. unfold remove_key. cbn [filter fst]. rewrite N.eqb_refl. cbn [negb app]. apply (remove_key_notin N.eqb neqb_spec). exact N1.
  - destruct (IH N2 L) as (a & b & E1 & E2). exists ((k, v) :: a), b. rewrite E1. split; [reflexivity|]. unfold remove_key in *. cbn [filter fst app]. rewrite E. cbn [negb]. f_equal. rewrite <- E1. exact E2.
Qed.
Lemma pending_app : forall a b, pending (a ++ b) = pending a ++ pending b.
Proof. intros. apply flat_map_app. Qed.
Lemma world_step : forall c0 w a, quiet a -> world_inv c0 w -> sh_cseq (w_dialog w) < 4294967295 -> world_inv c0 (act w a).
Proof.
  intros c0 w a Q (I1 & I2 & I3 & I4 & I5) Hb. assert (B : sh_cseq (bump (w_dialog w)) = sh_cseq (w_dialog w) + 1) by (unfold bump, u32_max; cbn [sh_cseq]; lia).
  destruct a as [t|t|t tag| | |t]; cbn [act quiet] in *; try contradiction.
  - unfold task. destruct (lookup N.eqb t (w_tasks w)) as [r|] eqn:L; [exact (conj I1 (conj I2 (conj I3 (conj I4 I5))))|]. unfold world_inv. cbn [w_dialog w_tasks w_wire]. rewrite B. unfold put_task.
    apply (lookup_none N.eqb neqb_spec) in L. assert (Ei : insert N.eqb t (Reserved (w_dialog w)) (w_tasks w) = (t, Reserved (w_dialog w)) :: w_tasks w) by (unfold insert; rewrite (remove_key_notin N.eqb neqb_spec) by exact L; reflexivity).
    rewrite Ei. split; [lia|]. split; [cbn [keys map]; constructor; [exact L|exact I2]|]. cbn [pending flat_map snd app]. fold (pending (w_tasks w)). split; [|split].
    + constructor; [|exact I3]. intros X. apply I4 in X. lia.
    + intros n [<-|X]; [lia|]. apply I4 in X. lia.
    + intros k c [X|X]; [discriminate|]. apply I5 in X. lia.
  - unfold task. destruct (lookup N.eqb t (w_tasks w)) as [[c|c]|] eqn:L; try exact (conj I1 (conj I2 (conj I3 (conj I4 I5)))). unfold world_inv. cbn [w_dialog w_tasks w_wire].
    assert (Hp : In (sh_cseq c + 1) (pending (w_tasks w))) by (apply (pending_in t), (lookup_in N.eqb neqb_spec), L).
    assert (Hc : sh_cseq (bump c) = sh_cseq c + 1). { unfold bump, u32_max. cbn [sh_cseq]. specialize (I4 (sh_cseq c + 1) (in_or_app _ _ _ (or_introl Hp))). lia. }
    rewrite Hc. destruct (insert_split t (InFlight (bump c)) _ _ I2 L) as (a & b & E1 & E2). unfold put_task, insert. rewrite E2.
    rewrite E1 in *. rewrite pending_app in *. cbn [pending flat_map snd app] in *. fold (pending b) in *. fold (pending a) in *. rewrite <- app_assoc in *. cbn [app] in *. rewrite pending_app, <- !app_assoc in *. 
    split; [exact I1|]. split; [|split; [|split]].
    + unfold keys in *. rewrite map_app in I2. cbn [map fst] in *. rewrite map_app. apply NoDup_remove in I2 as [J1 J2]. now constructor.
    + apply NoDup_remove in I3 as [J1 J2]. rewrite app_assoc. apply NoDup_Add with (a := sh_cseq c + 1) (l := (pending a ++ pending b) ++ w_wire w); [apply Add_app|]. rewrite <- app_assoc. now split.
    + intros n Hn. apply I4. rewrite !in_app_iff in *. cbn [In] in *. rewrite in_app_iff. tauto.
    + intros k x [X|X]; [|apply (I5 k); rewrite in_app_iff in *; cbn [In]; tauto]. injection X as <- <-. rewrite Hc. apply I4. rewrite in_app_iff. cbn [In]. tauto.
  - unfold task. destruct (lookup N.eqb t (w_tasks w)) as [[c|c]|] eqn:L; try exact (conj I1 (conj I2 (conj I3 (conj I4 I5)))). unfold world_inv. cbn [w_dialog w_tasks w_wire].
    pose proof (I5 t c (lookup_in N.eqb neqb_spec _ _ _ L)) as Hc.
    assert (Hd : sh_cseq (if sh_cseq (w_dialog w) <=? sh_cseq c then mkShared (sh_cseq c) tag else w_dialog w) = sh_cseq (w_dialog w)) by (destruct (sh_cseq (w_dialog w) <=? sh_cseq c) eqn:E; cbn [sh_cseq]; lia).
    rewrite Hd. destruct (insert_split t (InFlight c) _ _ I2 L) as (a & b & E1 & E2). unfold drop_task. rewrite E2. rewrite E1 in *. rewrite pending_app in *. cbn [pending flat_map snd app] in *. fold (pending b) in *. fold (pending a) in *.
    split; [exact I1|]. split; [|split; [|split]].
    + unfold keys in *. rewrite map_app in *. cbn [map fst] in I2. now apply NoDup_remove in I2 as [J1 _].
    + exact I3.
    + exact I4.
    + intros k x X. apply (I5 k). rewrite in_app_iff in *. cbn [In]. tauto.
  - unfold world_inv. cbn [w_dialog w_tasks w_wire]. rewrite B. split; [lia|]. split; [exact I2|]. split; [|split].
    + apply NoDup_Add with (a := sh_cseq (w_dialog w) + 1) (l := pending (w_tasks w) ++ w_wire w); [apply Add_app|]. split; [exact I3|]. intros X. apply I4 in X. lia.
    + intros n Hn. rewrite in_app_iff in Hn. cbn [In] in Hn. destruct Hn as [X|[<-|X]]; [|lia|]; specialize (I4 n); rewrite in_app_iff in I4; lia || (assert (c0 < n <= sh_cseq (w_dialog w)) by tauto; lia).
    + intros k c X. apply I5 in X. lia.
Qed.
Lemma act_bound : forall w a, quiet a -> forall c0, world_inv c0 w -> sh_cseq (w_dialog w) < 4294967295 -> sh_cseq (w_dialog (act w a)) <= sh_cseq (w_dialog w) + 1.
Proof.
  intros w a Q c0 (_ & _ & _ & _ & I5) Hb. assert (B : sh_cseq (bump (w_dialog w)) = sh_cseq (w_dialog w) + 1) by (unfold bump, u32_max; cbn [sh_cseq]; lia).
  destruct a as [t|t|t tag| | |t]; cbn [act quiet] in *; try contradiction; unfold task; try (destruct (lookup N.eqb t (w_tasks w)) as [[c|c]|] eqn:L); cbn [w_dialog]; rewrite ?B; try lia.
  pose proof (I5 t c (lookup_in N.eqb neqb_spec _ _ _ L)). destruct (sh_cseq (w_dialog w) <=? sh_cseq c); cbn [sh_cseq]; lia.
Qed.
Lemma world_run : forall l c0 w, Forall quiet l -> world_inv c0 w -> sh_cseq (w_dialog w) + llen l <= 4294967295 -> world_inv c0 (acts w l).
Proof.
  induction l as [|a l IH]; intros c0 w Q I Hb; [exact I|]. inversion Q as [|? ? Q1 Q2]; subst. rewrite llen_cons in Hb. unfold acts in *. cbn [fold_left].
  apply IH; [exact Q2|apply world_step; [exact Q1|exact I|lia]|]. pose proof (act_bound w a Q1 c0 I ltac:(lia)). lia.
Qed.

(** ** The session timer and the retries *)
Lemma timer_good : forall mx l c pre, mx <= 4294967295 -> failures pre = c -> c < N.max 1 mx ->
  forall i s, nth_error (timer_run mx c l) i = Some s ->
  (exists t, nth_error l i = Some t /\ s = match t with
     | RefreshOk => Healthy | RefreshFailed true => Stopped_gone
     | RefreshFailed false => let k := failures (rev (firstn (S i) l) ++ pre) in if N.max 1 mx <=? k then Stopped_exhausted k else Failing k end)
  /\ (stopped s = true -> nth_error (timer_run mx c l) (S i) = None)
  /\ (stopped s = false -> (S i < List.length l)%nat -> nth_error (timer_run mx c l) (S i) <> None).
Proof.
  intros mx l. induction l as [|t l IH]; intros c pre Hm Hp Hc i s H; [destruct i; discriminate|]. cbn [timer_run] in H |- *. unfold u32_max in *.
  assert (St : forall r, nth_error (timer_run mx r l) 0 = None -> (0 < List.length l)%nat -> False).
  { intros r X Y. destruct l as [|[|g] l]; [cbn in Y; lia| |]; cbn [timer_run] in X; cbv zeta in X; [cbn [nth_error] in X; discriminate X|]. destruct g; [cbn [nth_error] in X; discriminate X|]. match type of X with context [if ?b then _ else _] => destruct b end; cbn [nth_error] in X; discriminate X. }
  destruct t as [|g].
  - destruct i as [|i].
    + cbn in H. injection H as <-. split; [exists RefreshOk; split; reflexivity|]. split; [discriminate|]. intros _ Hl. cbn [List.length] in Hl. cbn [nth_error]. intros X. apply (St 0 X). lia.
    + change (nth_error (timer_run mx 0 l) i = Some s) in H. destruct (IH 0 (RefreshOk :: pre) Hm eq_refl ltac:(lia) i s H) as ((t & T1 & T2) & J2 & J3). split; [|split].
      * exists t. split; [exact T1|]. rewrite T2. destruct t as [|[]]; try reflexivity. cbv zeta. cbn [firstn rev]. rewrite <- app_assoc. reflexivity.
      * exact J2.
      * intros S1 S2. apply J3; [exact S1|]. cbn [List.length] in S2. lia.
  - cbv zeta in *. replace (N.min 4294967295 (c + 1)) with (c + 1) in * by lia. destruct g.
    + destruct i as [|i]; [|destruct i; discriminate H]. injection H as <-. split; [exists (RefreshFailed true); split; reflexivity|]. split; [reflexivity|discriminate].
    + destruct (N.max 1 mx <=? c + 1) eqn:E.
      * destruct i as [|i]; [|destruct i; discriminate H]. injection H as <-. split; [|split; [reflexivity|discriminate]]. exists (RefreshFailed false). split; [reflexivity|]. cbn [firstn rev app failures]. rewrite Hp. replace (1 + c) with (c + 1) by lia. now rewrite E.
      * destruct i as [|i].
        -- injection H as <-. split; [|split; [discriminate|]].
           ++ exists (RefreshFailed false). split; [reflexivity|]. cbn [firstn rev app failures]. rewrite Hp. replace (1 + c) with (c + 1) by lia. now rewrite E.
           ++ intros _ Hl. cbn [List.length] in Hl. cbn [nth_error]. intros X. apply (St _ X). lia.
        -- change (nth_error (timer_run mx (c + 1) l) i = Some s) in H. destruct (IH (c + 1) (RefreshFailed false :: pre) Hm ltac:(cbn [failures]; lia) ltac:(lia) i s H) as ((t & T1 & T2) & J2 & J3). split; [|split].
           ++ exists t. split; [exact T1|]. rewrite T2. destruct t as [|[]]; try reflexivity. cbv zeta. cbn [firstn rev]. rewrite <- app_assoc. reflexivity.
           ++ exact J2.
           ++ intros S1 S2. apply J3; [exact S1|]. cbn [List.length] in S2. lia.
Qed.
Lemma retries_eq : forall mx rs a, retries mx a rs = 1 + N.min (mx - a) (challenges rs).
Proof.
  intros mx rs. induction rs as [|c rs IH]; intros a; cbn [retries challenges]; [lia|]. unfold challenged. destruct ((c =? 401) || (c =? 407)); cbn [andb]; [|lia]. destruct (a <? mx) eqn:E; [rewrite IH|]; lia.
Qed.

(** ** Service-Route *)
Lemma name_alone : forall u, proxy_uri u -> parse_name_addr (bracketed u) = Some (mkNa None (ASip u) []) /\ bracketed u <> [] /\ trim (bracketed u) = bracketed u.
Proof.
  intros u ((P & Hu) & Hh & Hc). assert (Tb : trim (bracketed u) = bracketed u).
  { apply trim_by_id. split; [reflexivity|]. unfold bracketed. rewrite !rev_app_distr. reflexivity. }
  split; [|split; [discriminate|exact Tb]].
  unfold parse_name_addr. rewrite Tb. unfold bracketed. change (lit "<" ++ u_raw u ++ lit ">") with (60 :: (u_raw u ++ lit ">")). cbn iota.
  assert (E0 : scan_to 60 false false (60 :: (u_raw u ++ lit ">")) = Some ([], u_raw u ++ lit ">")) by reflexivity. rewrite E0. cbn iota beta.
  change (lit ">") with [62]. rewrite UacReads.scan_plain; [|intros c Hx; destruct (Hu c Hx) as (A & B & _); now split|discriminate].
  assert (T : trim (u_raw u) = u_raw u). { apply trim_by_id, no_edge_all. apply forallb_forall. intros c Hx. destruct (Hu c Hx) as (_ & _ & ->). reflexivity. }
  rewrite T, P. change (na_params (trim [])) with (Some (@nil (str * option str))). cbn iota. change (trim []) with (@nil N). cbn iota.
  replace (any_without_headers (ASip u)) with (ASip u); [reflexivity|]. cbn. destruct u as [raw sips user host port ps hs]. cbn in Hh. subst hs. reflexivity.
Qed.
Lemma scan_listed : forall us u cur, Forall proxy_uri (u :: us) -> cur = [] \/ cur = [32] ->
  exists parts, scan_commas false false cur (listed (map bracketed (u :: us))) = (parts, false) /\ map trim parts = map bracketed (u :: us).
Proof.
  induction us as [|w us IH]; intros u cur F Hc; inversion F as [|? ? Pu F']; subst.
  - destruct (name_alone u Pu) as (_ & _ & T). destruct Pu as ((_ & Hu) & _ & H44). cbn [map listed]. exists [rev cur ++ bracketed u]. split.
    + rewrite <- (app_nil_r (bracketed u)) at 1. rewrite AuthProofs.scan_plain.
      * cbn [scan_commas]. now rewrite rev_app_distr, rev_involutive.
      * apply mem_false. unfold bracketed. rewrite !in_app_iff. intros [[X|[]]|[X|[X|[]]]]; try discriminate X. now apply Hu in X.
      * apply mem_false. unfold bracketed. rewrite !in_app_iff. intros [[X|[]]|[X|[X|[]]]]; try discriminate X. contradiction.
    + cbn [map]. f_equal. destruct Hc as [-> | ->]; cbn [rev app]; rewrite ?trim_cons32; exact T.
  - destruct (IH w [32] F' (or_intror eq_refl)) as (parts & E1 & E2). destruct (name_alone u Pu) as (_ & _ & T). destruct Pu as ((_ & Hu) & _ & H44).
    exists ((rev cur ++ bracketed u) :: parts). split.
    + change (listed (map bracketed (u :: w :: us))) with (bracketed u ++ lit ", " ++ listed (map bracketed (w :: us))). rewrite AuthProofs.scan_plain.
      * change (lit ", " ++ listed (map bracketed (w :: us))) with (44 :: 32 :: listed (map bracketed (w :: us))). cbn [scan_commas N.eqb Pos.eqb andb negb]. rewrite E1. now rewrite rev_app_distr, rev_involutive.
      * apply mem_false. unfold bracketed. rewrite !in_app_iff. intros [[X|[]]|[X|[X|[]]]]; try discriminate X. now apply Hu in X.
      * apply mem_false. unfold bracketed. rewrite !in_app_iff. intros [[X|[]]|[X|[X|[]]]]; try discriminate X. contradiction.
    + cbn [map] in *. rewrite E2. f_equal. destruct Hc as [-> | ->]; cbn [rev app]; rewrite ?trim_cons32; exact T.
Qed.
Definition as_entry (u : sip_uri) : name_addr := mkNa None (ASip u) [].
Lemma parts_read : forall us, Forall proxy_uri us -> service_parts (map bracketed us) = Some (map as_entry us).
Proof.
  induction us as [|u us IH]; intros F; [reflexivity|]. inversion F as [|? ? Pu F']; subst. destruct (name_alone u Pu) as (P & Hn & T). cbn [map service_parts]. rewrite T, (IH F'). revert P Hn. destruct (bracketed u) as [|c r]; intros P Hn; [easy|]. now rewrite P.
Qed.
Lemma listed_read : forall us, us <> [] -> Forall proxy_uri us -> llen us <= 50 -> split_quoted_commas MAX_ROUTES (listed (map bracketed us)) = Some (map bracketed us).
Proof.
  intros [|u us] Hn F L; [easy|]. destruct (scan_listed us u [] F (or_introl eq_refl)) as (parts & E1 & E2). unfold split_quoted_commas. rewrite E1. unfold nonblank_trimmed. rewrite E2.
  assert (X : filter (fun p : list N => match p with [] => false | _ :: _ => true end) (map bracketed (u :: us)) = map bracketed (u :: us)).
  { generalize (u :: us). intros l. induction l as [|a l IH]; [reflexivity|]. cbn [map filter]. rewrite IH. reflexivity. }
  rewrite X. unfold llen in *. rewrite map_length. unfold MAX_ROUTES. replace (50 <? N.of_nat (List.length (u :: us))) with false by lia. reflexivity.
Qed.
Lemma values_read : forall gs, Forall (fun g => g <> [] /\ Forall proxy_uri g) gs -> llen (concat gs) <= 50 -> service_values (map (fun g => listed (map bracketed g)) gs) = Some (map as_entry (concat gs)).
Proof.
  induction gs as [|g gs IH]; intros F L; [reflexivity|]. inversion F as [|? ? [Hn Hg] F']; subst. cbn [concat] in L. unfold llen in L. rewrite app_length in L. cbn [map service_values]. rewrite listed_read by (assumption || (unfold llen; lia)).
  rewrite (parts_read g Hg), IH by (assumption || (unfold llen; lia)). cbn [concat]. now rewrite map_app.
Qed.
Lemma before_route : forall rl hs, Forall (fun e => fst e = lit "Route") rl ->
  hget_all (lit "Route") (before_first_route rl hs) = map snd rl ++ hget_all (lit "Route") hs
  /\ forall n, eq_ic (lit "Route") n = false -> hget_all n (before_first_route rl hs) = hget_all n hs.
Proof.
  intros rl hs F. assert (R : hget_all (lit "Route") rl = map snd rl /\ forall n, eq_ic (lit "Route") n = false -> hget_all n rl = []).
  { induction F as [|[k v] rl E F [I1 I2]]; [split; reflexivity|]. cbn [fst] in E. subst k. split; [now rewrite get_yes, I1 by reflexivity|]. intros n Hn. rewrite get_no by exact Hn. now apply I2. }
  destruct R as [R1 R2]. induction hs as [|[k v] hs [I1 I2]]; cbn [before_first_route].
  - split; [now rewrite R1, app_nil_r|exact R2].
  - destruct (name_eq (k, v) (lit "Route")) eqn:E.
    + split; [rewrite get_all_app, R1; reflexivity|]. intros n Hn. rewrite get_all_app, R2 by exact Hn. reflexivity.
    + split.
      * unfold name_eq in E. cbn [fst] in E. transitivity (hget_all (lit "Route") (before_first_route rl hs)); [exact (get_no (lit "Route") k v (before_first_route rl hs) E)|]. rewrite I1. f_equal. symmetry. exact (get_no (lit "Route") k v hs E).
      * intros n Hn. transitivity (if eq_ic k n then v :: hget_all n hs else hget_all n hs); [|symmetry; exact (get_all_cons n k v hs)]. rewrite <- (I2 n Hn). exact (get_all_cons n k v (before_first_route rl hs)).
Qed.
Lemma apply_inv : forall l q q', apply_service_route (Some l) q = Ret q' ->
  q_method q' = q_method q /\ q_uri q' = q_uri q /\ q_body q' = q_body q
  /\ hget_all (lit "Route") (q_headers q') = map (fun na => lit "<" ++ any_text (na_uri na) ++ lit ">") l ++ hget_all (lit "Route") (q_headers q)
  /\ forall n, eq_ic (lit "Route") n = false -> hget_all n (q_headers q') = hget_all n (q_headers q).
Proof.
  intros l q q' H. unfold apply_service_route in H. cbv zeta in H. set (vs := map (fun na => lit "<" ++ any_text (na_uri na) ++ lit ">") l) in *.
  match type of H with (if ?b then _ else _) = _ => destruct b; [discriminate|] end. unfold hfrom_vec in H. match type of H with match (if ?b then _ else _) with _ => _ end = _ => destruct b; [discriminate|] end.
  injection H as <-. cbn [q_method q_uri q_body q_headers]. destruct (before_route (map (fun v => (lit "Route", v)) vs) (q_headers q)) as [B1 B2]; [apply Forall_forall; intros e He; apply in_map_iff in He as (v & <- & _); reflexivity|].
  repeat split; [|exact B2]. rewrite B1, map_map. cbn [snd]. now rewrite map_id.
Qed.

(** ** Filling in the local address *)
Lemma strip_none : forall p s, (forall r, s <> p ++ r) -> strip_prefix p s = None.
Proof.
  intros p s H. destruct (strip_prefix p s) as [r|] eqn:E; [|reflexivity]. exfalso. assert (S : starts_with p s = true) by (unfold starts_with; now rewrite E). apply starts_with_spec in S as (r' & S). now apply (H r').
Qed.
Lemma find_branch : forall pre x, ~ In 61 pre -> find_sub (lit "branch=") (pre ++ lit "branch=" ++ x) = Some (pre, x).
Proof.
  induction pre as [|c pre IH]; intros x H; [reflexivity|]. cbn [app]. change (c :: pre ++ lit "branch=" ++ x) with ((c :: pre) ++ lit "branch=" ++ x).
  assert (N : strip_prefix (lit "branch=") ((c :: pre) ++ lit "branch=" ++ x) = None).
  { apply strip_none. intros r E. assert (E2 : nth_error ((c :: pre) ++ lit "branch=" ++ x) 6 = Some 61) by (rewrite E; reflexivity). clear E. rename E2 into E.
    destruct (Nat.lt_ge_cases 6 (List.length (c :: pre))) as [L|L].
    - rewrite nth_error_app1 in E by exact L. apply nth_error_In in E. contradiction.
    - rewrite nth_error_app2 in E by exact L. cbn [List.length] in *. remember (6 - S (List.length pre))%nat as k. assert (K : (k < 6)%nat) by lia. clear Heqk. do 6 (destruct k as [|k]; [discriminate E|]). lia. }
  transitivity (match find_sub (lit "branch=") (pre ++ lit "branch=" ++ x) with Some (a, b) => Some (c :: a, b) | None => None end).
  - change ((c :: pre) ++ lit "branch=" ++ x) with (c :: (pre ++ lit "branch=" ++ x)) in *. generalize dependent (pre ++ lit "branch=" ++ x). intros l N. cbn [find_sub]. rewrite N. reflexivity.
  - rewrite IH; [reflexivity|]. intros X. apply H. now right.
Qed.
Lemma find_branch_none : forall x, ~ In 61 x -> find_sub (lit "branch=") x = None.
Proof. intros x H. apply find_sub_none. intros a b E. apply H. rewrite E, !in_app_iff. right. left. cbn. tauto. Qed.
Lemma branch_found : forall pre b post, ~ In 61 pre -> branch_token b -> (post = [] \/ exists p, post = 59 :: p) -> ~ In 61 post ->
  via_branch_text (pre ++ lit "branch=" ++ b ++ post) = Some b.
Proof.
  intros pre b post H1 (H2 & H3) H4 H5. unfold via_branch_text. rewrite find_branch by exact H1. cbv zeta. rewrite find_branch_none.
  2: { intros X. apply in_app_or in X as [X|X]; [|contradiction]. now apply H3 in X as (_ & X & _). }
  assert (M : mem 59 b = false) by (apply mem_false; intros X; now apply H3 in X as (X & _)).
  assert (T : trim b = b). { apply trim_by_id, no_edge_all. apply forallb_forall. intros c Hc. apply H3 in Hc as (_ & _ & ->). reflexivity. }
  assert (E : match split_once 59 (b ++ post) with Some (x, _) => x | None => b ++ post end = b).
  { destruct H4 as [-> | (p & ->)].
    - rewrite app_nil_r. destruct (split_once 59 b) as [[x y]|] eqn:Es; [|reflexivity]. exfalso. apply split_once_some in Es as [Es _]. apply mem_false in M. apply M. rewrite Es. apply in_or_app. right. now left.
    - now rewrite split_once_app. }
  rewrite E, T. destruct b; [easy|reflexivity].
Qed.
Lemma set_first_once : forall n v hs old, hget_all n hs = [old] -> exists hs', set_first n v hs = Some hs' /\ hget_all n hs' = [v] /\ forall k, eq_ic n k = false -> hget_all k hs' = hget_all k hs.
Proof.
  intros n v hs old. induction hs as [|[k w] hs IH]; intros H; [discriminate|]. assert (X : hget_all n ((k, w) :: hs) = if eq_ic k n then w :: hget_all n hs else hget_all n hs) by exact (get_all_cons n k w hs). apply (eq_trans (eq_sym X)) in H. clear X.
  cbn [set_first]. unfold name_eq. cbn [fst]. destruct (eq_ic k n) eqn:E.
  - exists ((k, v) :: hs). split; [reflexivity|]. injection H as -> H. split; [transitivity (v :: hget_all n hs); [exact (get_yes n k v hs E)|now rewrite H]|]. intros m Hm.
    assert (Ek : eq_ic k m = false). { unfold eq_ic in *. apply str_eqb_spec in E. now rewrite E. }
    transitivity (hget_all m hs); [exact (get_no m k v hs Ek)|symmetry; exact (get_no m k _ hs Ek)].
  - destruct (IH H) as (hs' & S1 & S2 & S3). rewrite S1. exists ((k, w) :: hs'). split; [reflexivity|]. split; [transitivity (hget_all n hs'); [exact (get_no n k w hs' E)|exact S2]|]. intros m Hm.
    transitivity (if eq_ic k m then w :: hget_all m hs' else hget_all m hs'); [exact (get_all_cons m k w hs')|]. rewrite (S3 m Hm). symmetry. exact (get_all_cons m k w hs).
Qed.
Lemma set_once : forall n v q old, once q n old -> validate_header_name (lit n) = None -> validate_header_value v = None ->
  exists hs, hset_or_push (q_headers q) (lit n) v = Ok hs /\ hget_all (lit n) hs = [v] /\ forall k, eq_ic (lit n) k = false -> hget_all k hs = hget_all k (q_headers q).
Proof.
  intros n v q old H V1 V2. destruct (set_first_once (lit n) v (q_headers q) old H) as (hs & S1 & S2 & S3). exists hs. unfold hset_or_push. rewrite V1, V2, S1. now repeat split.
Qed.
Lemma find_close : forall a p, ~ In 62 a -> find_sub (lit ">;") (a ++ lit ">;" ++ p) = Some (a, p).
Proof.
  induction a as [|c a IH]; intros p H; [reflexivity|]. cbn [app find_sub]. assert (N : strip_prefix (lit ">;") (c :: a ++ lit ">;" ++ p) = None). { apply strip_none. intros r E. injection E as -> _. apply H. now left. }
  rewrite N, IH; [reflexivity|]. intros X. apply H. now right.
Qed.
Lemma find_close_none : forall a, ~ In 62 a -> find_sub (lit ">;") (a ++ lit ">") = None.
Proof.
  induction a as [|c a IH]; intros H; [reflexivity|]. cbn [app find_sub]. assert (N : strip_prefix (lit ">;") (c :: a ++ lit ">") = None). { apply strip_none. intros r E. injection E as -> _. apply H. now left. }
  rewrite N, IH; [reflexivity|]. intros X. apply H. now right.
Qed.
