(** How the From header of a built request is read back. *)
From Coq Require Import Arith NArith Bool String List Lia ZifyBool ZifyN ZifyNat.
Import ListNotations.
From Verif Require Import Base BaseFacts NumFacts Headers HeadersProofs Method Text TextFacts Uri UriProofs Msg Message AnyUri Dialog Auth Uac UacSend UacSpec UacProofs.
Open Scope N_scope.
Open Scope list_scope.

Lemma scan_escaped : forall stop d r, scan_to stop true false (escape_quoted d ++ 34 :: r)
  = match scan_to stop false false r with Some (a, b) => Some (escape_quoted d ++ 34 :: a, b) | None => None end.
Proof.
  intros stop d r. induction d as [|c d IH].
  - cbn. destruct (scan_to stop false false r) as [[a b]|]; reflexivity.
  - unfold escape_quoted in *. cbn [flat_map]. destruct ((c =? 92) || (c =? 34)) eqn:E.
    + cbn [app scan_to]. cbn [N.eqb Pos.eqb andb]. rewrite IH. destruct (scan_to stop false false r) as [[a b]|]; reflexivity.
    + apply orb_false_elim in E as [E1 E2]. cbn [app scan_to]. rewrite E1, E2. cbn [andb]. rewrite IH. destruct (scan_to stop false false r) as [[a b]|]; reflexivity.
Qed.
Lemma scan_plain : forall stop a r, (forall c, In c a -> c <> 34 /\ c <> stop) -> stop <> 34 -> scan_to stop false false (a ++ stop :: r) = Some (a, r).
Proof.
  intros stop a r H Hs. induction a as [|c a IH].
  - cbn [app scan_to]. cbn [andb]. apply N.eqb_neq in Hs. rewrite Hs, N.eqb_refl. reflexivity.
  - destruct (H c (or_introl eq_refl)) as [H1 H2]. cbn [app scan_to andb]. apply N.eqb_neq in H1, H2. rewrite H1, H2. rewrite IH; [reflexivity|]. intros x Hx. apply H. now right.
Qed.
Lemma edge_app : forall p (a b : str), a <> [] -> b <> [] -> match a with c :: _ => p c = false | [] => True end -> match rev b with c :: _ => p c = false | [] => True end -> no_edge p (a ++ b).
Proof.
  intros p a b Ha Hb H1 H2. split; [destruct a; [congruence|exact H1]|]. rewrite rev_app_distr. destruct (rev b) eqn:E; [|exact H2].
  apply (f_equal (@rev N)) in E. rewrite rev_involutive in E. now subst.
Qed.
Lemma last_of : forall (P : N -> Prop) (b : str), (forall c, In c b -> P c) -> match rev b with c :: _ => P c | [] => True end.
Proof. intros P b H. destruct (rev b) as [|c r] eqn:E; [exact I|]. apply H, in_rev. rewrite E. now left. Qed.
Lemma alnum_facts : forall c, is_alnum c = true -> is_ws c = false /\ c <> 59 /\ c <> 61 /\ c <> 34 /\ is_ascii_control c = false.
Proof. intros c. unfold is_alnum, is_alpha, is_lower, is_upper, is_digit, is_ws, is_ascii_control, in_range. lia. Qed.
Lemma params_tag : forall t, tag_text t -> na_params (trim (lit ";tag=" ++ t)) = Some [(lit "tag", Some t)].
Proof.
  intros t (Hn & Hl & Ha). rewrite trim_edge.
  2: { apply edge_app; [discriminate|assumption|reflexivity|]. apply (last_of (fun c => is_ws c = false)). intros c Hc. now apply alnum_facts, Ha. }
  unfold na_params. change (lit ";tag=" ++ t) with ([] ++ 59 :: (lit "tag=" ++ t)). rewrite split_on_app by reflexivity.
  rewrite split_on_nomem. 2: { apply mem_false. intros [K|[K|[K|[K|K]]]]; try discriminate K. now apply Ha, alnum_facts in K as (_ & K & _). }
  assert (T : trim t = t). { apply trim_edge, no_edge_all. apply forallb_forall. intros c Hc. apply Ha, alnum_facts in Hc as (-> & _). reflexivity. }
  assert (T2 : trim (lit "tag=" ++ t) = lit "tag=" ++ t). { apply trim_edge, edge_app; [discriminate|assumption|reflexivity|]. apply (last_of (fun c => is_ws c = false)). intros c Hc. now apply alnum_facts, Ha. }
  cbn [fold_opt]. unfold na_add at 1. change (trim []) with (@nil N). cbn iota. unfold na_add.
  rewrite T2. change (lit "tag=" ++ t) with (116 :: (lit "ag=" ++ t)). cbn iota.
  replace (MAX_NA_PARAMS <=? llen []) with false by reflexivity.
  change (116 :: (lit "ag=" ++ t)) with (lit "tag" ++ 61 :: t). rewrite split_once_app by reflexivity. rewrite T.
  assert (D : trim_dquotes t = t). { unfold trim_dquotes. apply trim_by_id, no_edge_all. apply forallb_forall. intros c Hc. apply Ha, alnum_facts in Hc as (_ & _ & _ & Hc & _). lia. }
  rewrite D. reflexivity.
Qed.
Lemma tail_bits : forall u t, tag_text t -> (lit "<" ++ u_raw u ++ lit ">;tag=" ++ t) <> [] /\ match rev (lit "<" ++ u_raw u ++ lit ">;tag=" ++ t) with c :: _ => is_ws c = false | [] => True end.
Proof.
  intros u t (Hn & _ & Ha). split; [discriminate|]. rewrite !app_assoc, rev_app_distr. pose proof (last_of (fun c => is_ws c = false) t) as L. destruct (rev t) as [|c r] eqn:E.
  - apply (f_equal (@rev N)) in E. rewrite rev_involutive in E. now subst.
  - cbn [app]. apply L. intros x Hx. now apply alnum_facts, Ha.
Qed.
Lemma na_new_tag : forall dd u t, match dd with Some x => na_text 256 x = true | None => True end -> tag_text t ->
  na_new dd u [(lit "tag", Some t)] = Some (mkNa dd u [(lit "tag", Some t)]).
Proof.
  intros dd u t Hd (Hn & Hl & Ha). unfold na_new. replace (match dd with Some x => na_text 256 x | None => true end) with true by (destruct dd; [now rewrite Hd|reflexivity]).
  replace (llen [(lit "tag", Some t)] <=? 64) with true by reflexivity. cbn [andb forallb fst snd]. replace (na_name (lit "tag")) with true by reflexivity.
  assert (E : na_text 256 t = true).
  { unfold na_text. apply andb_true_intro. split; [now apply N.leb_le|]. apply negb_true_iff. destruct (existsb is_ascii_control t) eqn:E; [|reflexivity]. apply existsb_exists in E as (c & Hc & E). apply Ha, alnum_facts in Hc as (_ & _ & _ & _ & Hc). congruence. }
  now rewrite E.
Qed.
Lemma address_part : forall u t, addressable u -> tag_text t ->
  scan_to 62 false false (u_raw u ++ lit ">;tag=" ++ t) = Some (u_raw u, lit ";tag=" ++ t) /\ trim (u_raw u) = u_raw u.
Proof.
  intros u t (P & Hu) Ht. split.
  - change (lit ">;tag=" ++ t) with (62 :: (lit ";tag=" ++ t)). apply scan_plain; [|discriminate]. intros c Hc. destruct (Hu c Hc) as (H1 & H2 & _). now split.
  - apply trim_edge, no_edge_all. apply forallb_forall. intros c Hc. destruct (Hu c Hc) as (_ & _ & ->). reflexivity.
Qed.
Lemma reads_tagged : forall u t, addressable u -> tag_text t -> reads_as (tagged u t) (any_without_headers (ASip u)) t.
Proof.
  intros u t Hu Ht. unfold tagged, angle. rewrite <- !app_assoc. change (lit ">" ++ lit ";tag=" ++ t) with (lit ">;tag=" ++ t).
  destruct (tail_bits u t Ht) as [Tn Te]. destruct (address_part u t Hu Ht) as [S T]. destruct Hu as [P Hu].
  unfold reads_as, parse_name_addr. rewrite trim_edge. 2: { split; [reflexivity|exact Te]. }
  change (lit "<" ++ u_raw u ++ lit ">;tag=" ++ t) with (60 :: (u_raw u ++ lit ">;tag=" ++ t)). cbn iota.
  assert (E0 : scan_to 60 false false (60 :: (u_raw u ++ lit ">;tag=" ++ t)) = Some ([], u_raw u ++ lit ">;tag=" ++ t)) by reflexivity.
  rewrite E0. cbn iota beta. rewrite S, (params_tag t Ht), T, P. change (trim []) with (@nil N). cbn iota.
  rewrite na_new_tag; [|exact I|exact Ht]. eexists. split; [reflexivity|]. split; reflexivity.
Qed.
Lemma trim_dq_len : forall s, blen (trim_dquotes s) <= blen s /\ (forall c, In c (trim_dquotes s) -> In c s).
Proof.
  intros s. unfold trim_dquotes. destruct (trim_by_sub (N.eqb 34) s) as (a & b & E & _). split.
  - rewrite E at 2. rewrite !blen_app. lia.
  - intros c Hc. rewrite E. apply in_or_app. right. apply in_or_app. now left.
Qed.
Lemma reads_named : forall d u t, short_text MAX_DISPLAY_NAME d = true -> addressable u -> tag_text t -> reads_as (named (escape_quoted d) u t) (any_without_headers (ASip u)) t.
Proof.
  intros d u t Hd Hu Ht. unfold named, tagged, angle. rewrite <- !app_assoc. change (lit ">" ++ lit ";tag=" ++ t) with (lit ">;tag=" ++ t).
  destruct (tail_bits u t Ht) as [Tn Te]. destruct (address_part u t Hu Ht) as [S T]. destruct Hu as [P Hu].
  set (tl := lit "<" ++ u_raw u ++ lit ">;tag=" ++ t) in *.
  assert (L : lit """" ++ escape_quoted d ++ lit """ " ++ tl = 34 :: (escape_quoted d ++ 34 :: 32 :: tl)) by reflexivity.
  unfold reads_as, parse_name_addr. rewrite trim_edge.
  2: { rewrite !app_assoc. apply edge_app; [discriminate|exact Tn|reflexivity|exact Te]. }
  rewrite L. cbn iota.
  assert (S0 : scan_to 60 false false (32 :: tl) = Some ([32], u_raw u ++ lit ">;tag=" ++ t)) by reflexivity.
  assert (E0 : scan_to 60 false false (34 :: (escape_quoted d ++ 34 :: 32 :: tl)) = Some (34 :: (escape_quoted d ++ 34 :: [32]), u_raw u ++ lit ">;tag=" ++ t)).
  { cbn [scan_to andb]. cbn [N.eqb Pos.eqb negb]. rewrite scan_escaped, S0. reflexivity. }
  rewrite E0. cbn iota beta. rewrite S, (params_tag t Ht), T, P.
  assert (B : trim (34 :: escape_quoted d ++ [34; 32]) = 34 :: escape_quoted d ++ [34]).
  { change (34 :: escape_quoted d ++ [34; 32]) with ((34 :: escape_quoted d) ++ [34; 32]). unfold trim, trim_by, trim_start_by. rewrite drop_while_id by reflexivity. rewrite trim_end_by_rev, rev_app_distr. change (rev [34; 32] ++ rev (34 :: escape_quoted d)) with (32 :: 34 :: rev (34 :: escape_quoted d)).
    cbn [drop_while]. replace (is_ws 32) with true by reflexivity. replace (is_ws 34) with false by reflexivity. cbn [rev]. rewrite rev_app_distr. cbn [rev app]. rewrite rev_involutive. reflexivity. }
  rewrite B. cbn iota. rewrite na_new_tag; [|clear - Hd|exact Ht].
  - eexists. split; [reflexivity|]. split; reflexivity.
  - apply short_plain in Hd as Hc. unfold short_text in Hd. apply andb_prop in Hd as [Hl Hx]. apply N.leb_le in Hl. unfold na_text. apply andb_true_intro. split.
    + apply N.leb_le. destruct (trim_dq_len (34 :: escape_quoted d ++ [34])) as [K _]. destruct (escape_small d) as [Q _]. etransitivity; [exact K|]. change (34 :: escape_quoted d ++ [34]) with (lit """" ++ escape_quoted d ++ lit """"). rewrite !blen_app. replace (blen (lit """")) with 1 by reflexivity. unfold MAX_DISPLAY_NAME in Hl. lia.
    + apply negb_true_iff. destruct (existsb is_ascii_control (trim_dquotes (34 :: escape_quoted d ++ [34]))) eqn:E; [|reflexivity]. apply existsb_exists in E as (c & K & E). apply trim_dq_len in K.
      assert (D : In c d \/ c = 34 \/ c = 92).
      { destruct K as [K|K]; [now right; left|]. apply in_app_or in K as [K|[K|[]]]; [|now right; left]. unfold escape_quoted in K. apply in_flat_map in K as (x & Hx' & K). destruct ((x =? 92) || (x =? 34)); cbn in K; intuition (subst; auto). }
      destruct D as [D|[->| ->]]; [|discriminate E|discriminate E]. apply negb_true_iff in Hx. assert (N : existsb is_control d = true); [|congruence]. apply existsb_exists. exists c. split; [assumption|]. unfold is_ascii_control, is_control, in_range in *. lia.
Qed.
Lemma from_reads : forall u o t, match ua_display u with Some d => short_text MAX_DISPLAY_NAME d = true | None => True end ->
  addressable (match o with Some x => x | None => match ua_from u with Some x => x | None => ua_local u end end) -> tag_text t ->
  reads_as (from_value u o t) (any_without_headers (ASip (match o with Some x => x | None => match ua_from u with Some x => x | None => ua_local u end end))) t.
Proof. intros u o t Hd Hu Ht. unfold from_value. destruct (ua_display u) as [d|]; [now apply reads_named|now apply reads_tagged]. Qed.
Definition from_of (u : uac) (f : fresh) (c : call) : str :=
  let '(x, t) := speaker u f c in
  match c with
  | CUnsolicited _ _ _ _ _ | COptions _ | CBye _ | CByeReason _ _ | CInfo _ _ _ | CRefer _ _ | CReferReplaces _ _ _ | CNotify _ _ _ | CRegNotify _ _ _ => tagged x t
  | CReinvite d _ | CUpdate d _ | CRefresh d _ _ _ _ | CPrack _ _ d | CPrackFrom _ d => dialog_from u d
  | _ => match ua_display u with Some d => named (escape_quoted d) x t | None => tagged x t end
  end.
Lemma from_more : forall m uri hs b n v x, eq_ic n (lit "From") = false -> once (mkReq m uri hs b) "From" x -> once (mkReq m uri (hs ++ [(n, v)]) b) "From" x.
Proof. intros m uri hs b n v x Hn Ho. unfold once in *. cbn [q_headers] in *. rewrite get_all_app, Ho, get_all_cons, Hn. reflexivity. Qed.
Lemma modify_from : forall u f d up sdp q, mk_modify u f d up sdp = Ret q -> once q "From" (dialog_from u d).
Proof. intros u f d up sdp q H. apply assemble_eq in H. subst q. destruct up, sdp; read_headers; reflexivity. Qed.
Lemma prack_from : forall u f d k q, mk_prack_rack u f d k = Ret q -> once q "From" (dialog_from u d).
Proof. intros u f d k q H. apply assemble_eq in H. subst q. read_headers. reflexivity. Qed.
Lemma call_from : forall u f c u' q, perform u f c = (u', Ret (Some q)) -> once q "From" (from_of u f c).
Proof.
  intros u f c u' q H.
  destruct c as [t e ct b s|t|t sdp o|t b ct|t e ct b|t e n|t n|t ct b|r n|d|d r|d sdp|d sdp|d n w up sdp|d ct b|i p d|p d|d r|d r t|s st b|s st x];
    unfold from_of; cbn [perform speaker sender] in *.
  - build_inv H. read_headers. reflexivity.
  - build_inv H. read_headers. reflexivity.
  - build_inv H. destruct sdp, o; read_headers; reflexivity.
  - injection H as _ H. unfold mk_invite_body in H. destruct (short_body b && short_text MAX_CONTENT_TYPE ct); [|discriminate].
    match type of H with match push_all [] ?l with _ => _ end = _ => destruct (push_all [] l) as [hs|] eqn:E; [|discriminate] end.
    apply push_all_eq in E. cbn [app] in E. subst hs. unfold request_new in H.
    destruct (MAX_BODY_SIZE <? llen (utf8 b)); [discriminate|]. injection H as <-. read_headers. reflexivity.
  - injection H as _ H. unfold mk_publish in H.
    destruct (short_text MAX_EVENT_NAME e && short_text MAX_CONTENT_TYPE ct && short_body b); [|discriminate].
    apply lift_some in H. apply assemble_eq in H. subst q. read_headers. reflexivity.
  - build_inv H. read_headers. reflexivity.
  - injection H as _ H. apply lift_some in H. apply add_header_eq in H as (q0 & H & ->). apply assemble_eq in H. subst q0.
    cbn [q_method q_uri q_headers q_body app]. read_headers. reflexivity.
  - build_inv H. read_headers. reflexivity.
  - unfold mk_register in H.
    assert (T : snd (remembered (u_raw r) (fr_tag f) (ua_tags u)) = match lookup str_eqb (u_raw r) (ua_tags u) with Some t => t | None => fr_tag f end).
    { unfold remembered. destruct (lookup str_eqb (u_raw r) (ua_tags u)); [reflexivity|]. destruct (MAX_REGISTRARS <=? llen (ua_tags u)); reflexivity. }
    destruct (remembered (u_raw r) (fr_tag f) (ua_tags u)) as [tags tg] eqn:E1. cbn [snd] in T. subst tg.
    destruct (remembered (u_raw r) (call_of f) (ua_calls u)) as [calls cl] eqn:E2. destruct (next_register_cseq (u_raw r) (ua_cseqs u)) as [cs k] eqn:E3.
    injection H as _ H. apply lift_some in H. apply assemble_eq in H. subst q. read_headers. reflexivity.
  - build_inv H. read_headers. reflexivity.
  - injection H as _ H. apply lift_some in H. apply add_header_eq in H as (q0 & H & ->). apply assemble_eq in H. subst q0.
    cbn [q_method q_uri q_headers q_body app]. read_headers. reflexivity.
  - injection H as _ H. apply lift_some in H. now apply (modify_from u f d false sdp).
  - injection H as _ H. apply lift_some in H. now apply (modify_from u f d true sdp).
  - injection H as _ H. apply lift_some in H. unfold mk_refresh in H.
    match type of H with match ?x with _ => _ end = _ => destruct x as [q0|] eqn:E; [|discriminate] end.
    apply add_header_eq in E as (q1 & E & ->). apply modify_from in E. destruct q1 as [m uri hs b].
    cbn [q_method q_uri q_headers q_body] in H.
    assert (E2 := from_more m uri hs b (lit "Session-Expires") (print_N n ++ lit ";refresher=" ++ w) _ eq_refl E).
    match type of H with (if ?x then _ else _) = _ => destruct x end; [injection H as <-; exact E2|].
    apply add_header_eq in H as (q1 & H & ->). injection H as <-. now apply from_more.
  - injection H as _ H. unfold mk_info in H. destruct (short_text MAX_CONTENT_TYPE ct && short_body b); [|discriminate].
    apply lift_some in H. apply assemble_eq in H. subst q. read_headers. reflexivity.
  - injection H as _ H. unfold mk_prack in H.
    destruct (header_of (q_headers i) (lit "CSeq")) as [c|]; [|discriminate].
    destruct (split_ws c) as [|n [|m r]]; try discriminate.
    destruct (parse_uint u32_max n) as [k|]; [|discriminate].
    destruct (header_of (p_headers p) (lit "RSeq")) as [rv|]; [|discriminate].
    destruct (parse_uint u32_max rv) as [rs|]; [|discriminate].
    apply lift_some in H. now apply prack_from in H.
  - injection H as _ H. unfold mk_prack_from in H.
    destruct (header_of (p_headers p) (lit "RSeq")) as [rv|]; [|discriminate].
    destruct (parse_uint u32_max rv) as [rs|]; [|discriminate].
    destruct (header_of (p_headers p) (lit "CSeq")) as [c|]; [|discriminate].
    destruct (split_ws c) as [|n [|m r]]; try discriminate.
    apply lift_some in H. now apply prack_from in H.
  - build_inv H. read_headers. reflexivity.
  - build_inv H. read_headers. reflexivity.
  - injection H as _ H. apply lift_some in H. unfold mk_notify in H. destruct (u32_max <=? sb_lcseq s) eqn:L; [discriminate|]. apply assemble_eq in H. subst q. destruct b; read_headers; reflexivity.
  - injection H as _ H. apply lift_some in H. unfold mk_reg_notify in H. destruct (u32_max <=? sb_lcseq s) eqn:L; [discriminate|]. apply assemble_eq in H. subst q. read_headers; reflexivity.
Qed.
Lemma call_reads : forall u f c u' q, perform u f c = (u', Ret (Some q)) -> (as_given c = false \/ ua_display u = None) ->
  match ua_display u with Some d => short_text MAX_DISPLAY_NAME d = true | None => True end ->
  addressable (fst (speaker u f c)) -> tag_text (snd (speaker u f c)) ->
  exists v, once q "From" v /\ reads_as v (any_without_headers (ASip (fst (speaker u f c)))) (snd (speaker u f c)).
Proof.
  intros u f c u' q H G Hd Hu Ht. exists (from_of u f c). split; [now apply (call_from u f c u')|].
  assert (X : forall x t, addressable x -> tag_text t -> reads_as (match ua_display u with Some d => named (escape_quoted d) x t | None => tagged x t end) (any_without_headers (ASip x)) t).
  { intros x t Hx Hxt. destruct (ua_display u) as [d|]; [now apply reads_named|now apply reads_tagged]. }
  destruct c; unfold from_of in *; cbn [speaker sender fst snd as_given] in *; try (now apply reads_tagged); try (now apply X); (destruct G as [G|G]; [discriminate|]); unfold dialog_from; rewrite G; now apply reads_tagged.
Qed.
