(** Properties C124 to C126: how the client answers a digest challenge. *)
From Coq Require Import Arith NArith Bool String List Lia ZifyBool ZifyN ZifyNat.
Import ListNotations.
From Verif Require Import Base BaseFacts NumFacts Headers HeadersProofs Method Text TextFacts Uri Msg Message AnyUri Dialog Auth AuthSpec AuthProofs P_Auth Uac UacSend UacSpec UacProofs UacReads UacRegister UacAuth P_Uac.
Open Scope N_scope.
Open Scope list_scope.

Definition credentials_header (rs : resp) : str := if p_code rs =? 407 then lit "Proxy-Authorization" else lit "Authorization".
Definition challenge_header (proxy : bool) : str := if proxy then lit "Proxy-Authenticate" else lit "WWW-Authenticate".

(** ** C124: the repeated request is the same request *)
Theorem C124_same_request : forall H cl f cnonce rq rs cl' rq', answer H cl f cnonce rq rs = (cl', Ret (Some rq')) ->
  q_method rq' = q_method rq /\ q_uri rq' = q_uri rq /\ q_body rq' = q_body rq
  /\ (forall n, eq_ic (lit "Via") n = false -> eq_ic (lit "CSeq") n = false -> eq_ic (credentials_header rs) n = false ->
       hget_all n (q_headers rq') = hget_all n (q_headers rq))
  /\ exists value, hget_all (credentials_header rs) (q_headers rq') = hget_all (credentials_header rs) (q_headers rq) ++ [value].
Proof.
  intros H cl f cnonce rq rs cl' rq' A. apply answer_inv in A as (m & realm & nonce & l & value & _ & _ & _ & _ & _ & R & ->). cbn [q_method q_uri q_body q_headers].
  fold (credentials_header rs). repeat split; [|exists value].
  - intros n H1 H2 H3. rewrite get_all_app, get_all_cons, H3. cbn. rewrite app_nil_r. now apply (retry_other (branch_of f) (q_headers rq) false).
  - rewrite get_all_app, get_all_cons. replace (eq_ic (credentials_header rs) (credentials_header rs)) with true by (unfold credentials_header; destruct (p_code rs =? 407); reflexivity).
    f_equal. apply (retry_other (branch_of f) (q_headers rq) false); [assumption| |]; unfold credentials_header; destruct (p_code rs =? 407); reflexivity.
Qed.
Print Assumptions C124_same_request.
(** its CSeq is one higher and its branch is new, and nothing else of its Via changed *)
Theorem C124_new_transaction : forall H cl f cnonce rq rs cl' rq', answer H cl f cnonce rq rs = (cl', Ret (Some rq')) -> canonical rq ->
  (forall k m, hget_all (lit "CSeq") (q_headers rq) = [print_N k ++ lit " " ++ m] -> k <= 4294967295 ->
     hget_all (lit "CSeq") (q_headers rq') = [print_N (k + 1) ++ lit " " ++ m] /\ k + 1 <= 4294967295)
  /\ (forall base before b0 after, hget_all (lit "Via") (q_headers rq) = [via_with base before b0 after] ->
        trim base = base -> ~ In 59 base -> piece (lit "branch=" ++ b0) -> Forall piece (before ++ after) ->
        (forall p, In p (before ++ after) -> is_branch p = false) ->
        hget_all (lit "Via") (q_headers rq') = [via_with base before (lit "z9hG4bK" ++ fr_branch f) after]).
Proof.
  intros H cl f cnonce rq rs cl' rq' A C. apply answer_inv in A as (m & realm & nonce & l & value & _ & _ & _ & _ & _ & R & ->). cbn [q_method q_uri q_body q_headers].
  assert (N1 : forall n, n = lit "CSeq" \/ n = lit "Via" -> hget_all n (l ++ [(if p_code rs =? 407 then lit "Proxy-Authorization" else lit "Authorization", value)]) = hget_all n l).
  { intros n Hn. rewrite get_all_app, get_all_cons. destruct Hn as [-> | ->]; destruct (p_code rs =? 407); apply app_nil_r. }
  split.
  - intros k m0 E K. rewrite N1 by now left. destruct (retry_cseq (branch_of f) (q_headers rq) l k m0 R) as [I1 I2]; [|assumption|assumption|split; [exact I1|lia]]. intros n v Hi He. now apply (C n v Hi).
  - intros base before b0 after E T1 T2 (_ & T3 & T4) P Nb. rewrite N1 by now right. rewrite (retry_via (branch_of f) (q_headers rq) false l R) by (intros n v Hi He; now apply (C n v Hi)).
    rewrite E. cbn [map]. f_equal. apply Forall_app in P as [P1 P2]. apply branch_swapped; try assumption. intros X. apply T4. apply in_or_app. now right.
Qed.
Print Assumptions C124_new_transaction.

(** ** C125: the credentials are the ones our server asked for *)
Theorem C125_accepted : forall H a tok t0 stale now cl f cnonce rq rs cl' rq' hs, hexy H ->
  au_limit a = None -> llen (q_body rq) <= 10 * 1024 * 1024 ->
  quotable 256 (cl_user cl) -> quotable 256 (au_realm a) -> quotable 128 tok ->
  quotable 256 (uri_text (q_uri rq)) -> quotable 256 cnonce -> quotable 256 (au_opaque a) ->
  au_store a (cl_user cl) (au_realm a) = Some (cl_pass cl) ->
  cl_nc cl < 1000 -> now <= t0 + nm_ttl (au_nonces a) ->
  p_code rs = (if au_proxy a then 407 else 401) ->
  hget (challenge_header (au_proxy a)) (p_headers rs) = Some (snd (challenge a tok t0 stale)) ->
  hget_all (auth_header_name a) (q_headers rq) = [] ->
  answer H cl f cnonce rq rs = (cl', Ret (Some rq')) ->
  snd (verify H (fst (challenge a tok t0 stale)) now (mkAreq (q_method rq') (uri_text (q_uri rq')) hs (q_body rq')) (q_headers rq')) = Some true.
Proof.
  intros H a tok t0 stale now cl f cnonce rq rs cl' rq' hs Hx Hl Hb Q1 Q2 Q3 Q4 Q5 Q6 Hs Hn Ht Hp Hc Ho A.
  apply answer_inv in A as (m & realm & nonce & l & value & P & _ & E1 & E2 & G & R & ->). cbn [q_method q_uri q_body q_headers].
  destruct (challenge_read a tok t0 stale Q2 Q3 Q6) as (m' & P' & L1 & L2 & L3 & L4 & L5).
  assert (X : p_code rs =? 407 = au_proxy a) by (rewrite Hp; destruct (au_proxy a); reflexivity). rewrite X in *. fold (challenge_header (au_proxy a)) in P. rewrite Hc in P. rewrite P' in P. injection P as <-.
  rewrite L1 in E1. injection E1 as <-. rewrite L2 in E2. injection E2 as <-. rewrite L3, L4, L5 in G.
  apply (C17_challenge_response H a tok t0 stale now _ _ cl cnonce); try assumption. cbn [aq_method aq_uri aq_body]. rewrite G. cbn [snd].
  apply get_last; [|unfold auth_header_name; destruct (au_proxy a); reflexivity].
  rewrite (retry_other (branch_of f) (q_headers rq) false l); [assumption|assumption| |]; unfold auth_header_name; destruct (au_proxy a); reflexivity.
Qed.
Print Assumptions C125_accepted.
(** the realm is found for choosing the credentials *)
Theorem C125_realm : forall a tok t0 stale rs, quotable 256 (au_realm a) -> quotable 128 tok -> quotable 256 (au_opaque a) ->
  hget (lit "WWW-Authenticate") (p_headers rs) = None \/ au_proxy a = false ->
  hget (challenge_header (au_proxy a)) (p_headers rs) = Some (snd (challenge a tok t0 stale)) ->
  extract_realm rs = Ret (Some (au_realm a)).
Proof.
  intros a tok t0 stale rs Q1 Q2 Q3 Hn Hc. apply (realm_read a tok t0 stale rs Q1 Q2 Q3). unfold challenge_header in Hc. destruct (au_proxy a); [right; split; [|assumption]|now left]. now destruct Hn.
Qed.
Print Assumptions C125_realm.
(** an INVITE, challenged *)
Definition refusal (v : str) : resp := mkResp 401 (lit "Unauthorized") [(lit "WWW-Authenticate", v)] [].
Definition invite1 : req := match snd (perform client1 fresh1 (CInvite robert (Some (lit "v=0")) None)) with Ret (Some q) => q | _ => mkReq MInvite (SipU robert) [] [] end.
Definition server_sees (q : req) : areq := mkAreq (q_method q) (uri_text (q_uri q)) [] (q_body q).
Definition answered (cl : client) (f : fresh) (q : req) (rs : resp) : req := match snd (answer toy cl f (lit "c0") q rs) with Ret (Some q') => q' | _ => q end.
Example C124_example : canonical invite1
  /\ hget_all (lit "CSeq") (q_headers invite1) = [print_N 1 ++ lit " " ++ lit "INVITE"]
  /\ hget_all (lit "Via") (q_headers invite1) = [via_with (lit "SIP/2.0/UDP placeholder") [] (lit "z9hG4bKb1") []]
  /\ exists cl' rq', answer toy ex_client fresh2 (lit "c0") invite1 (refusal (snd (challenge ex_auth (lit "n1") 10 false))) = (cl', Ret (Some rq')).
Proof.
  split; [|split; [vm_compute; reflexivity|split; [vm_compute; reflexivity|]]].
  - intros n v H. cbn in H. repeat (destruct H as [[= <- <-]|H]; [split; intros E; vm_compute in E; (discriminate E || reflexivity)|]). destruct H.
  - eexists. eexists. vm_compute. reflexivity.
Qed.
Example C125_example : snd (verify toy (fst (challenge ex_auth (lit "n1") 10 false)) 20
    (server_sees (answered ex_client fresh2 invite1 (refusal (snd (challenge ex_auth (lit "n1") 10 false)))))
    (q_headers (answered ex_client fresh2 invite1 (refusal (snd (challenge ex_auth (lit "n1") 10 false)))))) = Some true.
Proof. vm_compute. reflexivity. Qed.
(** not so for a request challenged a second time, say because the first nonce
    is no longer good: the first credentials stay in front of the second ones *)
Theorem C125_second_refuted : exists a tok1 tok2 cl rq q1 q2 cl1 cl2,
  answer toy cl fresh1 (lit "c0") rq (refusal (snd (challenge a tok1 10 false))) = (cl1, Ret (Some q1))
  /\ answer toy cl1 fresh2 (lit "c0") q1 (refusal (snd (challenge a tok2 400000 true))) = (cl2, Ret (Some q2))
  /\ snd (verify toy (fst (challenge (fst (challenge a tok1 10 false)) tok2 400000 true)) 400001 (server_sees q2) (q_headers q2)) <> Some true.
Proof.
  exists ex_auth, (lit "n1"), (lit "n2"), ex_client, invite1.
  exists (answered ex_client fresh1 invite1 (refusal (snd (challenge ex_auth (lit "n1") 10 false)))).
  exists (answered (mkClient (lit "alice") (lit "secret") 1) fresh2 (answered ex_client fresh1 invite1 (refusal (snd (challenge ex_auth (lit "n1") 10 false)))) (refusal (snd (challenge ex_auth (lit "n2") 400000 true)))).
  exists (mkClient (lit "alice") (lit "secret") 1), (mkClient (lit "alice") (lit "secret") 2).
  split; [vm_compute; reflexivity|]. split; [vm_compute; reflexivity|]. vm_compute. discriminate.
Qed.
Print Assumptions C125_second_refuted.

(** ** C126: what a challenge says *)
Theorem C126_reads : forall a tok t0 stale, quotable 256 (au_realm a) -> quotable 128 tok -> quotable 256 (au_opaque a) ->
  exists m, parse_challenge (snd (challenge a tok t0 stale)) = Ret (Some m)
    /\ lookup str_eqb (lit "realm") m = Some (au_realm a) /\ lookup str_eqb (lit "nonce") m = Some tok
    /\ lookup str_eqb (lit "opaque") m = Some (au_opaque a) /\ choose_alg m = au_alg a /\ choose_qop m = Some (au_qop a).
Proof. exact challenge_read. Qed.
Print Assumptions C126_reads.
Example C126_example : quotable 256 (au_realm ex_auth) /\ quotable 128 (lit "n1") /\ quotable 256 (au_opaque ex_auth).
Proof. repeat split; vm_compute; congruence. Qed.
(** a server can make the client panic *)
Theorem C126_panic_refuted : exists v, validate_header_value v = None /\ snd (answer toy ex_client fresh2 (lit "c0") invite1 (refusal v)) = Panics.
Proof. exists (lit "Digest realm="""). split; vm_compute; reflexivity. Qed.
Print Assumptions C126_panic_refuted.
(** parameter names in another case are not found; a challenge of another scheme
    is taken for Digest when the word occurs in it; a Digest challenge after one of
    another scheme is not found *)
Theorem C126_case_refuted : snd (answer toy ex_client fresh2 (lit "c0") invite1 (refusal (lit "Digest Realm=""r"", Nonce=""n"""))) = Ret None
  /\ exists q, snd (answer toy ex_client fresh2 (lit "c0") invite1 (refusal (lit "Digest realm=""r"", nonce=""n"""))) = Ret (Some q).
Proof. split; [vm_compute; reflexivity|]. eexists. vm_compute. reflexivity. Qed.
Print Assumptions C126_case_refuted.
Theorem C126_scheme_refuted : exists q, snd (answer toy ex_client fresh2 (lit "c0") invite1 (refusal (lit "Basic realm=""the digest, realm=r, nonce=n"""))) = Ret (Some q).
Proof. eexists. vm_compute. reflexivity. Qed.
Print Assumptions C126_scheme_refuted.
Theorem C126_several_refuted :
  snd (answer toy ex_client fresh2 (lit "c0") invite1
    (mkResp 401 (lit "Unauthorized") [(lit "WWW-Authenticate", lit "Basic realm=""r"""); (lit "WWW-Authenticate", lit "Digest realm=""r"", nonce=""n""")] [])) = Ret None.
Proof. vm_compute. reflexivity. Qed.
Print Assumptions C126_several_refuted.
