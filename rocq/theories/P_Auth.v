(** Properties of digest authentication: C16-C20, C73-C75. *)
From Coq Require Import String Arith NArith Bool List Lia ZifyBool ZifyN ZifyNat.
Import ListNotations.
From Verif Require Import Base BaseFacts Headers Method RateLimit RateLimitSpec P_RateLimit Auth AuthSpec AuthProofs.
Open Scope N_scope.

(** ** Concrete values for the examples *)
(** a toy hash: two hex digits of a weighted sum *)
Definition toy (f : hash_fn) (b : list N) : str :=
  let v := fold_left (fun s c => (s * 31 + c) mod 256) b 7 in [hex_digit (v / 16 mod 16); hex_digit (v mod 16)].
Lemma toy_hexy : hexy toy.
Proof.
  intros f b. unfold toy. set (v := fold_left _ b 7).
  assert (A : forallb hexc [hex_digit (v / 16 mod 16); hex_digit (v mod 16)] = true).
  { cbn [forallb]. rewrite !hex_digit_hexc by (apply N.mod_lt; discriminate). reflexivity. }
  split; [exact A|]. rewrite (blen_ascii toy) by exact A. cbn. lia.
Qed.
Definition ex_auth : auth :=
  mkAuth (lit "example.com") (mkAlg Md5 false) QAuth
    (fun u r => if str_eqb u (lit "alice") then Some (lit "secret") else None)
    (mkNm [] 300000 100 60000) false (lit "op4que") None.
Definition ex_rq : areq := mkAreq MInvite (lit "sip:bob@example.com") [] [1; 2].
Definition ex_client : client := mkClient (lit "alice") (lit "secret") 0.
Definition ex_header (c : client) (rq : areq) : headers :=
  [(lit "Authorization", snd (generate toy c (aq_method rq) (aq_uri rq) (lit "example.com") (lit "n1")
      (mkAlg Md5 false) (Some QAuth) (Some (lit "op4que")) (aq_body rq) (lit "c0")))].
(** an Authorization header with chosen nonce count and response *)
Definition raw_header (uri nc resp : str) : headers :=
  [(lit "Authorization",
    lit "Digest username=""alice"", realm=""example.com"", nonce=""n1"", uri=""" ++ uri ++ lit """, response="""
    ++ resp ++ lit """, algorithm=MD5, qop=auth, nc=" ++ nc ++ lit ", cnonce=""c0"", opaque=""op4que""")].

(** ** C16 *)

(** C16: two requests accepted with the same nonce, the second after the first,
    carry strictly increasing counts, unless count and request hash (SHA-256 of
    method, URI and body joined by colons) are equal: a retransmission.  The
    random nonces of the history are assumed distinct. *)
Theorem C16_no_replay_partial : forall H a p x q y r e e', no_nonces a -> NoDup (tokens (p ++ x :: q ++ y :: r)) ->
  accepts H (auth_run H a p) x e -> accepts H (auth_run H a (p ++ x :: q)) y e' ->
  ac_nonce e = ac_nonce e' ->
  ac_count e < ac_count e'
  \/ (ac_count e = ac_count e'
      /\ let text rq := as_bytes (method_str (aq_method rq)) ++ [58] ++ as_bytes (aq_uri rq) ++ [58] ++ aq_body rq in
         H Sha256 (text (ac_request e)) = H Sha256 (text (ac_request e'))).
Proof. intros. eapply replay; eassumption. Qed.
Print Assumptions C16_no_replay_partial.

(** C16: with a collision-free hash, a count accepted twice on the same method
    and URI was accepted for the same body. *)
Theorem C16_same_target_partial : forall H a p x q y r e e',
  (forall b b', H Sha256 b = H Sha256 b' -> b = b') ->
  no_nonces a -> NoDup (tokens (p ++ x :: q ++ y :: r)) ->
  accepts H (auth_run H a p) x e -> accepts H (auth_run H a (p ++ x :: q)) y e' ->
  ac_nonce e = ac_nonce e' -> ac_count e = ac_count e' ->
  aq_method (ac_request e) = aq_method (ac_request e') -> aq_uri (ac_request e) = aq_uri (ac_request e') ->
  aq_body (ac_request e) = aq_body (ac_request e').
Proof.
  intros H a p x q y r e e' Inj H0 Hd Ha Ha' En Ec Em Eu.
  destruct (replay H a p x q y r e e' H0 Hd Ha Ha' En) as [L|[_ L]]; [lia|]. apply Inj in L.
  rewrite Em, Eu in L. do 4 apply app_inv_head in L. exact L.
Qed.
Print Assumptions C16_same_target_partial.

(** C16: an accepted count is at most 1000 above some count offered before with
    the nonce (or above zero). *)
Theorem C16_bounded_step : forall H a p x e, no_nonces a -> NoDup (tokens p) -> accepts H (auth_run H a p) x e ->
  ac_count e <= 1000 \/ exists y c, In y p /\ offers a y (ac_nonce e) c /\ ac_count e <= c + 1000.
Proof. intros. eapply step_bound; eassumption. Qed.
Print Assumptions C16_bounded_step.

(** a history in which the client of the example is accepted with counts 1 and 2 *)
Definition ex_history : list (N * auth_op) :=
  [(10, AChallenge (lit "n1") false); (20, AVerify ex_rq (ex_header ex_client ex_rq));
   (30, AVerify ex_rq (ex_header (mkClient (lit "alice") (lit "secret") 1) ex_rq))].
Ltac show_accepts :=
  unfold accepts; cbn [snd fst]; split; [vm_compute; reflexivity|]; split; [reflexivity|]; split; [reflexivity|];
  split; [eexists; eexists; split; [vm_compute; reflexivity|split; vm_compute; reflexivity]|];
  eexists; split; [eexists; eexists; split; [vm_compute; reflexivity|split; vm_compute; reflexivity]|vm_compute; reflexivity].
Example C16_example :
  no_nonces ex_auth /\ NoDup (tokens ex_history)
  /\ accepts toy (auth_run toy ex_auth (firstn 1 ex_history)) (nth 1 ex_history (0, ACleanup)) (mkAcc 20 (lit "n1") 1 ex_rq)
  /\ accepts toy (auth_run toy ex_auth (firstn 2 ex_history)) (nth 2 ex_history (0, ACleanup)) (mkAcc 30 (lit "n1") 2 ex_rq).
Proof.
  split; [reflexivity|]. split; [repeat constructor; intros []|].
  split; cbn [firstn nth ex_history]; show_accepts.
Qed.

(** C16, full statement refuted: the text that is hashed to recognise a
    retransmission is ambiguous.  Two different requests (different URI and
    body) are accepted with the same nonce and count even though the hash has
    no collisions. *)
Definition amb_hash (f : hash_fn) (b : list N) : str := match f with Sha256 => b | _ => lit "aa" end.
Definition amb1 : areq := mkAreq MMessage (lit "sip:a") [] (lit "5060:B").
Definition amb2 : areq := mkAreq MMessage (lit "sip:a:5060") [] (lit "B").
Definition amb_history : list (N * auth_op) :=
  [(10, AChallenge (lit "n1") false); (20, AVerify amb1 (raw_header (lit "sip:a") (lit "00000001") (lit "aa")));
   (30, AVerify amb2 (raw_header (lit "sip:a:5060") (lit "00000001") (lit "aa")))].
Theorem C16_refuted : exists H a p x y e e',
  (forall b b', H Sha256 b = H Sha256 b' -> b = b')
  /\ no_nonces a /\ NoDup (tokens (p ++ [x; y]))
  /\ accepts H (auth_run H a p) x e /\ accepts H (auth_run H a (p ++ [x])) y e'
  /\ ac_nonce e = ac_nonce e' /\ ac_count e = ac_count e'
  /\ aq_uri (ac_request e) <> aq_uri (ac_request e') /\ aq_body (ac_request e) <> aq_body (ac_request e').
Proof.
  exists amb_hash, ex_auth, (firstn 1 amb_history), (nth 1 amb_history (0, ACleanup)), (nth 2 amb_history (0, ACleanup)),
    (mkAcc 20 (lit "n1") 1 amb1), (mkAcc 30 (lit "n1") 1 amb2).
  split; [intros b b' E; exact E|]. split; [reflexivity|]. split; [repeat constructor; intros []|].
  split; [cbn [firstn nth amb_history]; show_accepts|].
  split; [cbn [firstn nth amb_history app]; show_accepts|].
  split; [reflexivity|]. split; [reflexivity|]. split; discriminate.
Qed.
Print Assumptions C16_refuted.

(** ** C17 *)

(** C17: whatever the hash, algorithm and qop, an accepted request presents a
    known, unexpired nonce, the server's realm, the request's own URI, and a
    response equal to the RFC 7616 digest of the password on file. *)
Theorem C17_sound : forall H a now rq h, snd (verify H a now rq h) = Some true ->
  exists user nonce nc cnonce resp pass n,
    presents a h (lit "username") user /\ presents a h (lit "realm") (au_realm a)
    /\ presents a h (lit "nonce") nonce /\ presents a h (lit "uri") (aq_uri rq)
    /\ presents a h (lit "nc") nc /\ presents a h (lit "cnonce") cnonce /\ presents a h (lit "response") resp
    /\ presents a h (lit "opaque") (au_opaque a)
    /\ au_store a user (au_realm a) = Some pass
    /\ resp = rfc_response H (au_alg a) (au_qop a) user (au_realm a) pass (method_str (aq_method rq)) (aq_uri rq)
                nonce nc cnonce (aq_body rq)
    /\ lookup str_eqb nonce (nm_nonces (au_nonces a)) = Some n /\ now <= nn_created n + nn_ttl n.
Proof.
  intros H a now rq h Hv.
  destruct (verify_sound _ _ _ _ _ Hv) as (dp & c & pass & n & n' & V1 & V2 & V3 & V4 & V5 & _).
  destruct V1 as (v & ah & o & D1 & D2 & D3 & D4 & D5 & D6 & D7 & D8 & D9 & D10 & D11 & D12 & D13 & _). subst o.
  exists (dp_user dp), (dp_nonce dp), (dp_nc dp), (dp_cnonce dp), (dp_response dp), pass, n.
  repeat match goal with
  | |- presents _ _ _ _ /\ _ => split; [exists v, ah; auto|]
  end.
  split; [assumption|]. split; [assumption|]. split; [assumption|]. unfold nonce_valid in V5. lia.
Qed.
Print Assumptions C17_sound.

(** C17: the client's Authorization header, made from the server's realm,
    algorithm, qop and opaque and the right password, is accepted as soon as the
    rate limiter and the body limit let the request through and the nonce and
    count are usable.  (The URI must fit the 256 bytes the header parser
    accepts.) *)
Theorem C17_complete : forall H a now rq h c cnonce nonce, hexy H ->
  snd (admit a now rq h) = true ->
  quotable 256 (cl_user c) -> quotable 256 (au_realm a) -> quotable 128 nonce ->
  quotable 256 (aq_uri rq) -> quotable 256 cnonce -> quotable 256 (au_opaque a) ->
  au_store a (cl_user c) (au_realm a) = Some (cl_pass c) ->
  cl_nc c < 1000000 -> usable (au_nonces a) nonce now (cl_nc c + 1) ->
  hget (auth_header_name a) h
    = Some (snd (generate H c (aq_method rq) (aq_uri rq) (au_realm a) nonce (au_alg a) (Some (au_qop a))
                   (Some (au_opaque a)) (aq_body rq) cnonce)) ->
  snd (verify H a now rq h) = Some true.
Proof. intros. now apply (verify_complete H a now rq h c (au_opaque a) cnonce nonce). Qed.
Print Assumptions C17_complete.

(** C17: challenge and response: a client that answers a challenge before it
    expires, with a counter below 1000, is accepted. *)
Theorem C17_challenge_response : forall H a tok t0 stale now rq h c cnonce, hexy H ->
  au_limit a = None -> llen (aq_body rq) <= 10 * 1024 * 1024 ->
  quotable 256 (cl_user c) -> quotable 256 (au_realm a) -> quotable 128 tok ->
  quotable 256 (aq_uri rq) -> quotable 256 cnonce -> quotable 256 (au_opaque a) ->
  au_store a (cl_user c) (au_realm a) = Some (cl_pass c) ->
  cl_nc c < 1000 -> now <= t0 + nm_ttl (au_nonces a) ->
  hget (auth_header_name a) h
    = Some (snd (generate H c (aq_method rq) (aq_uri rq) (au_realm a) tok (au_alg a) (Some (au_qop a))
                   (Some (au_opaque a)) (aq_body rq) cnonce)) ->
  snd (verify H (fst (challenge a tok t0 stale)) now rq h) = Some true.
Proof.
  intros H a tok t0 stale now rq h c cnonce Hx Hl Hb Q1 Q2 Q3 Q4 Q5 Q6 Hs Hn Ht Hg.
  apply (verify_complete H _ now rq h c (au_opaque a) cnonce tok); try assumption; try reflexivity.
  - unfold admit. cbn [challenge fst with_nonces au_limit]. rewrite Hl.
    destruct (10 * 1024 * 1024 <? llen (aq_body rq)) eqn:E; [lia|reflexivity].
  - lia.
  - exists (nonce_new (nm_ttl (au_nonces a)) t0). cbn [challenge fst with_nonces au_nonces].
    split.
    + unfold nm_generate. cbn [set_nonces nm_nonces]. apply (lookup_insert_same _ str_eqb_spec).
    + cbn. split; [lia|]. split; [lia|]. split; [lia|]. now left.
Qed.
Print Assumptions C17_challenge_response.

(** C17: what the challenge says: the client's header parser reads back realm,
    nonce, algorithm, qop and opaque. *)
Theorem C17_challenge_readable : forall a tok t0 stale,
  quotable 256 (au_realm a) -> quotable 128 tok -> quotable 256 (au_opaque a) ->
  exists ah, parse_authorization (snd (challenge a tok t0 stale)) = Some ah
    /\ ah_scheme ah = lit "Digest"
    /\ param (lit "realm") ah = Some (au_realm a) /\ param (lit "nonce") ah = Some tok
    /\ param (lit "opaque") ah = Some (au_opaque a)
    /\ (exists al, param (lit "algorithm") ah = Some al /\ alg_parse al = Some (au_alg a))
    /\ (exists q, param (lit "qop") ah = Some q /\ qop_parse q = Some (au_qop a))
    /\ (stale = true -> param (lit "stale") ah = Some (lit "true")).
Proof.
  intros a tok t0 stale Q1 Q2 Q3.
  set (fs := mkF true (lit "realm") (au_realm a) :: mkF true (lit "nonce") tok
             :: mkF false (lit "algorithm") (alg_str (au_alg a)) :: mkF true (lit "qop") (qop_str (au_qop a))
             :: mkF true (lit "opaque") (au_opaque a)
             :: (if stale then [mkF false (lit "stale") (lit "true")] else [])).
  assert (E : snd (challenge a tok t0 stale) = lit "Digest" ++ [32] ++ join sep (map render fs)).
  { unfold challenge, challenge_value, fs. cbn [snd].
    generalize (au_realm a) (alg_str (au_alg a)) (qop_str (au_qop a)) (au_opaque a). intros s1 s2 s3 s4.
    destruct stale; cbn [map join]; unfold render, sep; cbn [f_quoted f_name f_value];
      rewrite ?app_nil_r, <- ?app_assoc; reflexivity. }
  rewrite E. unfold fs. rewrite parse_fields.
  - eexists. split; [reflexivity|].
    split; [reflexivity|]. split; [reflexivity|]. split; [reflexivity|]. split; [reflexivity|].
    split; [exists (alg_str (au_alg a)); split; [reflexivity|destruct (au_alg a) as [[] []]; reflexivity]|].
    split; [exists (qop_str (au_qop a)); split; [reflexivity|destruct (au_qop a); reflexivity]|].
    intros ->. reflexivity.
  - assert (N : forall n, name_plain n -> True) by auto.
    assert (P : forall n v mx, quotable mx v ->
      (match n with [] => false | _ => true end)
      && forallb (fun c => negb (is_ws c || (c =? 34) || (c =? 44) || (c =? 61))) n
      && str_eqb (lower n) n = true -> field_ok (mkF true n v)).
    { intros n v mx Hv Hn. apply (quoted_ok n v mx); [now apply name_plain_dec|assumption]. }
    apply Forall_cons; [now apply (P _ _ 256)|]. apply Forall_cons; [now apply (P _ _ 128)|].
    apply Forall_cons.
    { apply (plain_ok toy); [apply name_plain_dec; reflexivity|]. destruct (au_alg a) as [[] []]; reflexivity. }
    apply Forall_cons.
    { apply (P _ _ 256); [|reflexivity]. destruct (au_qop a); repeat split; vm_compute; congruence. }
    apply Forall_cons; [now apply (P _ _ 256)|].
    destruct stale; [|apply Forall_nil]. apply Forall_cons; [|apply Forall_nil].
    apply (plain_ok toy); [apply name_plain_dec; reflexivity|reflexivity].
  - destruct stale; cbn [map f_name];
      repeat (apply NoDup_cons; [intros Hi; repeat (destruct Hi as [Hi|Hi]; [discriminate Hi|]); exact Hi|]);
      apply NoDup_nil.
  - destruct stale; cbn; lia.
  - cbn [forallb f_name f_value].
    rewrite (quotable_pvalue toy 256 (au_realm a)), (quotable_pvalue toy 128 tok), (quotable_pvalue toy 256 (au_opaque a))
      by (assumption || lia).
    assert (A : pvalue_ok (alg_str (au_alg a)) = true) by (destruct (au_alg a) as [[] []]; reflexivity).
    assert (B : pvalue_ok (qop_str (au_qop a)) = true) by (destruct (au_qop a); reflexivity).
    rewrite A, B. destruct stale; reflexivity.
Qed.
Print Assumptions C17_challenge_readable.

Example C17_example :
  snd (verify toy (fst (challenge ex_auth (lit "n1") 10 false)) 20 ex_rq (ex_header ex_client ex_rq)) = Some true
  /\ snd (verify toy (fst (challenge ex_auth (lit "n1") 10 false)) 20 ex_rq
            (ex_header (mkClient (lit "alice") (lit "wrong") 0) ex_rq)) = Some false
  /\ hexy toy /\ quotable 256 (lit "alice") /\ quotable 256 (au_realm ex_auth) /\ quotable 256 (aq_uri ex_rq).
Proof.
  split; [vm_compute; reflexivity|]. split; [vm_compute; reflexivity|]. split; [exact toy_hexy|].
  split; [|split]; repeat split; vm_compute; congruence.
Qed.

(** ** C18 *)

(** C18: after any history the number of nonces is at most the configured
    maximum, when this is at least ten. *)
Theorem C18_bounded_partial : forall H a h, no_nonces a -> 10 <= nm_max (au_nonces a) ->
  llen (nm_nonces (au_nonces (auth_run H a h))) <= nm_max (au_nonces a).
Proof.
  intros H a h H0 H10. apply run_size; [|assumption|]; unfold tab, no_nonces in *; rewrite H0; [apply NoDup_nil|apply N.le_0_l].
Qed.
Print Assumptions C18_bounded_partial.

(** C18, full statement refuted: with a maximum below ten nothing is evicted
    (a tenth of the maximum is zero) and the table grows past it. *)
Theorem C18_refuted : exists H a h, no_nonces a
  /\ nm_max (au_nonces a) < llen (nm_nonces (au_nonces (auth_run H a h))).
Proof.
  exists toy, (with_nonces ex_auth (mkNm [] 300000 2 60000)),
    [(1, AChallenge (lit "a") false); (2, AChallenge (lit "b") false); (3, AChallenge (lit "c") false)].
  split; [reflexivity|]. vm_compute. reflexivity.
Qed.
Print Assumptions C18_refuted.
Example C18_example :
  let h := map (fun i => (i, AChallenge [i] false)) (map N.of_nat (seq 1 12)) in
  let a := with_nonces ex_auth (mkNm [] 300000 10 60000) in
  no_nonces a /\ llen (nm_nonces (au_nonces (auth_run toy a h))) = 10
  /\ lookup str_eqb [1] (nm_nonces (au_nonces (auth_run toy a h))) = None.
Proof. vm_compute. auto. Qed.

(** ** C19 *)

(** C19: an attempt, whatever its outcome, leaves every nonce it does not
    present as it was; of the one it presents it can only raise the count, to
    the count it presents, by at most 1000. *)
Theorem C19_failed_attempt_partial : forall H a now rq h k n,
  NoDup (keys (nm_nonces (au_nonces a))) -> lookup str_eqb k (nm_nonces (au_nonces a)) = Some n ->
  let after := lookup str_eqb k (nm_nonces (au_nonces (fst (verify H a now rq h)))) in
  after = Some n
  \/ exists n' c, after = Some n' /\ offers a (now, AVerify rq h) k c /\ nn_last_nc n' = c
      /\ nn_last_nc n <= c /\ c <= nn_last_nc n + 1000
      /\ nn_created n' = nn_created n /\ nn_ttl n' = nn_ttl n
      /\ (c = nn_last_nc n -> nn_hash n <> None -> nn_hash n' = nn_hash n).
Proof. intros. now apply refused_step. Qed.
Print Assumptions C19_failed_attempt_partial.

(** C19, full statement refuted: a request with a wrong response is refused, but
    its count is spent, and the legitimate client's next request, which would
    have been accepted, is refused. *)
Theorem C19_refuted : exists H a now attack hd rq hd',
  snd (verify H a now rq hd') = Some true
  /\ snd (verify H a now attack hd) = Some false
  /\ snd (verify H (fst (verify H a now attack hd)) now rq hd') = Some false.
Proof.
  exists toy, (fst (challenge ex_auth (lit "n1") 10 false)), 20, ex_rq,
    (raw_header (aq_uri ex_rq) (lit "000003e8") (lit "zz")), ex_rq, (ex_header ex_client ex_rq).
  vm_compute. auto.
Qed.
Print Assumptions C19_refuted.
Example C19_example :
  let a := fst (challenge ex_auth (lit "n1") 10 false) in
  NoDup (keys (nm_nonces (au_nonces a)))
  /\ (exists n, lookup str_eqb (lit "n1") (nm_nonces (au_nonces a)) = Some n)
  /\ snd (verify toy a 20 ex_rq (raw_header (aq_uri ex_rq) (lit "00000005") (lit "zz"))) = Some false
  /\ (exists n, lookup str_eqb (lit "n1") (nm_nonces (au_nonces (fst (verify toy a 20 ex_rq
        (raw_header (aq_uri ex_rq) (lit "00000005") (lit "zz")))))) = Some n /\ nn_last_nc n = 5).
Proof.
  split; [repeat constructor; intros []|]. split; [eexists; vm_compute; reflexivity|].
  split; [vm_compute; reflexivity|]. eexists. split; vm_compute; reflexivity.
Qed.

(** ** C20 *)

(** C20: an Authentication-Info value survives formatting and parsing. *)
Theorem C20_roundtrip : forall i, info_ok i -> info_parse (info_value i) = Some i.
Proof. intros. now apply info_roundtrip. Qed.
Print Assumptions C20_roundtrip.

(** C20: what the server puts in Authentication-Info for an authenticated
    request, the client that knows the same password accepts, and gets the next
    nonce. *)
Theorem C20_agree : forall H a now rq body next b i c nonce,
  build_auth_info H a now rq body next = (b, Some (Some i)) ->
  presents a (aq_headers rq) (lit "username") (cl_user c) ->
  presents a (aq_headers rq) (lit "nonce") nonce ->
  au_store a (cl_user c) (au_realm a) = Some (cl_pass c) ->
  verify_auth_info H c i (au_realm a) (aq_uri rq) nonce (au_alg a) body = Some next.
Proof. intros. eapply info_agrees; eassumption. Qed.
Print Assumptions C20_agree.

(** C20: and the client accepts nothing else: the rspauth must be the digest of
    its own password (RFC 7616 section 3.5: an empty method in A2). *)
Theorem C20_client_sound : forall H c i realm uri nonce al body next,
  verify_auth_info H c i realm uri nonce al body = Some next ->
  exists q cnonce nc, ai_qop i = Some q /\ ai_cnonce i = Some cnonce /\ ai_nc i = Some nc /\ ai_next i = next
    /\ ai_rspauth i = rfc_response H al q (cl_user c) realm (cl_pass c) [] uri nonce nc cnonce body.
Proof.
  intros H c i realm uri nonce al body next Hv. unfold verify_auth_info in Hv.
  destruct (ai_qop i) as [q|]; [|discriminate]. destruct (ai_cnonce i) as [cn|]; [|discriminate].
  destruct (ai_nc i) as [nc|]; [|discriminate].
  match type of Hv with (if ?b then _ else _) = _ => destruct b eqn:E; [|discriminate] end.
  injection Hv as <-. exists q, cn, nc. repeat (split; [reflexivity|]). apply str_eqb_true in E.
  rewrite <- E. unfold rfc_response, hs, rfc_ha1, rfc_ha2, client_ha1, h_str, hs. cbn [join app].
  destruct (al_sess al), q; reflexivity.
Qed.
Print Assumptions C20_client_sound.
Example C20_example :
  let i := mkInfo (Some QAuthInt) (lit "6629fae4") (Some (lit "0a4f,113b")) (Some (lit "00000001")) (Some (lit "next one")) in
  info_ok i /\ info_parse (info_value i) = Some i.
Proof.
  split; [|vm_compute; reflexivity]. split; [split; reflexivity|]. split; [|split]; intros c E; injection E as <-;
    repeat split; vm_compute; congruence.
Qed.
Example C20_agree_example :
  let a := fst (challenge ex_auth (lit "n1") 10 false) in
  let rq := mkAreq MInvite (lit "sip:bob@example.com") (ex_header ex_client ex_rq) [1; 2] in
  exists b i, build_auth_info toy a 20 rq [7] (Some (lit "n2")) = (b, Some (Some i))
    /\ presents a (aq_headers rq) (lit "username") (lit "alice") /\ presents a (aq_headers rq) (lit "nonce") (lit "n1")
    /\ verify_auth_info toy ex_client i (au_realm a) (aq_uri rq) (lit "n1") (au_alg a) [7] = Some (Some (lit "n2")).
Proof.
  eexists. eexists. split; [vm_compute; reflexivity|].
  split; [eexists; eexists; split; [vm_compute; reflexivity|split; vm_compute; reflexivity]|].
  split; [eexists; eexists; split; [vm_compute; reflexivity|split; vm_compute; reflexivity]|].
  vm_compute. reflexivity.
Qed.

(** ** C73 *)

(** C73: a request is only accepted with a nonce the server issued itself, and
    not later than its lifetime after that. *)
Theorem C73_fresh_nonce : forall H a p x e, no_nonces a -> NoDup (tokens p) -> accepts H (auth_run H a p) x e ->
  exists t stale, In (t, AChallenge (ac_nonce e) stale) p /\ ac_time e <= t + nm_ttl (au_nonces a).
Proof. intros. eapply not_expired; eassumption. Qed.
Print Assumptions C73_fresh_nonce.

(** ** C74 *)

(** C74: once a nonce has been used with a positive count, it is accepted again
    only within the reuse window after an attempt that presented it. *)
Theorem C74_reuse_window_partial : forall H a p x e q y e', no_nonces a -> NoDup (tokens (p ++ x :: q)) ->
  accepts H (auth_run H a p) x e -> accepts H (auth_run H a (p ++ x :: q)) y e' ->
  ac_nonce e = ac_nonce e' -> 0 < ac_count e ->
  exists z c, In z (p ++ x :: q) /\ offers a z (ac_nonce e) c /\ ac_time e' <= fst z + nm_age (au_nonces a).
Proof. intros. eapply reuse_window; eassumption. Qed.
Print Assumptions C74_reuse_window_partial.

(** C74, full statement refuted: with the count zero the window is not enforced. *)
Definition zero_history : list (N * auth_op) :=
  [(10, AChallenge (lit "n1") false);
   (20, AVerify ex_rq (raw_header (aq_uri ex_rq) (lit "0") (lit "aa")));
   (200000, AVerify ex_rq (raw_header (aq_uri ex_rq) (lit "0") (lit "aa")))].
Theorem C74_refuted : exists H a p x y e e', no_nonces a
  /\ accepts H (auth_run H a p) x e /\ accepts H (auth_run H a (p ++ [x])) y e'
  /\ ac_nonce e = ac_nonce e'
  /\ Forall (fun z => fst z + nm_age (au_nonces a) < ac_time e') (p ++ [x]).
Proof.
  exists amb_hash, ex_auth, (firstn 1 zero_history), (nth 1 zero_history (0, ACleanup)), (nth 2 zero_history (0, ACleanup)),
    (mkAcc 20 (lit "n1") 0 ex_rq), (mkAcc 200000 (lit "n1") 0 ex_rq).
  split; [reflexivity|]. split; [cbn [firstn nth zero_history]; show_accepts|].
  split; [cbn [firstn nth zero_history app]; show_accepts|]. split; [reflexivity|].
  repeat (apply Forall_cons; [vm_compute; reflexivity|]). apply Forall_nil.
Qed.
Print Assumptions C74_refuted.

(** ** C75 *)

(** C75: with a rate limiter configured, the number of attempts of one source
    that get an answer from the credential check in a window is bounded by the
    limiter's burst and refill, whatever else happens.  (The window is not
    longer than the limiter's idle timeout; see C12.) *)
Theorem C75_attempts_limited : forall H a c k past window lo hi,
  au_limit a = Some (c, limiter_init) -> rl_enabled c = true -> in_order 0 (past ++ window) ->
  lo <= hi -> Forall (fun x => lo <= fst x <= hi) window -> hi - lo <= rl_idle c * SEC ->
  answered H k (auth_run H a past) window
  <= rl_burst c + rl_per_refill c * ((hi - lo) / (rl_interval c * MS) + 1).
Proof.
  intros H a c k past window lo hi Hl He Ho Hlh Hw Hi.
  eapply N.le_trans; [apply answered_admitted; apply run_limit; exact Hl|].
  apply C12_window_bound; auto.
  - rewrite <- flat_map_app. now apply proj_chrono.
  - now apply proj_within.
  - apply proj_unreset.
Qed.
Print Assumptions C75_attempts_limited.
Definition c75_cfg := mkRl 10 60 2 1000 1 60 true.
Definition c75_via (v : headers) : headers := (lit "Via", lit "SIP/2.0/UDP 10.0.0.9;branch=z9hG4bK1") :: v.
Example C75_example :
  let a := with_limit ex_auth (Some (c75_cfg, limiter_init)) in
  let guess := (20, AVerify ex_rq (c75_via (raw_header (aq_uri ex_rq) (lit "00000001") (lit "zz")))) in
  let h := [(10, AChallenge (lit "n1") false); guess; guess; guess; guess] in
  in_order 0 h /\ rate_key (c75_via []) = Some (lit "10.0.0.9")
  /\ answered toy (lit "10.0.0.9") a h = 2.
Proof. split; [cbn; lia|]. split; vm_compute; reflexivity. Qed.

(** ** C92: a digest client numbers its requests.  The k-th Authorization value
    it produces, whatever it is for, carries the nonce count start + k, so no
    count is used twice (below 2^32 requests). *)
Definition call_args : Type := method * str * str * str * algorithm * qop * option str * list N * str.
Fixpoint client_run (H : hash_fn -> list N -> str) (c : client) (calls : list call_args) : list str :=
  match calls with
  | [] => []
  | (mt, uri, realm, nnc, al, q, opaque, body, cnonce) :: r =>
      let '(c', text) := generate H c mt uri realm nnc al (Some q) opaque body cnonce in text :: client_run H c' r
  end.
Theorem C92_client_counts : forall H c calls k text, nth_error (client_run H c calls) k = Some text ->
  cl_nc c + N.of_nat k < u32_max ->
  (exists a b, text = a ++ lit ", nc=" ++ hex8 (cl_nc c + N.of_nat k + 1) ++ b)
  /\ parse_hex_u32 (hex8 (cl_nc c + N.of_nat k + 1)) = Some (cl_nc c + N.of_nat k + 1).
Proof.
  intros H c calls k text Ht Hk. split; [|apply parse_hex8; lia]. revert c k Ht Hk.
  induction calls as [|[[[[[[[[mt uri] realm] nnc] al] q] opaque] body] cnonce] calls IH]; intros c k Ht Hk; [destruct k; discriminate|].
  cbn [client_run generate] in Ht. unfold generate in Ht. destruct k as [|k]; cbn [nth_error] in Ht.
  - apply (f_equal (fun o => match o with Some x => x | None => text end)) in Ht. cbv iota in Ht. rewrite <- Ht. replace (N.min (cl_nc c + 1) u32_max) with (cl_nc c + N.of_nat 0 + 1) by lia.
    match goal with |- exists a b, ?p1 ++ ?p2 ++ ?p3 ++ ?p4 ++ ?p5 ++ ?p6 ++ ?p7 ++ ?p8 ++ ?p9 ++ ?p10 ++ ?p11 ++ ?p12 ++ (?q1 ++ ?q2 ++ _) ++ ?z = _ =>
      exists (p1 ++ p2 ++ p3 ++ p4 ++ p5 ++ p6 ++ p7 ++ p8 ++ p9 ++ p10 ++ p11 ++ p12 ++ q1 ++ q2) end.
    eexists. rewrite <- !app_assoc. reflexivity.
  - destruct (IH _ _ Ht) as (a & b & E).
    + cbn [cl_nc]. lia.
    + exists a, b. rewrite E. cbn [cl_nc]. do 4 f_equal. lia.
Qed.
Print Assumptions C92_client_counts.
Example C92_example : exists t1 t2, client_run toy (mkClient (lit "alice") (lit "pw") 0)
    [(MInvite, lit "sip:b", lit "r", lit "n", mkAlg Md5 false, QAuth, None, [], lit "c1"); (MBye, lit "sip:b", lit "r", lit "n", mkAlg Md5 false, QAuth, None, [], lit "c2")] = [t1; t2] /\ t1 <> t2.
Proof. do 2 eexists. split; [vm_compute; reflexivity|]. vm_compute. discriminate. Qed.
