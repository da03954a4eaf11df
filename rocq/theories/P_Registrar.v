(** Properties of the registrar: C33-C38, C85-C89, C99. *)
From Coq Require Import NArith Bool String List Lia Permutation ZifyBool ZifyN ZifyNat.
Import ListNotations.
From Verif Require Import Base BaseFacts Headers Method Text TextFacts Uri UriProofs Msg Auth AuthSpec AuthProofs P_Auth P_Uri
  AnyUri Registrar RegistrarSpec RegistrarProofs AorProofs.
Open Scope N_scope.
Open Scope list_scope.

(** ** Concrete values for the examples *)
Definition ex_info (cid : str) (cseq : N) : binfo := mkInfoB cid cseq (lit "1") None None None None None.
Definition ex_binding (aor contact : str) : binding := mkBinding aor contact (3600 * NANOS) (ex_info (lit "c1") 1).
Definition ex_rc : rconfig := mkRc 3600 60 86400.
Definition ex_register (to cid : str) (cseq : N) (rest : headers) : headers :=
  [(lit "Via", lit "SIP/2.0/UDP h;branch=z9hG4bK1"); (lit "From", lit "<sip:alice@example.com>;tag=1");
   (lit "To", to); (lit "Call-ID", cid); (lit "CSeq", print_N cseq ++ lit " REGISTER")] ++ rest.
Definition ex_handle (now : N) (an : authn) (hs : headers) (st : store) : store * answer :=
  handle_register (fun s => s) (fun _ => true) (fun s => s) (fun _ => Some None) ex_rc now (lit "t1") (lit "d") false an hs st.
Definition alice : str := lit "sip:alice@example.com".
Definition to_alice : str := lit "<sip:alice@example.com>".
Definition one_contact (c : str) : headers := [(lit "Contact", c)].
(** a store holding one binding of alice *)
Definition ex_store : store := sop_run [] [(5, SUpsert (ex_binding alice (lit "sip:a@h1")))].
Lemma ex_reachable : reachable ex_store.
Proof. now eexists. Qed.

(** ** C33 *)
(** C33: whatever calls are made one after the other, an address of record has
    at most 20 bindings, no two with the same contact, and the store holds at
    most 100000. *)
Theorem C33_bounds : forall ops, let st := sop_run [] ops in
  NoDup (map fst st)
  /\ (forall a l, In (a, l) st -> llen l <= 20 /\ NoDup (map s_contact l))
  /\ total st <= 100000.
Proof.
  intros ops st. assert (I : sinv st) by (apply run_inv; apply sinv_nil). split; [apply I|]. split; [|apply I].
  intros a l Hi. pose proof (si_entry st I a) as [N1 N2]. rewrite (entry_in a l st (si_keys st I) Hi) in N1, N2. auto.
Qed.
Print Assumptions C33_bounds.
Example C33_example : sop_run [] [(5, SUpsert (ex_binding alice (lit "sip:a@h1"))); (6, SUpsert (ex_binding alice (lit "sip:a@h2")));
                                  (7, SUpsert (ex_binding alice (lit "sip:a@h1")))]
  = [(alice, [mkStored (lit "sip:a@h2") (6 + 3600 * NANOS) (ex_info (lit "c1") 1); mkStored (lit "sip:a@h1") (7 + 3600 * NANOS) (ex_info (lit "c1") 1)])].
Proof. vm_compute. reflexivity. Qed.

(** C33: a binding is refused only at these limits. *)
Theorem C33_accepts : forall now b st, total st < 100000 ->
  llen (filter (other (b_contact b)) (entry (b_aor b) st)) < 20 -> snd (upsert now b st) = true.
Proof.
  intros now b st T L. unfold upsert, upsert_entry. replace (MAX_TOTAL_BINDINGS <=? total st) with false by (unfold MAX_TOTAL_BINDINGS; lia).
  replace (MAX_BINDINGS_PER_AOR <=? _) with false by (unfold MAX_BINDINGS_PER_AOR; lia). reflexivity.
Qed.
Print Assumptions C33_accepts.
Example C33_accepts_example : total ex_store < 100000
  /\ llen (filter (other (lit "sip:a@h2")) (entry alice ex_store)) = 1.
Proof. vm_compute. split; reflexivity. Qed.

(** C33, for calls that overlap: refuted.  The bindings are counted before the
    entry is changed; two calls that both counted 99999 leave 100001. *)
Fixpoint fill (n : nat) : store :=
  match n with O => [] | S n => sop_step (fill n) (0, SUpsert (ex_binding (print_N (N.of_nat n)) [])) end.
Lemma fill_reachable : forall n, reachable (fill n).
Proof. induction n as [|n IH]; [now exists []|]. cbn [fill]. now apply reachable_step. Qed.
Lemma fill_facts : forall n, N.of_nat n <= 100000 ->
  total (fill n) = N.of_nat n /\ forall i, N.of_nat n <= i -> entry (print_N i) (fill n) = [].
Proof.
  induction n as [|n IH]; intros L; [split; reflexivity|]. destruct IH as [T E]; [lia|]. cbn [fill sop_step].
  pose proof (reachable_inv _ (fill_reachable n)) as I. destruct (upsert_cases 0 (ex_binding (print_N (N.of_nat n)) []) (fill n)) as [X | (_ & _ & X)].
  - exfalso. pose proof (C33_accepts 0 (ex_binding (print_N (N.of_nat n)) []) (fill n)) as A. rewrite X in A.
    cbn [ex_binding b_aor] in A. rewrite E in A by lia. specialize (A ltac:(lia) eq_refl). discriminate.
  - rewrite X. cbn [fst ex_binding b_aor b_contact b_expires b_info]. split.
    + unfold insert. cbn [total fold_right snd]. fold (total (remove_key str_eqb (print_N (N.of_nat n)) (fill n))).
      pose proof (total_remove (print_N (N.of_nat n)) (fill n) (si_keys _ I)) as R. rewrite E in R |- * by lia. cbn [filter app].
      rewrite llen_cons. change (llen (@nil stored)) with 0 in *. lia.
    + intros i Hi. rewrite entry_insert_other; [apply E; lia|]. intros Ep. apply print_N_inj in Ep. lia.
Qed.
Theorem C33_race_refuted : exists st b1 b2, reachable st /\ total st < 100000
  /\ total (fst (upsert_entry 0 b2 (fst (upsert_entry 0 b1 st)))) = 100001.
Proof.
  assert (exists n, N.of_nat n = 99999) as [n En] by (exists (N.to_nat 99999); apply N2Nat.id).
  destruct (fill_facts n) as [T E]; [rewrite En; lia|].
  set (b1 := ex_binding (print_N 99999) []). set (b2 := ex_binding (print_N 100000) []).
  exists (fill n), b1, b2. split; [apply fill_reachable|]. rewrite T, En. split; [reflexivity|].
  assert (I : sinv (fill n)) by apply reachable_inv, fill_reachable.
  assert (Step : forall st b, sinv st -> entry (b_aor b) st = [] -> total (fst (upsert_entry 0 b st)) = total st + 1
            /\ forall a, a <> b_aor b -> entry a (fst (upsert_entry 0 b st)) = entry a st).
  { clear. intros st b I E. unfold upsert_entry. rewrite E. cbn [filter]. change (MAX_BINDINGS_PER_AOR <=? llen (@nil stored)) with false. cbv iota. cbn [fst app].
    split; [|intros a Ha; now apply entry_insert_other]. unfold insert. cbn [total fold_right snd]. fold (total (remove_key str_eqb (b_aor b) st)).
    pose proof (total_remove (b_aor b) st (si_keys _ I)) as R. rewrite E in R. rewrite llen_cons. change (llen (@nil stored)) with 0 in *. lia. }
  destruct (Step (fill n) b1 I) as [S1 S2]; [apply (E 99999); rewrite En; lia|].
  destruct (Step (fst (upsert_entry 0 b1 (fill n))) b2) as [S3 _].
  - pose proof (upsert_inv 0 b1 (fill n) I) as U. unfold upsert in U. rewrite T, En in U. exact U.
  - rewrite S2; [apply (E 100000); rewrite En; lia|]. cbn [b1 b2 ex_binding b_aor]. intros X. apply print_N_inj in X. discriminate.
  - rewrite S3, S1, T, En. reflexivity.
Qed.
Print Assumptions C33_race_refuted.

(** ** C34 *)
(** C34: a lookup gives, each once, exactly the bindings last stored for the
    address and not removed since, whose expiry is still to come, with the time
    that is left. *)
Theorem C34_lookup : forall ops st r t a, both_run [] no_bindings ops = (st, r) -> clock_from 0 ops -> last_time ops <= t ->
  NoDup (map b_contact (lookup_at t a st))
  /\ forall b, In b (lookup_at t a st) <->
       exists until, r a (b_contact b) = Some (until, b_info b) /\ t < until
                     /\ b_aor b = a /\ b_expires b = until - t.
Proof.
  intros ops st r t a H C L. pose proof (both_refines ops [] no_bindings 0 sinv_nil) as R. rewrite H in R. destruct R as (I & R & _).
  - intros a'. split; [intros s []|discriminate].
  - exact C.
  - apply (refines_later _ t) in R; [|exact L]. split; [now apply lookup_at_nodup|]. intros b. rewrite lookup_at_eq. destruct (R a) as [A B]. split.
    + intros Hi. apply in_map_iff in Hi. destruct Hi as (s & <- & Hi). apply filter_In in Hi. destruct Hi as [Hi Hl]. exists (s_until s).
      cbn [to_binding b_contact b_info b_aor b_expires]. split; [now apply A|]. unfold live in Hl. split; [lia|]. now split.
    + intros (u & E & Lt & Ea & Ee). apply in_map_iff. exists (mkStored (b_contact b) u (b_info b)). split.
      * unfold to_binding. cbn [s_contact s_until s_info]. rewrite <- Ee, <- Ea. now destruct b.
      * apply filter_In. split; [now apply B|]. unfold live. cbn [s_until]. lia.
Qed.
Print Assumptions C34_lookup.
Definition ex_ops : list (N * sop) :=
  [(5, SUpsert (ex_binding alice (lit "sip:a@h1"))); (6, SUpsert (ex_binding alice (lit "sip:a@h2")));
   (7, SRemove alice (lit "sip:a@h1")); (8, SCleanup); (9, SLookup alice)].
Example C34_example : clock_from 0 ex_ops /\ last_time ex_ops = 9
  /\ lookup_at 10 alice (fst (both_run [] no_bindings ex_ops)) = [mkBinding alice (lit "sip:a@h2") (6 + 3600 * NANOS - 10) (ex_info (lit "c1") 1)]
  /\ lookup_at (6 + 3600 * NANOS) alice (fst (both_run [] no_bindings ex_ops)) = [].
Proof. cbn [clock_from ex_ops fst]. repeat split; lia || vm_compute; reflexivity. Qed.

(** C34: cleanup removes exactly the expired bindings and reports how many; it
    changes nothing that a lookup from then on sees. *)
Theorem C34_cleanup : forall st now, reachable st ->
  same_bindings now st (fst (cleanup now st))
  /\ (forall a, entry a (fst (cleanup now st)) = filter (live now) (entry a st))
  /\ snd (cleanup now st) = fold_right (fun e n => llen (filter (fun s => s_until s <=? now) (snd e)) + n) 0 st.
Proof.
  intros st now R. apply reachable_inv in R. assert (E : forall a, entry a (fst (cleanup now st)) = filter (live now) (entry a st)) by (intros a; apply entry_cleanup; apply R).
  split; [apply same_bindings_entries; intros a; rewrite E; now apply filter_impl|]. split; [exact E|].
  unfold cleanup. cbn [snd]. clear. induction st as [|[a l] st IH]; [reflexivity|]. cbn [map total fold_right snd fst]. fold (total st). fold (total (map (fun e => (fst e, filter (live now) (snd e))) st)).
  assert (L : llen l = llen (filter (live now) l) + llen (filter (fun s => s_until s <=? now) l)).
  { clear. induction l as [|s l IH]; [reflexivity|]. cbn [filter]. unfold live at 1. destruct (now <? s_until s) eqn:E.
    - replace (s_until s <=? now) with false by lia. rewrite !llen_cons. lia.
    - replace (s_until s <=? now) with true by lia. rewrite !llen_cons. lia. }
  pose proof (total_live now st) as T. rewrite <- IH. lia.
Qed.
Print Assumptions C34_cleanup.
Example C34_cleanup_example : reachable ex_store /\ snd (cleanup (5 + 3600 * NANOS) ex_store) = 1 /\ snd (cleanup (4 + 3600 * NANOS) ex_store) = 0.
Proof. split; [apply ex_reachable|]. vm_compute. split; reflexivity. Qed.

(** ** C35 *)
Section Requests.
  Variable nfc : str -> str.
  Variable q_ok : str -> bool.
  Variable q_show : str -> str.
  Variable path_of : headers -> option (option str).
  Notation handle_register := (handle_register nfc q_ok q_show path_of).

  (** the CSeq number of a request is at most [n] (if it has one at all) *)
  Definition cseq_up_to (hs : headers) (n : N) : Prop :=
    exists v num m rest, header_of hs (lit "CSeq") = Some v /\ split_ws v = num :: m :: rest
      /\ forall k, parse_uint u32_max num = Some k -> k <= n.

  (** C35 without the wildcard: a REGISTER with the Call-ID of a live binding and
      a CSeq that is not higher leaves that binding as it is, whatever else the
      request contains and however it is answered. *)
  Theorem C35_old_cseq_partial : forall rc now tag date limited an hs st st' ans a b,
    reachable st -> handle_register rc now tag date limited an hs st = (st', ans) ->
    ~ wildcard hs ->
    In b (lookup_at now a st) -> header_of hs (lit "Call-ID") = Some (bi_call_id (b_info b)) ->
    cseq_up_to hs (bi_cseq (b_info b)) ->
    same_contact now st st' a (b_contact b).
  Proof.
    intros rc now tag date limited an hs st st' ans a b R H W Hb Hc (v & n & m & rest & E1 & E2 & E3).
    apply (handle_keep nfc q_ok q_show path_of rc now tag date limited an hs st st' ans a (b_contact b) H W). right.
    split; [now apply reachable_inv|]. now exists b, v, n, m, rest.
  Qed.

  (** a history of REGISTER requests with non-decreasing times *)
  Fixpoint registers (rc : rconfig) (tag date : str) (st : store) (l : list (N * (authn * headers))) : store :=
    match l with
    | [] => st
    | (now, (an, hs)) :: r => registers rc tag date (fst (handle_register rc now tag date false an hs st)) r
    end.
  Fixpoint times_from (t : N) (l : list (N * (authn * headers))) : Prop :=
    match l with [] => True | (now, _) :: r => t <= now /\ times_from now r end.
  (** C35 over histories: a binding stays, with its information and expiry, as
      long as only old REGISTERs of its Call-ID, or REGISTERs that do not name
      its contact, arrive. *)
  Theorem C35_history_partial : forall rc tag date l st t0 t a b until,
    reachable st -> times_from t0 l -> (forall x, In x l -> fst x < until) ->
    In b (lookup_at t0 a st) -> b_expires b = until - t0 -> t0 < until ->
    (forall now an hs, In (now, (an, hs)) l -> ~ wildcard hs
       /\ ((header_of hs (lit "Call-ID") = Some (bi_call_id (b_info b)) /\ cseq_up_to hs (bi_cseq (b_info b)))
           \/ forall k, In k (contact_headers hs) -> contact_uri k <> Some (b_contact b))) ->
    (forall x, In x l -> fst x <= t) -> t0 <= t -> t < until ->
    In (mkBinding a (b_contact b) (until - t) (b_info b)) (lookup_at t a (registers rc tag date st l)).
  Proof.
    intros rc tag date l. induction l as [|[now [an hs]] l IH]; intros st t0 t a b until R T U Hb He Lt Hl Ht L0 Lu; cbn [registers].
    - rewrite lookup_at_eq in Hb |- *. apply in_map_iff in Hb. destruct Hb as (s & <- & Hs). cbn [to_binding b_contact b_expires b_info] in *.
      apply filter_In in Hs. destruct Hs as [Hs Hv]. unfold live in Hv. assert (Eu : s_until s = until) by lia.
      apply in_map_iff. exists s. split; [unfold to_binding; now rewrite Eu|]. apply filter_In. split; [exact Hs|]. unfold live. lia.
    - destruct T as [T1 T2]. pose proof (U _ (or_introl eq_refl)) as Un. pose proof (Ht _ (or_introl eq_refl)) as Tn. cbn [fst] in Un, Tn.
      destruct (handle_register rc now tag date false an hs st) as [st1 ans] eqn:E. cbn [fst].
      set (b1 := mkBinding a (b_contact b) (until - now) (b_info b)).
      assert (Hb1 : In b1 (lookup_at now a st)).
      { rewrite lookup_at_eq in Hb |- *. apply in_map_iff in Hb. destruct Hb as (s & <- & Hs). cbn [to_binding b_contact b_expires b_info] in *.
        apply filter_In in Hs. destruct Hs as [Hs Hv]. unfold live in Hv. assert (Eu : s_until s = until) by lia.
        apply in_map_iff. exists s. split; [unfold b1, to_binding; now rewrite Eu|]. apply filter_In. split; [exact Hs|]. unfold live. lia. }
      destruct (Hl now an hs (or_introl eq_refl)) as [W Hc].
      assert (S : same_contact now st st1 a (b_contact b)).
      { destruct Hc as [[C1 C2]|C].
        - exact (C35_old_cseq_partial _ _ _ _ _ _ _ _ _ _ a b1 R E W Hb1 C1 C2).
        - apply (handle_keep nfc q_ok q_show path_of _ _ _ _ _ _ _ _ _ _ a (b_contact b) E W). now left. }
      apply (IH st1 now t a b1 until); try assumption.
      + now apply (handle_reachable nfc q_ok q_show path_of _ _ _ _ _ _ _ _ _ _ E).
      + intros x Hx. apply U. now right.
      + now apply (S now b1 (N.le_refl now) eq_refl).
      + reflexivity.
      + intros n' an' hs' Hi. cbn [b1 b_info b_contact]. apply (Hl n' an' hs'). now right.
      + intros x Hx. apply Ht. now right.
  Qed.
End Requests.
Print Assumptions C35_old_cseq_partial.
Print Assumptions C35_history_partial.
(** the hypotheses hold for a delayed REGISTER (CSeq 1) that would remove the
    contact; the answer is 400 and the binding is there afterwards *)
Definition late : headers := ex_register to_alice (lit "c1") 1 (one_contact (lit "<sip:a@h1>;expires=0")).
Example C35_example : reachable ex_store
  /\ lookup_at 10 alice ex_store = [mkBinding alice (lit "sip:a@h1") (5 + 3600 * NANOS - 10) (ex_info (lit "c1") 1)]
  /\ ~ wildcard late /\ header_of late (lit "Call-ID") = Some (lit "c1") /\ cseq_up_to late 1
  /\ (exists r, snd (ex_handle 10 NoAuth late ex_store) = Answered 400 r)
  /\ lookup_at 10 alice (fst (ex_handle 10 NoAuth late ex_store)) = lookup_at 10 alice ex_store.
Proof.
  split; [apply ex_reachable|]. split; [vm_compute; reflexivity|]. split.
  { intros (k & Hk & E). vm_compute in Hk. destruct Hk as [<-|[]]. vm_compute in E. discriminate. }
  split; [reflexivity|]. split.
  { exists (lit "1 REGISTER"), (lit "1"), (lit "REGISTER"), []. split; [reflexivity|]. split; [reflexivity|]. intros k E. vm_compute in E. injection E as <-. lia. }
  split; [eexists; vm_compute; reflexivity|]. vm_compute. reflexivity.
Qed.
(** C35, full statement refuted: a REGISTER with the wildcard contact, the same
    Call-ID and an old CSeq removes the binding. *)
Definition late_wildcard : headers := ex_register to_alice (lit "c1") 1 [(lit "Contact", lit "*"); (lit "Expires", lit "0")].
Theorem C35_wildcard_refuted : exists st now hs b, reachable st /\ In b (lookup_at now alice st)
  /\ header_of hs (lit "Call-ID") = Some (bi_call_id (b_info b)) /\ cseq_up_to hs (bi_cseq (b_info b))
  /\ (exists r, snd (ex_handle now NoAuth hs st) = Answered 200 r)
  /\ lookup_at now alice (fst (ex_handle now NoAuth hs st)) = [].
Proof.
  exists ex_store, 10, late_wildcard. eexists. split; [apply ex_reachable|]. split; [left; vm_compute; reflexivity|]. split; [reflexivity|]. split.
  { exists (lit "1 REGISTER"), (lit "1"), (lit "REGISTER"), []. split; [reflexivity|]. split; [reflexivity|]. intros k E. vm_compute in E. injection E as <-. vm_compute. discriminate. }
  split; [eexists; vm_compute; reflexivity|]. vm_compute. reflexivity.
Qed.
Print Assumptions C35_wildcard_refuted.

(** ** C36 *)
(** C36 for requests with one contact: an error response means that no lookup
    sees a change. *)
Theorem C36_single_contact_partial : forall nfc q_ok q_show path_of rc now tag date limited an hs st st' code r k,
  handle_register nfc q_ok q_show path_of rc now tag date limited an hs st = (st', Answered code r) -> code <> 200 ->
  contact_headers hs = [k] -> same_bindings now st st'.
Proof. intros. eapply handle_single; eassumption. Qed.
Print Assumptions C36_single_contact_partial.
Example C36_example : contact_headers late = [lit "<sip:a@h1>;expires=0"]
  /\ exists r, snd (ex_handle 10 NoAuth late ex_store) = Answered 400 r.
Proof. split; [vm_compute; reflexivity|]. eexists. vm_compute. reflexivity. Qed.
(** C36, full statement refuted: the second of two contacts is rejected with 400
    after the first one was stored. *)
Definition half_bad : headers := ex_register to_alice (lit "c2") 7 [(lit "Contact", lit "<sip:a@h9>, <bad>")].
Theorem C36_two_contacts_refuted : exists st now hs, reachable st
  /\ (exists r, snd (ex_handle now NoAuth hs st) = Answered 400 r)
  /\ ~ same_bindings now st (fst (ex_handle now NoAuth hs st)).
Proof.
  exists ex_store, 10, half_bad. split; [apply ex_reachable|]. split; [eexists; vm_compute; reflexivity|].
  intros S. specialize (S 10 alice (N.le_refl 10)). vm_compute in S. discriminate.
Qed.
Print Assumptions C36_two_contacts_refuted.
(** C36: a To header just below the size limit; the tag added for the response
    makes it too long, so the call fails, with the binding stored. *)
Definition long_to : str := to_alice ++ repeat 32 (N.to_nat 8160) ++ lit ";x=1".
Definition long_request : headers := ex_register long_to (lit "c2") 7 (one_contact (lit "<sip:a@h9>")).
Lemma changed : forall st st' now aor, (llen (lookup_at now aor st) =? llen (lookup_at now aor st')) = false -> ~ same_bindings now st st'.
Proof. intros st st' now aor L S. apply N.eqb_neq in L. apply L. now rewrite (S now aor (N.le_refl now)). Qed.
Theorem C36_failure_refuted : exists st now hs, reachable st
  /\ Forall (fun h => validate_header_value (snd h) = None) hs
  /\ snd (ex_handle now NoAuth hs st) = Failed
  /\ ~ same_bindings now st (fst (ex_handle now NoAuth hs st)).
Proof.
  exists ex_store, 10, long_request. split; [apply ex_reachable|]. split; [repeat constructor; vm_compute; reflexivity|]. split; [vm_compute; reflexivity|].
  apply (changed _ _ 10 alice). vm_compute. reflexivity.
Qed.
Print Assumptions C36_failure_refuted.

(** ** C37 *)
(** C37 with an authenticator for the Authorization header: if any lookup sees a
    change at an address of record, the request carries a correct digest
    response for an account with a password on file, the To URI of the request
    is that address, and its user part (or telephone number) is the account
    name, up to Unicode normalisation and ASCII letter case. *)
Theorem C37_authorised_partial : forall nfc q_ok q_show path_of H a ch rc now tag date limited rq st st' ans t aor,
  digest_register nfc q_ok q_show path_of H a ch rc now tag date limited rq st = (st', ans) -> au_proxy a = false ->
  now <= t -> lookup_at t aor st' <> lookup_at t aor st ->
  exists user pass nonce nc cnonce resp to id,
    presents a (aq_headers rq) (lit "username") user /\ au_store a user (au_realm a) = Some pass
    /\ presents a (aq_headers rq) (lit "response") resp
    /\ resp = rfc_response H (au_alg a) (au_qop a) user (au_realm a) pass (method_str (aq_method rq)) (aq_uri rq) nonce nc cnonce (aq_body rq)
    /\ about (aq_headers rq) to aor /\ owner_of to = Some id /\ eq_ic (nfc id) (nfc user) = true.
Proof.
  intros nfc q_ok q_show path_of H a ch rc now tag date limited rq st st' ans t aor D Px L Df. unfold digest_register in D.
  set (an := match snd (verify H a now rq (aq_headers rq)) with Some true => AuthOk | _ => AuthRejected ch end) in *.
  pose proof (handle_cases _ _ _ _ _ _ _ _ _ _ _ _ _ _ D) as C.
  destruct C as [[-> _]|(aor' & cseq & _ & Rej & _ & Ra & _)]; [congruence|].
  assert (V : snd (verify H a now rq (aq_headers rq)) = Some true).
  { unfold an in Rej. destruct (snd (verify H a now rq (aq_headers rq))) as [[|]|]; [reflexivity|exfalso; now apply (Rej ch)|exfalso; now apply (Rej ch)]. }
  destruct (register_about nfc an (aq_headers rq) aor' Ra) as (to & Ab & Iv).
  assert (aor = aor') as <-.
  { destruct (str_eq_dec aor aor') as [E|E]; [exact E|]. exfalso. apply Df. rewrite !lookup_at_eq.
    now rewrite (handle_other_aor _ _ _ _ _ _ _ _ _ _ _ _ _ _ _ _ D Ab aor E). }
  destruct (verify_sound _ _ _ _ _ V) as (dp & n & pass & e & e' & V1 & V2 & V3 & _).
  destruct V1 as (v & ah & o & D1 & D2 & D3 & D4 & D5 & D6 & D7 & D8 & D9 & _).
  assert (Ea : an = AuthOk) by (unfold an; now rewrite V). rewrite Ea in Ra.
  assert (Un : auth_username (aq_headers rq) = Some (dp_user dp)).
  { unfold auth_username. unfold auth_header_name in D1. rewrite Px in D1. rewrite D1, D2, D3. exact D4. }
  assert (Id : exists id, owner_of to = Some id /\ eq_ic (nfc id) (nfc (dp_user dp)) = true).
  { destruct Ab as (w & na & A1 & A2 & A3 & A4). pose proof (identity_owner to aor Iv A4) as Ow. unfold register_aor in Ra.
    rewrite A1, A2, A3, A4, Un in Ra. destruct (aor_identity aor) as [id|]; [|discriminate]. exists id. split; [now symmetry|].
    unfold usernames_equal in Ra. destruct (eq_ic (nfc id) (nfc (dp_user dp))); [reflexivity|discriminate]. }
  destruct Id as (id & Id1 & Id2).
  exists (dp_user dp), pass, (dp_nonce dp), (dp_nc dp), (dp_cnonce dp), (dp_response dp), to, id.
  split; [now exists v, ah|]. split; [exact V2|]. split; [now exists v, ah|]. split; [exact V3|]. split; [exact Ab|]. now split.
Qed.
Print Assumptions C37_authorised_partial.
(** requests for the examples *)
Definition reg_auth (proxy : bool) : auth :=
  fst (challenge (mkAuth (lit "example.com") (mkAlg Md5 false) QAuth
    (fun u r => if str_eqb u (lit "alice") then Some (lit "secret") else if str_eqb u (lit "ALICE") then Some (lit "other")
                else if str_eqb u (lit "mallory") then Some (lit "evil") else None)
    (mkNm [] 300000 100 60000) proxy (lit "op4que") None) (lit "n1") 0 false).
Definition credentials (user pass : str) : str :=
  snd (generate toy (mkClient user pass 0) MRegister (lit "sip:example.com") (lit "example.com") (lit "n1")
         (mkAlg Md5 false) (Some QAuth) (Some (lit "op4que")) [] (lit "c0")).
Definition reg_request (auths : headers) : areq :=
  mkAreq MRegister (lit "sip:example.com") (ex_register to_alice (lit "c9") 3 (one_contact (lit "<sip:a@h9>") ++ auths)) [].
Definition ex_digest (proxy : bool) (auths : headers) : store * answer :=
  digest_register (fun s => s) (fun _ => true) (fun s => s) (fun _ => Some None) toy (reg_auth proxy) (Answered 401 [])
    ex_rc 10 (lit "t1") (lit "d") false (reg_request auths) ex_store.
Example C37_example :
  (exists r, snd (ex_digest false [(lit "Authorization", credentials (lit "alice") (lit "secret"))]) = Answered 200 r)
  /\ lookup_at 10 alice (fst (ex_digest false [(lit "Authorization", credentials (lit "alice") (lit "secret"))])) <> lookup_at 10 alice ex_store
  /\ snd (ex_digest false [(lit "Authorization", credentials (lit "alice") (lit "wrong"))]) = Answered 401 []
  /\ (exists r, snd (ex_digest false [(lit "Authorization", credentials (lit "mallory") (lit "evil"))]) = Answered 403 r).
Proof.
  split; [eexists; vm_compute; reflexivity|]. split; [vm_compute; discriminate|]. split; [vm_compute; reflexivity|]. eexists. vm_compute. reflexivity.
Qed.
(** C37, exact user names: refuted.  The account ALICE, with its own password,
    changes the bindings of alice. *)
Theorem C37_case_refuted : exists user pass,
  au_store (reg_auth false) (lit "alice") (lit "example.com") <> Some pass /\ user <> lit "alice"
  /\ (exists r, snd (ex_digest false [(lit "Authorization", credentials user pass)]) = Answered 200 r)
  /\ lookup_at 10 alice (fst (ex_digest false [(lit "Authorization", credentials user pass)])) <> lookup_at 10 alice ex_store.
Proof.
  exists (lit "ALICE"), (lit "other"). split; [vm_compute; discriminate|]. split; [discriminate|].
  split; [eexists; vm_compute; reflexivity|]. vm_compute. discriminate.
Qed.
Print Assumptions C37_case_refuted.
(** C37 with an authenticator for the Proxy-Authorization header: refuted.  The
    digest is verified in one header, the user name is taken from another: with
    mallory's credentials and the bare name alice, mallory changes alice's
    bindings. *)
Theorem C37_proxy_refuted : exists auths,
  hget (lit "Proxy-Authorization") auths = Some (credentials (lit "mallory") (lit "evil"))
  /\ hget (lit "Authorization") auths = Some (lit "Digest username=""alice""")
  /\ (exists r, snd (ex_digest true auths) = Answered 200 r)
  /\ lookup_at 10 alice (fst (ex_digest true auths)) <> lookup_at 10 alice ex_store.
Proof.
  exists [(lit "Proxy-Authorization", credentials (lit "mallory") (lit "evil")); (lit "Authorization", lit "Digest username=""alice""")].
  split; [vm_compute; reflexivity|]. split; [vm_compute; reflexivity|]. split; [eexists; vm_compute; reflexivity|]. vm_compute. discriminate.
Qed.
Print Assumptions C37_proxy_refuted.

(** ** C38 *)
(** C38: two SIP URIs, with whatever parameters, headers and letter case of the
    host, have the same address of record exactly when scheme, user, host
    (lower-cased by the parser) and port agree. *)
Theorem C38_sip_same_partial : forall t1 t2 u1 u2, parse_uri t1 = Some u1 -> parse_uri t2 = Some u2 ->
  ~ In 58 (u_host u1) -> ~ In 58 (u_host u2) ->
  (normalize_aor (ASip u1) = normalize_aor (ASip u2)
   <-> u_sips u1 = u_sips u2 /\ u_user u1 = u_user u2 /\ lower (u_host u1) = lower (u_host u2) /\ u_port u1 = u_port u2).
Proof.
  intros t1 t2 u1 u2 P1 P2 C1 C2. apply mem_false in C1, C2. destruct (parse_uri_inv _ _ P1) as (_ & _ & L1 & _). destruct (parse_uri_inv _ _ P2) as (_ & _ & L2 & _).
  cbn [normalize_aor]. split.
  - intros E. assert (E' : sip_aor u1 = sip_aor u2) by congruence. rewrite L1, L2. now apply (sip_aor_inj t1 t2).
  - intros (A & B & C & D). f_equal. unfold sip_aor, aor_user. rewrite A, B, C, D. destruct (u_user u2); [|reflexivity].
    rewrite <- L1, C, L2. reflexivity.
Qed.
Print Assumptions C38_sip_same_partial.
Example C38_sip_example : exists u1 u2, parse_uri (lit "sip:alice@EXAMPLE.com:5070;transport=tcp?x=y") = Some u1
  /\ parse_uri (lit "sip:%61lice@example.COM:5070;lr") = Some u2
  /\ normalize_aor (ASip u1) = Some (lit "sip:alice@example.com:5070") /\ normalize_aor (ASip u2) = normalize_aor (ASip u1).
Proof. do 2 eexists. do 3 (split; [vm_compute; reflexivity|]). vm_compute. reflexivity. Qed.
(** C38: the normal form of a SIP URI is itself a URI with that normal form. *)
Theorem C38_sip_idempotent_partial : forall t u, parse_uri t = Some u -> ~ In 58 (u_host u) ->
  (forall x, u_user u = Some x -> is_str x = true /\ ~ In 37 x /\ trimmed x) ->
  exists u', parse_uri (sip_aor u) = Some u' /\ normalize_aor (ASip u') = Some (sip_aor u).
Proof.
  intros t u P C Hu. destruct (sip_aor_parse t u P) as (u' & A & _ & _ & _ & _ & E).
  - now apply mem_false.
  - destruct (u_user u) as [x|]; [|exact I]. destruct (Hu x eq_refl) as (A & B & D). split; [exact A|]. split; [now apply mem_false|now apply trimmed_edge].
  - exists u'. split; [exact A|]. cbn [normalize_aor]. now rewrite E.
Qed.
Print Assumptions C38_sip_idempotent_partial.
Theorem C38_ipv6_refuted : exists t u, parse_uri t = Some u /\ parse_uri (sip_aor u) = None.
Proof. exists (lit "sip:alice@[2001:db8::1]"). eexists. split; [vm_compute; reflexivity|]. vm_compute. reflexivity. Qed.
Print Assumptions C38_ipv6_refuted.
Theorem C38_percent_refuted : exists t u u', parse_uri t = Some u /\ parse_uri (sip_aor u) = Some u' /\ sip_aor u' <> sip_aor u.
Proof.
  exists (lit "sip:a%2541@h"). do 2 eexists. split; [vm_compute; reflexivity|]. split; [vm_compute; reflexivity|]. vm_compute. discriminate.
Qed.
Print Assumptions C38_percent_refuted.
(** C38: two tel URIs have the same address of record when their numbers agree up
    to visual separators and their parameters agree up to order, letter case of
    the names and form of the phone context, if no name occurs twice. *)
Theorem C38_tel_same_partial : forall num num' ps ps' t t',
  ~ In 59 num -> ~ In 59 num' -> Forall (fun p => ~ In 59 p) ps -> Forall (fun p => ~ In 59 p) ps' ->
  tel_parse (tel_text num ps) = Some t -> tel_parse (tel_text num' ps') = Some t' ->
  strip_seps (trim num) = strip_seps (trim num') ->
  Permutation (norm_params ps) (norm_params ps') -> NoDup (map fst (norm_params ps)) ->
  normalize_aor (ATel t) = normalize_aor (ATel t').
Proof.
  intros num num' ps ps' t t' M M' F F' H H' E P N. cbn [normalize_aor]. f_equal. apply mem_false in M, M'.
  assert (G : forall l, Forall (fun p => ~ In 59 p) l -> Forall (fun p => mem 59 p = false) l) by (intros l; apply Forall_impl; intros p Hp; now apply mem_false).
  exact (tel_equiv num num' ps ps' t t' M M' (G _ F) (G _ F') H H' E P N).
Qed.
Print Assumptions C38_tel_same_partial.
(** C38: the normal form of a tel URI is itself a tel URI with that normal form,
    if no parameter name occurs twice. *)
Theorem C38_tel_idempotent_partial : forall num ps t, ~ In 59 num -> Forall (fun p => ~ In 59 p) ps ->
  tel_parse (tel_text num ps) = Some t -> NoDup (map fst (norm_params ps)) ->
  exists t', tel_parse (tel_aor t) = Some t' /\ normalize_aor (ATel t') = Some (tel_aor t).
Proof.
  intros num ps t M F H N. apply mem_false in M.
  assert (G : Forall (fun p => mem 59 p = false) ps) by (revert F; apply Forall_impl; intros p Hp; now apply mem_false).
  destruct (tel_idem num ps t M G H N) as (t' & A & B). exists t'. split; [exact A|]. cbn [normalize_aor]. now rewrite B.
Qed.
Print Assumptions C38_tel_idempotent_partial.
Example C38_tel_example :
  let p1 := [lit "isub=12"; lit "phone-context=Example.COM"; lit "EXT=5"] in let p2 := [lit "ext=5"; lit "Phone-Context=example.com"; lit "isub=12"] in
  exists t1 t2, tel_parse (tel_text (lit "555-12.34") p1) = Some t1 /\ tel_parse (tel_text (lit "(555) 1234") p2) = Some t2
  /\ NoDup (map fst (norm_params p1)) /\ Permutation (norm_params p1) (norm_params p2)
  /\ normalize_aor (ATel t1) = Some (lit "tel:5551234;phone-context=example.com;ext=5;isub=12").
Proof.
  do 2 eexists. split; [vm_compute; reflexivity|]. split; [vm_compute; reflexivity|]. split.
  { repeat constructor; cbn; intuition discriminate. }
  split; [|vm_compute; reflexivity].
  change (Permutation [(lit "isub", Some (lit "12")); (lit "phone-context", Some (lit "example.com")); (lit "ext", Some (lit "5"))]
            [(lit "ext", Some (lit "5")); (lit "phone-context", Some (lit "example.com")); (lit "isub", Some (lit "12"))]).
  eapply perm_trans; [apply perm_skip, perm_swap|]. eapply perm_trans; [apply perm_swap|]. apply perm_skip. apply perm_swap.
Qed.
(** C38: parameter names that differ only in letter case are kept twice; the
    normal form has another normal form. *)
Theorem C38_tel_case_refuted : exists t t', tel_parse (lit "tel:+1555;ext=1;EXT=2") = Some t /\ tel_parse (tel_aor t) = Some t' /\ tel_aor t' <> tel_aor t.
Proof. do 2 eexists. split; [vm_compute; reflexivity|]. split; [vm_compute; reflexivity|]. vm_compute. discriminate. Qed.
Print Assumptions C38_tel_case_refuted.

(** ** C85 *)
(** C85: a REGISTER changes nothing outside the address of record of its To
    header, and there (wildcard aside) nothing about contacts that it does not
    name. *)
Theorem C85_other_addresses : forall nfc q_ok q_show path_of rc now tag date limited an hs st st' ans t a,
  handle_register nfc q_ok q_show path_of rc now tag date limited an hs st = (st', ans) ->
  (forall to aor, about hs to aor -> a <> aor) -> lookup_at t a st' = lookup_at t a st.
Proof.
  intros nfc q_ok q_show path_of rc now tag date limited an hs st st' ans t a H Ha.
  pose proof (handle_cases _ _ _ _ _ _ _ _ _ _ _ _ _ _ H) as C. destruct C as [[-> _]|(aor' & cseq & _ & _ & _ & Ra & _)]; [reflexivity|].
  destruct (register_about nfc an hs aor' Ra) as (to & Ab & _). rewrite !lookup_at_eq.
  now rewrite (handle_other_aor _ _ _ _ _ _ _ _ _ _ _ _ _ _ _ _ H Ab a (Ha _ _ Ab)).
Qed.
Print Assumptions C85_other_addresses.
Theorem C85_other_contacts : forall nfc q_ok q_show path_of rc now tag date limited an hs st st' ans a c,
  handle_register nfc q_ok q_show path_of rc now tag date limited an hs st = (st', ans) -> ~ wildcard hs ->
  (forall k, In k (contact_headers hs) -> contact_uri k <> Some c) -> same_contact now st st' a c.
Proof. intros. eapply handle_keep; [eassumption|assumption|now left]. Qed.
Print Assumptions C85_other_contacts.
Example C85_example : (exists r, snd (ex_handle 10 NoAuth half_bad ex_store) = Answered 400 r) /\ ~ wildcard half_bad
  /\ (forall k, In k (contact_headers half_bad) -> contact_uri k <> Some (lit "sip:a@h1"))
  /\ exists to, about half_bad to alice.
Proof.
  split; [eexists; vm_compute; reflexivity|]. split; [|split].
  - intros (k & Hk & E). vm_compute in Hk. destruct Hk as [<-|[<-|[]]]; vm_compute in E; discriminate.
  - intros k Hk. vm_compute in Hk. destruct Hk as [<-|[<-|[]]]; vm_compute; discriminate.
  - eexists. exists to_alice. eexists. split; [vm_compute; reflexivity|]. split; [vm_compute; reflexivity|]. split; vm_compute; reflexivity.
Qed.

(** ** C86 *)
(** C86: the Contact headers of a 200 response (wildcard aside) are the bindings a
    lookup at that moment gives, in the same order, each with the whole seconds
    that are left. *)
Theorem C86_response_lists : forall nfc q_ok q_show path_of rc now tag date limited an hs st st' r,
  handle_register nfc q_ok q_show path_of rc now tag date limited an hs st = (st', Answered 200 r) -> challenging an -> ~ wildcard hs ->
  exists to aor, about hs to aor
    /\ hget_all (lit "Contact") r
       = map (fun b => b_contact b ++ lit ";expires=" ++ print_N (b_expires b / NANOS)
                       ++ if b_expires b / NANOS =? 0 then [] else lit ";q=" ++ q_show (bi_q (b_info b)))
             (lookup_at now aor st').
Proof.
  intros nfc q_ok q_show path_of rc now tag date limited an hs st st' r H Ch W.
  destruct (handle_success _ _ _ _ _ _ _ _ _ _ _ _ _ _ H Ch) as (to & aor & Ab & [(k & Ek & Et & _)|(_ & path & cseq & st2 & _ & D & -> & ->)]).
  - exfalso. apply W. exists k. rewrite Ek. split; [now left|exact Et].
  - exists to, aor. split; [exact Ab|].
    rewrite (purge_same now aor st2 now aor (N.le_refl now)).
    assert (G : forall l1 l2, hget_all (lit "Contact") (l1 ++ l2) = hget_all (lit "Contact") l1 ++ hget_all (lit "Contact") l2)
      by (intros; unfold hget_all; now rewrite filter_app, map_app).
    assert (Cp : hget_all (lit "Contact") (copied tag hs) = []).
    { unfold copied. rewrite !G. unfold opt_header. destruct (hget (lit "Via") hs), (hget (lit "From") hs), (hget (lit "To") hs), (hget (lit "Call-ID") hs), (hget (lit "CSeq") hs); reflexivity. }
    assert (Pt : forall l, hget_all (lit "Contact") (map (fun p => (lit "Path", p)) l) = []) by (induction l as [|p l IH]; [reflexivity|exact IH]).
    rewrite !G, Cp, Pt. change (hget_all (lit "Contact") [(lit "Date", date); (lit "Content-Length", lit "0")]) with (@nil str). rewrite app_nil_r. cbn [app].
    clear H. induction (lookup_at now aor st2) as [|b l IH]; [reflexivity|]. unfold hget_all in IH |- *. cbn [map filter].
    change (name_eq (lit "Contact", format_contact q_show b) (lit "Contact")) with true. cbv iota. cbn [map snd]. rewrite IH. f_equal. unfold format_contact.
    destruct (b_expires b / NANOS =? 0) eqn:Z; [apply N.eqb_eq in Z; rewrite Z; now rewrite app_nil_r|reflexivity].
Qed.
Print Assumptions C86_response_lists.
Definition fresh_contact : headers := ex_register to_alice (lit "c2") 7 (one_contact (lit "<sip:a@h9>;expires=120")).
Example C86_example : exists r, snd (ex_handle 10 NoAuth fresh_contact ex_store) = Answered 200 r
  /\ challenging NoAuth /\ ~ wildcard fresh_contact
  /\ hget_all (lit "Contact") r = [lit "sip:a@h1;expires=3599;q=1"; lit "sip:a@h9;expires=120;q=1"].
Proof.
  eexists. split; [vm_compute; reflexivity|]. split; [intros r; discriminate|]. split; [|vm_compute; reflexivity].
  intros (k & Hk & E). vm_compute in Hk. destruct Hk as [<-|[]]; vm_compute in E; discriminate.
Qed.

(** ** C87 *)
(** C87: a 200 response means that the request took effect: for every contact
    (its last mention), the binding is gone if the expiry asked for is zero, and
    otherwise it is stored for exactly the time asked for, which is within the
    registrar's limits and between a minute and a day, under the Call-ID and
    CSeq of the request.  A wildcard request leaves no binding. *)
Theorem C87_effect : forall nfc q_ok q_show path_of rc now tag date limited an hs st st' r,
  handle_register nfc q_ok q_show path_of rc now tag date limited an hs st = (st', Answered 200 r) -> challenging an ->
  exists to aor, about hs to aor
  /\ (wildcard hs -> forall t, lookup_at t aor st' = [])
  /\ (~ wildcard hs -> forall k c, last_for hs k c -> exists secs, asked rc hs k secs
        /\ ((secs = 0 /\ forall t b, In b (lookup_at t aor st') -> b_contact b <> c)
            \/ (rc_min rc <= secs <= rc_max rc /\ 60 <= secs <= 86400
                /\ exists b, In b (lookup_at now aor st') /\ b_contact b = c /\ b_expires b = secs * NANOS
                    /\ Some (bi_call_id (b_info b)) = header_of hs (lit "Call-ID")
                    /\ register_cseq hs = Some (bi_cseq (b_info b))))).
Proof.
  intros nfc q_ok q_show path_of rc now tag date limited an hs st st' r H Ch.
  pose proof (handle_cases _ _ _ _ _ _ _ _ _ _ _ _ _ _ H) as Hc.
  destruct (handle_success _ _ _ _ _ _ _ _ _ _ _ _ _ _ H Ch) as (to & aor & Ab & C). exists to, aor. split; [exact Ab|].
  destruct C as [(k & Ek & Et & -> & _)|(Nw & path & cseq & st2 & Rc & D & -> & _)].
  - split; [|intros W; exfalso; apply W; exists k; rewrite Ek; split; [now left|exact Et]].
    intros _ t. rewrite lookup_at_eq. unfold remove_all. now rewrite entry_remove.
  - split; [intros W; contradiction|]. intros _ k c (pre & post & Ec & Hk & Hp). rewrite Ec in D.
    destruct (do_effect nfc q_ok q_show path_of _ _ _ _ _ _ _ _ _ _ _ D Hk Hp) as (ci & Rd & <- & Ef). destruct (read_asked nfc q_ok q_show path_of rc hs k ci Rd) as [As Lim].
    exists (ci_secs ci). split; [exact As|]. destruct Ef as [[Z Ef]|[Rg Ef]]; cbn [rx_aor rx_call_id rx_cseq rx_ua rx_path] in Ef.
    + left. split; [exact Z|]. intros t b Hb. rewrite lookup_at_eq in Hb. unfold purge in Hb. rewrite entry_retain in Hb.
      apply in_map_iff in Hb. destruct Hb as (s & <- & Hs). apply filter_In in Hs. destruct Hs as [Hs _]. apply filter_In in Hs. now apply Ef.
    + right. unfold MIN_EXPIRES_SECS, MAX_EXPIRES_SECS in Rg. split; [destruct Lim as [Lim|Lim]; [lia|exact Lim]|]. split; [exact Rg|].
      eexists (to_binding now aor (mkStored (ci_uri ci) (now + ci_secs ci * NANOS) _)). split.
      * rewrite lookup_at_eq. unfold purge. rewrite entry_retain. apply in_map. apply filter_In. split; [apply filter_In; split; [exact Ef|]|]; unfold live; cbn [s_until]; unfold NANOS; lia.
      * cbn [to_binding b_contact b_expires b_info s_contact s_until s_info bi_call_id bi_cseq]. split; [reflexivity|]. split; [lia|]. split; [|exact Rc].
        destruct Hc as [[_ [E|(code & Hc & E)]]|(aor1 & cseq1 & _ & _ & Rq & _)].
        -- now apply Ch in E.
        -- symmetry in E. apply respond_code in E. congruence.
        -- specialize (Rq (lit "Call-ID") ltac:(cbn; tauto)). unfold header_of. destruct (hget (lit "Call-ID") hs); [reflexivity|discriminate].
Qed.
Print Assumptions C87_effect.
Example C87_example : last_for fresh_contact (lit "<sip:a@h9>;expires=120") (lit "sip:a@h9")
  /\ asked ex_rc fresh_contact (lit "<sip:a@h9>;expires=120") 120
  /\ exists r, snd (ex_handle 10 NoAuth fresh_contact ex_store) = Answered 200 r.
Proof.
  split; [exists [], []; split; [vm_compute; reflexivity|]; split; [vm_compute; reflexivity|intros k []]|].
  split; [left; exists (lit "120"); split; vm_compute; reflexivity|]. eexists. vm_compute. reflexivity.
Qed.

(** ** C88 *)
(** C88, refuted: two different IPv6 addresses of record share their bindings,
    because the normal form drops the brackets. *)
Theorem C88_ipv6_refuted : exists t1 t2 u1 u2, parse_uri t1 = Some u1 /\ parse_uri t2 = Some u2
  /\ u_host u1 <> u_host u2 /\ u_port u1 <> u_port u2 /\ normalize_aor (ASip u1) = normalize_aor (ASip u2).
Proof.
  exists (lit "sip:alice@[2001:db8::1]:5060"), (lit "sip:alice@[2001:db8::1:5060]"). do 2 eexists. split; [vm_compute; reflexivity|]. split; [vm_compute; reflexivity|].
  split; [vm_compute; discriminate|]. split; [vm_compute; discriminate|]. vm_compute. reflexivity.
Qed.
Print Assumptions C88_ipv6_refuted.

(** ** C89 *)
(** C89: a quoted display name, whatever it contains, does not change which URI
    a name-addr header names. *)
Theorem C89_display_name : forall d u na na', ~ In 34 d -> ~ In 92 d ->
  parse_name_addr ([34] ++ d ++ [34] ++ lit " <" ++ u ++ lit ">") = Some na ->
  parse_name_addr (lit "<" ++ u ++ lit ">") = Some na' -> na_uri na = na_uri na'.
Proof.
  intros d u na na' Hq Hb H H'.
  assert (New : forall d u ps na, na_new d u ps = Some na -> na_uri na = u).
  { clear. intros d u ps na E. unfold na_new in E. match type of E with (if ?b then _ else _) = _ => destruct b; [|discriminate] end. now injection E as <-. }
  assert (T1 : trim ([34] ++ d ++ [34] ++ lit " <" ++ u ++ lit ">") = [34] ++ d ++ [34] ++ lit " <" ++ u ++ lit ">").
  { apply trim_edge. replace ([34] ++ d ++ [34] ++ lit " <" ++ u ++ lit ">") with ((34 :: (d ++ [34] ++ lit " <" ++ u)) ++ [62]) by (rewrite <- app_comm_cons, <- !app_assoc; reflexivity).
    split; [reflexivity|]. rewrite rev_app_distr. reflexivity. }
  assert (T2 : trim (lit "<" ++ u ++ lit ">") = lit "<" ++ u ++ lit ">").
  { apply trim_edge. change (lit "<" ++ u ++ lit ">") with ((60 :: u) ++ [62]). split; [reflexivity|]. rewrite rev_app_distr. reflexivity. }
  unfold parse_name_addr in H, H'. rewrite T1 in H. rewrite T2 in H'. cbn [app] in H. change (lit "<" ++ u ++ lit ">") with (60 :: u ++ [62]) in H'. cbv iota in H, H'.
  assert (S : forall s, scan_to 60 true false (d ++ 34 :: s) = match scan_to 60 false false s with Some (a, b) => Some (d ++ 34 :: a, b) | None => None end).
  { clear - Hq Hb. induction d as [|c d IH]; intros s.
    - cbn. destruct (scan_to 60 false false s) as [[a b]|]; reflexivity.
    - cbn [app scan_to]. replace (c =? 92) with false by (symmetry; apply N.eqb_neq; intros ->; apply Hb; now left).
      replace (c =? 34) with false by (symmetry; apply N.eqb_neq; intros ->; apply Hq; now left). cbn [andb]. rewrite IH; [destruct (scan_to 60 false false s) as [[a b]|]; reflexivity| |].
      + intros Hi. apply Hq. now right.
      + intros Hi. apply Hb. now right. }
  assert (S1 : scan_to 60 false false (34 :: d ++ 34 :: lit " <" ++ u ++ lit ">") = Some (34 :: d ++ 34 :: [32], u ++ [62])).
  { cbn [scan_to]. change (false && (34 =? 92)) with false. change (34 =? 34) with true. cbv iota. cbn [negb]. rewrite S. reflexivity. }
  change (34 :: d ++ 34 :: 32 :: 60 :: u ++ lit ">") with (34 :: d ++ 34 :: lit " <" ++ u ++ lit ">") in H. rewrite S1 in H.
  change (scan_to 60 false false (60 :: u ++ [62])) with (Some (@nil N, u ++ [62])) in H'. cbv iota in H, H'.
  destruct (scan_to 62 false false (u ++ [62])) as [[inside rest]|]; [|discriminate].
  destruct (na_params (trim rest)) as [ps|]; [|discriminate]. destruct (parse_any (trim inside)) as [x|]; [|discriminate].
  apply New in H, H'. congruence.
Qed.
Print Assumptions C89_display_name.
Example C89_example : exists na na', parse_name_addr (lit """Bob <sip:eve@evil>; tag="" <sip:bob@h;lr>") = Some na
  /\ parse_name_addr (lit "<sip:bob@h;lr>") = Some na' /\ any_text (na_uri na) = lit "sip:bob@h;lr".
Proof. do 2 eexists. split; [vm_compute; reflexivity|]. split; vm_compute; reflexivity. Qed.

(** ** C99: what a response to a REGISTER carries *)
Lemma copied_values : forall tag hs rest n, Forall (fun e => eq_ic (fst e) n = false) rest ->
  hget n (copied tag hs ++ rest) = hget n (copied tag hs).
Proof.
  intros tag hs rest n F. unfold hget. generalize (copied tag hs). intros l. induction l as [|h l IH]; cbn [app find].
  - induction F as [|x r Hx F IH]; [reflexivity|]. cbn [find]. unfold name_eq at 1. now rewrite Hx.
  - destruct (name_eq h n); [reflexivity|exact IH].
Qed.
Definition echoed (n : str) : Prop := In n [lit "Via"; lit "From"; lit "Call-ID"; lit "CSeq"; lit "To"].
Lemma copied_get : forall tag hs n, echoed n ->
  hget n (copied tag hs) = match hget n hs with
    | Some v => Some (if str_eqb n (lit "To") then ensure_to_tag tag v else v) | None => None end.
Proof.
  intros tag hs n E. unfold echoed in E. cbn [In] in E. unfold copied.
  destruct (hget (lit "Via") hs) as [a|] eqn:E1, (hget (lit "From") hs) as [b|] eqn:E2, (hget (lit "To") hs) as [c|] eqn:E3,
    (hget (lit "Call-ID") hs) as [d|] eqn:E4, (hget (lit "CSeq") hs) as [e|] eqn:E5;
    repeat (destruct E as [<- | E]; [rewrite ?E1, ?E2, ?E3, ?E4, ?E5; reflexivity|]); destruct E.
Qed.
Lemma rest_names : forall n (rest : list (str * str)), echoed n ->
  (forall e, In e rest -> In (fst e) [lit "Contact"; lit "Path"; lit "Date"; lit "Content-Length"; lit "Min-Expires"]) ->
  Forall (fun e => eq_ic (fst e) n = false) rest.
Proof.
  intros n rest E H. apply Forall_forall. intros e He. specialize (H e He). unfold echoed in E. cbn [In] in E, H.
  repeat (destruct E as [<- | E]; [repeat (destruct H as [<- | H]; [reflexivity|]); destruct H|]). destruct E.
Qed.
Lemma answer_shape : forall nfc q_ok q_show path_of rc now tag date limited an hs st st' code r,
  handle_register nfc q_ok q_show path_of rc now tag date limited an hs st = (st', Answered code r) ->
  (forall c, an <> AuthRejected c) ->
  exists rest, r = copied tag hs ++ rest
    /\ forall e, In e rest -> In (fst e) [lit "Contact"; lit "Path"; lit "Date"; lit "Content-Length"; lit "Min-Expires"].
Proof.
  intros nfc q_ok q_show path_of rc now tag date limited an hs st st' code r H A. apply handle_cases in H.
  assert (Er : forall c, Answered code r = error tag c hs -> exists rest, r = copied tag hs ++ rest
    /\ forall e, In e rest -> In (fst e) [lit "Contact"; lit "Path"; lit "Date"; lit "Content-Length"; lit "Min-Expires"]).
  { intros c E. symmetry in E. apply respond_ok in E. destruct E as [_ ->]. eexists. split; [reflexivity|]. intros e [<- | []]. cbn. auto 8. }
  destruct H as [[_ [E|(c & _ & E)]]|(aor & cseq & _ & _ & _ & _ & _ & _ & C)]; [now apply A in E|exact (Er c E)|].
  destruct C as [(k & _ & _ & _ & _ & E)|(_ & path & st2 & e & _ & _ & C)].
  - symmetry in E. apply respond_ok in E. destruct E as [_ ->]. eexists. split; [reflexivity|]. intros x [<- | [<- | [<- | []]]]; cbn; auto 8.
  - destruct C as [(_ & _ & E)|[(c & _ & _ & E)|(_ & _ & E)]]; [discriminate| |].
    + destruct (c =? 423); [|exact (Er c E)]. symmetry in E. apply respond_ok in E. destruct E as [_ ->]. eexists. split; [reflexivity|].
      intros x [<- | [<- | []]]; cbn; auto 8.
    + symmetry in E. apply respond_ok in E. destruct E as [_ ->]. eexists. split; [reflexivity|].
      intros x Hx. apply in_app_or in Hx. destruct Hx as [Hx|Hx]; [apply in_map_iff in Hx; destruct Hx as (y & <- & _); cbn; auto 8|].
      apply in_app_or in Hx. destruct Hx as [Hx|Hx]; [apply in_map_iff in Hx; destruct Hx as (y & <- & _); cbn; auto 8|].
      destruct Hx as [<- | [<- | []]]; cbn; auto 8.
Qed.
(** C99 (partial): every response the registrar makes itself, success or error, has
    the first Via, the From, the Call-ID and the CSeq of the request, and its To with
    a tag: unchanged if it has one, else with the new tag appended.  Missing: the
    further Via lines (see [C99_vias_refuted]). *)
Theorem C99_echo_partial : forall nfc q_ok q_show path_of rc now tag date limited an hs st st' code r,
  handle_register nfc q_ok q_show path_of rc now tag date limited an hs st = (st', Answered code r) ->
  (forall c, an <> AuthRejected c) ->
  (forall n, In n [lit "Via"; lit "From"; lit "Call-ID"; lit "CSeq"] -> hget n r = hget n hs)
  /\ (hget (lit "To") hs = None -> hget (lit "To") r = None)
  /\ (forall a b, hget (lit "To") hs = Some (a ++ lit ";tag=" ++ b) -> hget (lit "To") r = hget (lit "To") hs)
  /\ (forall t, hget (lit "To") hs = Some t -> (forall a b, t <> a ++ lit ";tag=" ++ b) -> hget (lit "To") r = Some (t ++ lit ";tag=" ++ tag)).
Proof.
  intros nfc q_ok q_show path_of rc now tag date limited an hs st st' code r H A.
  destruct (answer_shape _ _ _ _ _ _ _ _ _ _ _ _ _ _ _ H A) as (rest & -> & Hr).
  assert (G : forall n, echoed n -> hget n (copied tag hs ++ rest) = match hget n hs with
     | Some v => Some (if str_eqb n (lit "To") then ensure_to_tag tag v else v) | None => None end).
  { intros n E. etransitivity; [apply copied_values, rest_names; assumption|]. now apply copied_get. }
  assert (Et : echoed (lit "To")) by (unfold echoed; cbn; auto 6).
  split; [|rewrite (G _ Et); change (str_eqb (lit "To") (lit "To")) with true; cbn iota; split; [|split]].
  - intros n Hn. rewrite G; [|unfold echoed; cbn [In] in *; tauto].
    destruct (hget n hs) as [v|]; [|reflexivity]. repeat (destruct Hn as [<- | Hn]; [reflexivity|]). destruct Hn.
  - intros ->. reflexivity.
  - intros a b ->. unfold ensure_to_tag. destruct (find_sub (lit ";tag=") (a ++ lit ";tag=" ++ b)) eqn:E; [reflexivity|].
    exfalso. revert E. apply find_sub_app.
  - intros t -> Ht. unfold ensure_to_tag. destruct (find_sub (lit ";tag=") t) as [[x y]|] eqn:E; [|reflexivity].
    exfalso. apply find_sub_some in E. exact (Ht _ _ E).
Qed.
Print Assumptions C99_echo_partial.
Example C99_example : exists st' r, ex_handle 5 NoAuth (ex_register to_alice (lit "c") 1 (one_contact (lit "<sip:a@h>"))) [] = (st', Answered 200 r)
  /\ hget (lit "To") r = Some (lit "<sip:alice@example.com>;tag=t1") /\ hget (lit "CSeq") r = Some (lit "1 REGISTER").
Proof. do 2 eexists. split; [vm_compute; reflexivity|]. split; vm_compute; reflexivity. Qed.
(** C99 refuted: of two Via lines only the first comes back, so the response cannot be
    routed past the proxy that is named in it *)
Theorem C99_vias_refuted : exists st' r, ex_handle 5 NoAuth
    (ex_register to_alice (lit "c") 1 [(lit "Via", lit "SIP/2.0/UDP u;branch=z9hG4bK2"); (lit "Contact", lit "<sip:a@h>")]) [] = (st', Answered 200 r)
  /\ hget_all (lit "Via") r = [lit "SIP/2.0/UDP h;branch=z9hG4bK1"].
Proof. do 2 eexists. split; vm_compute; reflexivity. Qed.
Print Assumptions C99_vias_refuted.
(** C99 refuted: a tag written with a space or in upper case is not noticed, and the
    response has two *)
Theorem C99_tag_refuted : exists st' r, ex_handle 5 NoAuth
    (ex_register (lit "<sip:alice@example.com>; tag=7") (lit "c") 1 (one_contact (lit "<sip:a@h>"))) [] = (st', Answered 200 r)
  /\ hget (lit "To") r = Some (lit "<sip:alice@example.com>; tag=7;tag=t1").
Proof. do 2 eexists. split; vm_compute; reflexivity. Qed.
Print Assumptions C99_tag_refuted.
