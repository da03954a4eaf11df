(** C179: what a subscription records.  C180: the store of subscriptions. *)
From Coq Require Import NArith Bool String List Lia ZifyBool ZifyN ZifyNat.
Import ListNotations.
From Verif Require Import Base BaseFacts Text Headers Method Uri Msg Dialog DialogProofs MessageProofs Subs SubsSpec.
Open Scope N_scope.
Open Scope list_scope.

Lemma sid_eqb_spec : forall a b, sid_eqb a b = true <-> a = b.
Proof.
  intros [a1 a2 a3 a4] [b1 b2 b3 b4]. unfold sid_eqb. cbn. rewrite !andb_true_iff, !str_eqb_spec. intuition congruence.
Qed.
Lemma split_bytes_cut : forall u n a b, split_bytes n u = Some (a, b) -> u = a ++ b.
Proof.
  induction u as [|c u IHu]; intros n a b E; cbn [split_bytes] in E.
  - destruct (n =? 0); [now injection E as <- <-|discriminate].
  - destruct (n =? 0); [now injection E as <- <-|]. destruct (len_utf8 c <=? n); [|discriminate].
    destruct (split_bytes (n - len_utf8 c) u) as [[a' b']|] eqn:Y; [|discriminate]. injection E as <- <-.
    cbn [app]. f_equal. now apply (IHu (n - len_utf8 c)).
Qed.
Lemma lower_ascii : forall k, forallb is_ascii (lower k) = forallb is_ascii k.
Proof.
  induction k as [|c k IH]; [reflexivity|]. cbn [lower map forallb]. change (map lower_c k) with (lower k). rewrite IH. f_equal.
  unfold is_ascii, lower_c, is_upper, in_range. destruct ((65 <=? c) && (c <=? 90)) eqn:E; lia.
Qed.
Lemma tag_cut : forall p t, tag_part p t -> 4 <= blen (trim p) /\ exists k, split_bytes 4 (trim p) = Some (k, t) /\ eq_ic k (lit "tag=") = true.
Proof.
  intros p t (k & E & L). assert (A : forallb is_ascii k = true) by (rewrite <- lower_ascii, L; reflexivity).
  assert (X : llen k = 4). { change 4 with (llen (lit "tag=")). rewrite <- L. unfold llen, lower. now rewrite map_length. }
  assert (Y := split_bytes_ascii k t A). rewrite X in Y. rewrite E. split.
  - rewrite blen_app. pose proof (llen_le_blen k). lia.
  - exists k. split; [exact Y|]. apply eq_ic_spec. exact L.
Qed.
Lemma find_tag_sound : forall segs t, find_tag segs = Ret (Some t) ->
  exists pre p post, segs = pre ++ p :: post /\ tag_part p t /\ forall q u, In q pre -> ~ tag_part q u.
Proof.
  induction segs as [|s segs IH]; intros t H; [discriminate|]. cbn [find_tag] in H.
  assert (K : (forall u, ~ tag_part s u) -> find_tag segs = Ret (Some t) ->
              exists pre p post, s :: segs = pre ++ p :: post /\ tag_part p t /\ forall q u, In q pre -> ~ tag_part q u).
  { intros No F. destruct (IH t F) as (pre & p & post & -> & T & P). exists (s :: pre), p, post. split; [reflexivity|]. split; [exact T|].
    intros q u [<- | Q]; [apply No|now apply P]. }
  destruct (4 <=? blen (trim s)) eqn:L.
  - destruct (split_bytes 4 (trim s)) as [[a b]|] eqn:E; [|discriminate]. destruct (eq_ic a (lit "tag=")) eqn:X.
    + injection H as <-. exists [], s, segs. split; [reflexivity|]. split; [|intros ? ? []]. exists a. split; [now apply (split_bytes_cut _ 4)|].
      apply eq_ic_spec in X. exact X.
    + apply K; [|exact H]. intros u U. destruct (tag_cut _ _ U) as (_ & k & E' & X'). congruence.
  - apply K; [|exact H]. intros u U. destruct (tag_cut _ _ U) as (W & _). lia.
Qed.
Lemma find_tag_complete : forall pre p post t, tag_part p t -> (forall q u, In q pre -> ~ tag_part q u) ->
  find_tag (pre ++ p :: post) = Ret (Some t) \/ find_tag (pre ++ p :: post) = Panics.
Proof.
  induction pre as [|q pre IH]; intros p post t T P.
  - left. cbn [app find_tag]. destruct (tag_cut _ _ T) as (W & k & E & X). replace (4 <=? blen (trim p)) with true by lia. now rewrite E, X.
  - cbn [app find_tag]. assert (K : find_tag (pre ++ p :: post) = Ret (Some t) \/ find_tag (pre ++ p :: post) = Panics).
    { apply IH; [exact T|]. intros x u Q. apply P. now right. }
    destruct (4 <=? blen (trim q)); [|exact K]. destruct (split_bytes 4 (trim q)) as [[a b]|] eqn:E; [|now right].
    destruct (eq_ic a (lit "tag=")) eqn:X; [|exact K]. exfalso. apply (P q b (or_introl eq_refl)). exists a. split; [now apply (split_bytes_cut _ 4)|].
    apply eq_ic_spec in X. exact X.
Qed.
Lemma tag_sound : forall v t, extract_tag v = Ret (Some t) -> tagged v t.
Proof. intros v t H. exact (find_tag_sound _ _ H). Qed.
Lemma tag_complete : forall v t, forallb is_ascii v = true -> tagged v t -> extract_tag v = Ret (Some t).
Proof.
  intros v t A (pre & p & post & E & T & P). destruct (extract_tag_ascii v A) as [r R]. unfold extract_tag in *. rewrite E in *.
  destruct (find_tag_complete pre p post t T P) as [F | F]; [exact F|]. rewrite F in R. discriminate.
Qed.
Lemma seconds_iff : forall t n, parse_uint u64_max t = Some n <-> seconds t n.
Proof.
  intros t n. unfold parse_uint, seconds. set (b := match t with c :: r => if c =? 43 then r else t | [] => t end).
  assert (B : t = b \/ t = 43 :: b).
  { subst b. destruct t as [|c r]; [now left|]. destruct (c =? 43) eqn:E; [right; f_equal; lia|now left]. }
  assert (Uq : forall ds, (t = ds \/ t = 43 :: ds) -> forallb is_digit ds = true -> ds = b).
  { intros ds [-> | ->] D; subst b; [|reflexivity]. destruct ds as [|c r]; [reflexivity|]. cbn [forallb] in D. apply andb_true_iff in D. destruct D as [D _].
    unfold is_digit, in_range in D. now replace (c =? 43) with false by lia. }
  split.
  - intros H. destruct b as [|c r] eqn:Eb; [discriminate|]. rewrite <- Eb in *. destruct (all_digits b) eqn:D; [|discriminate].
    cbv zeta in H. destruct (digits_value b <=? u64_max) eqn:L; [|discriminate]. injection H as <-. split; [unfold u64_max in L; lia|].
    exists b. split; [exact B|]. split; [rewrite Eb; discriminate|]. split; [exact D|reflexivity].
  - intros (L & ds & O & Ne & D & V). rewrite <- (Uq ds O D). unfold all_digits. rewrite D. cbv zeta. rewrite V. destruct ds as [|c r]; [now elim Ne|].
    now replace (n <=? u64_max) with true by (unfold u64_max; lia).
Qed.
Lemma expiry_iff : forall a b n, expiry [a; b] = Some n <-> lifetime a b n.
Proof.
  intros [a|] b n; cbn [expiry lifetime]; [apply seconds_iff|]. destruct b; [apply seconds_iff|]. split; [now intros [= <-]|now intros ->].
Qed.
Lemma expiry1_iff : forall a n, expiry [a] = Some n <-> lifetime a None n.
Proof. intros [a|] n; cbn [expiry lifetime]; [apply seconds_iff|]. split; [now intros [= <-]|now intros ->]. Qed.
Lemma cseq_range : forall n, is_some (validate_cseq n) = false <-> 1 <= n < 2 ^ 31.
Proof. intros n. unfold validate_cseq, MAX_CSEQ_VALUE. destruct (n =? 0) eqn:A; [cbn; lia|]. destruct (2147483647 <? n) eqn:B; cbn; lia. Qed.

Lemma made : forall rq rs l r asked e s, (forall n, e = Some n <-> lifetime (header_of (p_headers rs) (lit "Expires")) asked n) ->
  sub_make rq rs l r e = Ret (Some s) -> agreed rq rs l r asked s.
Proof.
  intros rq rs l r asked e s Ex H. unfold sub_make, sid_from_both, sid_of in H.
  destruct (header_of (q_headers rq) (lit "Call-ID")) as [c|] eqn:C; [|discriminate].
  destruct (header_of (q_headers rq) (lit "From")) as [f|] eqn:F; [|discriminate].
  destruct (extract_tag f) as [[ft|]|] eqn:FT; try discriminate.
  destruct (header_of (p_headers rs) (lit "To")) as [t|] eqn:T; [|discriminate].
  destruct (extract_tag t) as [[tg|]|] eqn:TT; try discriminate.
  destruct (header_of (q_headers rq) (lit "Event")) as [ev|] eqn:E; [|discriminate].
  destruct (extract_contact (p_headers rs)) as [ct|] eqn:CT; [|discriminate].
  destruct (parse_cseq_number (q_headers rq)) as [n|] eqn:CS; [|discriminate].
  destruct (is_some (validate_cseq n)) eqn:V; [discriminate|]. destruct e as [e0|] eqn:EE; [|discriminate]. injection H as <-.
  unfold agreed. cbn [s_id s_state s_local s_remote s_contact s_expires s_lcseq s_rcseq si_call si_from si_to si_event]. rewrite C, F, T, E, CT, CS.
  refine (conj eq_refl (conj (ex_intro _ f (conj eq_refl (tag_sound _ _ FT))) (conj (ex_intro _ t (conj eq_refl (tag_sound _ _ TT))) (conj eq_refl (conj eq_refl (conj eq_refl (conj _ (conj _ (conj eq_refl (conj eq_refl (conj eq_refl eq_refl))))))))))).
  - now apply cseq_range.
  - now apply Ex.
Qed.
Lemma makes : forall rq rs l r asked e s, (forall n, e = Some n <-> lifetime (header_of (p_headers rs) (lit "Expires")) asked n) ->
  plain_addresses rq rs -> agreed rq rs l r asked s -> sub_make rq rs l r e = Ret (Some s).
Proof.
  intros rq rs l r asked e s Ex [PF PT] (C & (f & F & FT) & (t & T & TT) & E & CT & CS & V & L & St & Lo & Re & Rc).
  unfold sub_make, sid_from_both, sid_of. rewrite C, F, (tag_complete _ _ (PF _ F) FT), T, (tag_complete _ _ (PT _ T) TT), E, CT, CS.
  rewrite (proj2 (cseq_range _) V). rewrite (proj2 (Ex _) L). destruct s as [[a b c d] st lo re co x lc rc]. cbn in *. now subst.
Qed.

(** ** C179 *)
(** A subscription holds what its two messages say, on either side. *)
Theorem C179_records : forall rq rs l r s,
  (new_notifier rq rs l r = Ret (Some s) -> agreed rq rs l r (header_of (q_headers rq) (lit "Expires")) s)
  /\ (new_subscriber rq rs l r = Ret (Some s) -> agreed rq rs l r None s).
Proof.
  intros. split; intros H; (eapply made; [|exact H]); intros; [apply expiry_iff|apply expiry1_iff].
Qed.
Print Assumptions C179_records.
Theorem C179_accepts : forall rq rs l r s, plain_addresses rq rs ->
  (agreed rq rs l r (header_of (q_headers rq) (lit "Expires")) s -> new_notifier rq rs l r = Ret (Some s))
  /\ (agreed rq rs l r None s -> new_subscriber rq rs l r = Ret (Some s)).
Proof.
  intros. split; intros A; (eapply makes; [|assumption|exact A]); intros; [apply expiry_iff|apply expiry1_iff].
Qed.
Print Assumptions C179_accepts.
(** When the response names the expiry, both sides hold the same subscription. *)
Theorem C179_same : forall rq rs l r l' r', header_of (p_headers rs) (lit "Expires") <> None ->
  new_notifier rq rs l r = new_subscriber rq rs l r
  /\ forall s s', new_notifier rq rs l r = Ret (Some s) -> new_subscriber rq rs l' r' = Ret (Some s') ->
     s_id s = s_id s' /\ s_expires s = s_expires s' /\ s_contact s = s_contact s'.
Proof.
  intros rq rs l r l' r' H. unfold new_notifier, new_subscriber. destruct (header_of (p_headers rs) (lit "Expires")) as [x|]; [|congruence].
  cbn [expiry]. split; [reflexivity|]. intros s s'. unfold sub_make.
  destruct (sid_from_both rq rs) as [[i|]|]; try discriminate. destruct (extract_contact (p_headers rs)); [|discriminate].
  destruct (parse_cseq_number (q_headers rq)); [|discriminate]. destruct (is_some _); [discriminate|]. destruct (parse_uint u64_max x); [|discriminate].
  intros [= <-] [= <-]. now cbn.
Qed.
Print Assumptions C179_same.

(** a SUBSCRIBE with its answer *)
Definition ex_a : sip_uri := mkUri (lit "sip:a.example") false None (lit "a.example") None [] [].
Definition ex_rq (more : headers) : req :=
  mkReq MSubscribe (SipU ex_a) ([(lit "Call-ID", lit "c1"); (lit "From", lit "<sip:a@a.example>;tag=aa"); (lit "To", lit "<sip:b@b.example>");
    (lit "CSeq", lit "7 SUBSCRIBE"); (lit "Event", lit "presence;id=1")] ++ more) [].
Definition ex_rs (more : headers) : resp :=
  mkResp 200 (lit "OK") ([(lit "Call-ID", lit "c1"); (lit "From", lit "<sip:a@a.example>;tag=aa"); (lit "To", lit "<sip:b@b.example>;TAG=bb");
    (lit "CSeq", lit "7 SUBSCRIBE"); (lit "Contact", lit "<sip:b@10.0.0.1>")] ++ more) [].
Example C179_example : exists s,
  new_notifier (ex_rq []) (ex_rs [(lit "Expires", lit "600")]) ex_a ex_a = Ret (Some s) /\ s_expires s = 600 /\ s_lcseq s = 7
  /\ s_id s = mkSid (lit "c1") (lit "aa") (lit "bb") (lit "presence;id=1")
  /\ plain_addresses (ex_rq []) (ex_rs [(lit "Expires", lit "600")]).
Proof.
  eexists. split; [vm_compute; reflexivity|]. split; [reflexivity|]. split; [reflexivity|]. split; [reflexivity|].
  split; intros v H; vm_compute in H; injection H as <-; reflexivity.
Qed.

(** When only the request names the expiry, the two sides disagree. *)
Theorem C179_expiry_refuted : exists rq rs l r s s', new_notifier rq rs l r = Ret (Some s) /\ new_subscriber rq rs l r = Ret (Some s')
  /\ s_expires s = 60 /\ s_expires s' = 3600.
Proof.
  exists (ex_rq [(lit "Expires", lit "60")]), (ex_rs []), ex_a, ex_a. do 2 eexists.
  split; [vm_compute; reflexivity|]. split; [vm_compute; reflexivity|]. split; reflexivity.
Qed.
Print Assumptions C179_expiry_refuted.
Lemma sid_sound : forall qh th i, sid_of qh th = Ret (Some i) ->
  header_of qh (lit "Call-ID") = Some (si_call i) /\ header_of qh (lit "Event") = Some (si_event i)
  /\ (exists v, header_of qh (lit "From") = Some v /\ extract_tag v = Ret (Some (si_from i)))
  /\ exists v, header_of th (lit "To") = Some v /\ extract_tag v = Ret (Some (si_to i)).
Proof.
  intros qh th i H. unfold sid_of in H.
  destruct (header_of qh (lit "Call-ID")) as [c|] eqn:C; [|discriminate].
  destruct (header_of qh (lit "From")) as [f|] eqn:F; [|discriminate].
  destruct (extract_tag f) as [[ft|]|] eqn:FT; try discriminate.
  destruct (header_of th (lit "To")) as [t|] eqn:T; [|discriminate].
  destruct (extract_tag t) as [[tg|]|] eqn:TT; try discriminate.
  destruct (header_of qh (lit "Event")) as [ev|] eqn:E; [|discriminate]. injection H as <-.
  refine (conj eq_refl (conj eq_refl (conj _ _))); eauto.
Qed.
Lemma tagged_fun : forall v t u, forallb is_ascii v = true -> tagged v t -> tagged v u -> t = u.
Proof. intros v t u A T U. apply (tag_complete _ _ A) in T. apply (tag_complete _ _ A) in U. congruence. Qed.
(** A request that the subscriber sends later in the same dialog for the same event
    finds the subscription. *)
Theorem C179_refresh : forall rq rs l r s again v w, new_notifier rq rs l r = Ret (Some s) ->
  header_of (q_headers again) (lit "Call-ID") = Some (si_call (s_id s)) ->
  header_of (q_headers again) (lit "Event") = Some (si_event (s_id s)) ->
  header_of (q_headers again) (lit "From") = Some v -> forallb is_ascii v = true -> tagged v (si_from (s_id s)) ->
  header_of (q_headers again) (lit "To") = Some w -> forallb is_ascii w = true -> tagged w (si_to (s_id s)) ->
  sid_from_request again = Ret (Some (s_id s)).
Proof.
  intros rq rs l r s again v w _ C E F Fa Ft T Ta Tt. unfold sid_from_request, sid_of.
  rewrite C, F, (tag_complete _ _ Fa Ft), T, (tag_complete _ _ Ta Tt), E. now destruct (s_id s).
Qed.
Print Assumptions C179_refresh.
Example C179_refresh_example :
  sid_from_request (mkReq MSubscribe (SipU ex_a) [(lit "Call-ID", lit "c1"); (lit "From", lit "<sip:a@a.example>;tag=aa"); (lit "To", lit "<sip:b@b.example>;tag=bb");
    (lit "Event", lit "presence;id=1")] []) = Ret (Some (mkSid (lit "c1") (lit "aa") (lit "bb") (lit "presence;id=1"))).
Proof. vm_compute. reflexivity. Qed.
(** A NOTIFY from the other side, whose From and To are exchanged, is never the
    subscription's, unless both tags are the same text. *)
Theorem C179_notify_refuted : forall rq rs l r s notify v w i, new_subscriber rq rs l r = Ret (Some s) ->
  header_of (q_headers notify) (lit "From") = Some v -> forallb is_ascii v = true -> tagged v (si_to (s_id s)) ->
  header_of (q_headers notify) (lit "To") = Some w -> forallb is_ascii w = true -> tagged w (si_from (s_id s)) ->
  si_from (s_id s) <> si_to (s_id s) -> sid_from_request notify = Ret (Some i) -> i <> s_id s.
Proof.
  intros rq rs l r s notify v w i _ F Fa Ft T Ta Tt Ne H Eq. subst i. destruct (sid_sound _ _ _ H) as (_ & _ & (v' & F' & X) & _).
  assert (v' = v) by congruence. subst v'. apply tag_sound in X. apply Ne. exact (tagged_fun _ _ _ Fa X Ft).
Qed.
Print Assumptions C179_notify_refuted.
Example C179_notify_example : exists i,
  sid_from_request (mkReq MNotify (SipU ex_a) [(lit "Call-ID", lit "c1"); (lit "From", lit "<sip:b@b.example>;tag=bb"); (lit "To", lit "<sip:a@a.example>;tag=aa");
    (lit "Event", lit "presence;id=1")] []) = Ret (Some i) /\ i = mkSid (lit "c1") (lit "bb") (lit "aa") (lit "presence;id=1").
Proof. eexists. split; [vm_compute; reflexivity|reflexivity]. Qed.

(** [k] requests in a row *)
Fixpoint numbers (k : nat) (s : sub) : outcome (list N) :=
  match k with
  | O => Ret []
  | S k' => match next_cseq s with
            | Panics => Panics
            | Ret (s', n) => match numbers k' s' with Ret l => Ret (n :: l) | Panics => Panics end
            end
  end.
Fixpoint upfrom (n : N) (k : nat) : list N := match k with O => [] | S k' => n :: upfrom (n + 1) k' end.
(** Sequence numbers go up by one; a subscription made from messages can number two
    thousand million requests before the counter overflows. *)
Theorem C179_cseq : forall k s, s_lcseq s + N.of_nat k <= u32_max <-> numbers k s = Ret (upfrom (s_lcseq s + 1) k) /\ s_lcseq s <= u32_max.
Proof.
  induction k as [|k IH]; intros s.
  - cbn. split; [intros H; split; [reflexivity|lia]|lia].
  - cbn [numbers upfrom]. unfold next_cseq. destruct (s_lcseq s <? u32_max) eqn:L.
    + set (s' := mkSub _ _ _ _ _ _ _ _). specialize (IH s'). cbn [s_lcseq s'] in IH. split.
      * intros H. split; [|lia]. destruct (proj1 IH) as [E _]; [lia|]. now rewrite E.
      * intros [H _]. destruct (numbers k s') as [x|] eqn:E; [|discriminate]. injection H as H. rewrite H in IH.
        assert (s_lcseq s + 1 + N.of_nat k <= u32_max) by (apply IH; split; [reflexivity|lia]). lia.
    + split; [unfold u32_max in *; lia|intros [H _]; discriminate].
Qed.
Print Assumptions C179_cseq.
Theorem C179_cseq_made : forall rq rs l r s k, new_notifier rq rs l r = Ret (Some s) \/ new_subscriber rq rs l r = Ret (Some s) ->
  N.of_nat k <= 2 ^ 31 -> numbers k s = Ret (upfrom (s_lcseq s + 1) k).
Proof.
  intros rq rs l r s k H K. destruct (C179_records rq rs l r s) as [A B].
  assert (R : 1 <= s_lcseq s < 2 ^ 31) by (destruct H as [H | H]; [apply A in H|apply B in H]; unfold agreed in H; tauto).
  refine (proj1 (proj1 (C179_cseq k s) _)). unfold u32_max. change (2 ^ 31) with 2147483648 in *. lia.
Qed.
Print Assumptions C179_cseq_made.
(** The checked constructor of identifiers panics on some texts. *)
Theorem C179_id_refuted : exists c f t e, sid_new c f t e = Panics.
Proof. exists (lit "c"), (lit "f"), (lit "t"), (lit "presence;" ++ [233; 233]). vm_compute. reflexivity. Qed.
Print Assumptions C179_id_refuted.
Lemma event_params_ascii : forall ps, Forall (fun s => forallb is_ascii s = true) ps -> exists b, event_params_ok ps = Ret b.
Proof.
  induction ps as [|s ps IH]; intros H; [cbn; eauto|]. inversion H; subst. cbn [event_params_ok].
  destruct (3 <=? blen (trim s)) eqn:L; [|auto]. destruct (split_bytes 3 (trim s)) as [[a b]|] eqn:E.
  - destruct (eq_ic a (lit "id=")); [|auto]. destruct (_ || _); eauto.
  - exfalso. revert E. apply split_bytes_total; [now apply trim_forallb|lia].
Qed.
Definition text_of (mx : N) (s : str) : Prop := s <> [] /\ blen s <= mx /\ forall c, In c s -> is_control c = false.
Lemma control_none : forall s, existsb is_control s = false <-> forall c, In c s -> is_control c = false.
Proof.
  intros s. split.
  - intros H c I. destruct (is_control c) eqn:E; [|reflexivity]. assert (existsb is_control s = true) by (apply existsb_exists; eauto). congruence.
  - intros H. destruct (existsb is_control s) eqn:E; [|reflexivity]. apply existsb_exists in E. destruct E as (c & I & E). rewrite (H c I) in E. discriminate.
Qed.
Lemma call_iff : forall s, no_err (validate_call_id s) = true <-> text_of 256 s.
Proof.
  intros s. unfold no_err, validate_call_id, text_of, MAX_CALL_ID_LENGTH. rewrite <- control_none. destruct s as [|c s]; [cbn; intuition congruence|].
  set (v := c :: s). assert (v <> []) by discriminate. clearbody v. destruct (256 <? blen v) eqn:A; [cbn; split; [discriminate|lia]|].
  destruct (existsb is_control v); cbn; split; intros; try discriminate; try tauto; try (split; [assumption|split; [lia|reflexivity]]). destruct H0 as (_ & _ & ?). discriminate.
Qed.
Lemma tag_iff : forall s, no_err (validate_tag s) = true <-> text_of 128 s.
Proof.
  intros s. unfold no_err, validate_tag, text_of, MAX_TAG_LENGTH. rewrite <- control_none. destruct s as [|c s]; [cbn; intuition congruence|].
  set (v := c :: s). assert (v <> []) by discriminate. clearbody v. destruct (128 <? blen v) eqn:A; [cbn; split; [discriminate|lia]|].
  destruct (existsb is_control v); cbn; split; intros; try discriminate; try tauto; try (split; [assumption|split; [lia|reflexivity]]). destruct H0 as (_ & _ & ?). discriminate.
Qed.
(** an event: a package, and "id" parameters that are short and printable *)
Definition fine_event (e : str) : Prop :=
  exists p ps, split_on 59 e = p :: ps /\ text_of 64 (trim p)
  /\ forall q k v, In q ps -> trim q = k ++ v -> lower k = lit "id=" -> blen (trim_by (N.eqb 34) (trim v)) <= 128
     /\ forall c, In c (trim_by (N.eqb 34) (trim v)) -> is_control c = false.
Lemma id_cut : forall k v, lower k = lit "id=" -> 3 <= blen (k ++ v) /\ split_bytes 3 (k ++ v) = Some (k, v) /\ eq_ic k (lit "id=") = true.
Proof.
  intros k v L. assert (A : forallb is_ascii k = true) by (rewrite <- lower_ascii, L; reflexivity).
  assert (X : llen k = 3). { change 3 with (llen (lit "id=")). rewrite <- L. unfold llen, lower. now rewrite map_length. }
  assert (Y := split_bytes_ascii k v A). rewrite X in Y. split; [rewrite blen_app; pose proof (llen_le_blen k); lia|]. split; [exact Y|].
  apply eq_ic_spec. exact L.
Qed.
Lemma event_params_iff : forall ps, Forall (fun s => forallb is_ascii s = true) ps ->
  (event_params_ok ps = Ret true <-> forall q k v, In q ps -> trim q = k ++ v -> lower k = lit "id=" -> blen (trim_by (N.eqb 34) (trim v)) <= 128
     /\ forall c, In c (trim_by (N.eqb 34) (trim v)) -> is_control c = false).
Proof.
  induction ps as [|s ps IH]; intros H; [cbn; split; [intros _ q k v []|reflexivity]|].
  assert (Hs := Forall_inv H). assert (Ht := Forall_inv_tail H). specialize (IH Ht). cbn beta in Hs. clear H. cbn [event_params_ok].
  assert (Skip : (forall k v, trim s = k ++ v -> lower k <> lit "id=") ->
    (event_params_ok ps = Ret true <-> forall q k v, In q (s :: ps) -> trim q = k ++ v -> lower k = lit "id=" -> blen (trim_by (N.eqb 34) (trim v)) <= 128
     /\ forall c, In c (trim_by (N.eqb 34) (trim v)) -> is_control c = false)).
  { intros No. rewrite IH. split; intros G q k v I E L; [destruct I as [<- | I]; [now elim (No k v E)|now apply (G q k v)]|apply (G q k v); [now right|exact E|exact L]]. }
  destruct (3 <=? blen (trim s)) eqn:B.
  - destruct (split_bytes 3 (trim s)) as [[a b]|] eqn:E.
    + destruct (eq_ic a (lit "id=")) eqn:X.
      * assert (La : lower a = lit "id=") by (apply eq_ic_spec in X; exact X). assert (Ts := split_bytes_cut _ _ _ _ E).
        assert (Only : forall k v, trim s = k ++ v -> lower k = lit "id=" -> v = b).
        { intros k v T L. destruct (id_cut k v L) as (_ & W & _). rewrite <- T in W. congruence. }
        destruct ((128 <? blen (trim_by (N.eqb 34) (trim b))) || existsb is_control (trim_by (N.eqb 34) (trim b))) eqn:Bad.
        -- split; [discriminate|]. intros G. destruct (G s a b (or_introl eq_refl) Ts La) as [G1 G2]. apply control_none in G2. rewrite G2 in Bad. exfalso. lia.
        -- apply orb_false_iff in Bad. destruct Bad as [B1 B2]. rewrite IH. split.
           ++ intros G q k v [<- | I] T L; [|now apply (G q k v)]. rewrite (Only k v T L). split; [lia|now apply control_none].
           ++ intros G q k v I T L. apply (G q k v); [now right|exact T|exact L].
      * apply Skip. intros k v T L. destruct (id_cut k v L) as (_ & W & Y). rewrite <- T in W. congruence.
    + exfalso. revert E. apply split_bytes_total; [now apply trim_forallb|lia].
  - apply Skip. intros k v T L. destruct (id_cut k v L) as (W & _). rewrite <- T in W. lia.
Qed.
(** For an event of ASCII characters, identifiers are accepted exactly when all four
    texts are sound, and hold them as they are. *)
Theorem C179_id : forall c f t e i, forallb is_ascii e = true ->
  (sid_new c f t e = Ret (Some i) <-> i = mkSid c f t e /\ text_of 256 c /\ text_of 128 f /\ text_of 128 t /\ fine_event e).
Proof.
  intros c f t e i A. unfold sid_new.
  assert (Ev : (event_ok e = Ret true <-> fine_event e) /\ event_ok e <> Panics).
  { unfold event_ok, fine_event. assert (Fa := split_on_forallb is_ascii 59 e A). destruct (split_on 59 e) as [|h ps] eqn:E.
    - split; [|discriminate]. split; [discriminate|intros (? & ? & ? & _); discriminate].
    - assert (Fp := Forall_inv_tail Fa). cbv zeta. assert (Tx : str_eqb (trim h) [] || (64 <? blen (trim h)) || existsb is_control (trim h) = false <-> text_of 64 (trim h)).
      { unfold text_of. rewrite !orb_false_iff, control_none. assert (str_eqb (trim h) [] = false <-> trim h <> []).
        { destruct (str_eqb (trim h) []) eqn:Z; [apply str_eqb_spec in Z; rewrite Z; intuition congruence|]. split; [|reflexivity]. intros _ Q. rewrite Q in Z. discriminate. }
        rewrite H. intuition lia. }
      destruct (str_eqb (trim h) [] || (64 <? blen (trim h)) || existsb is_control (trim h)) eqn:B.
      + split; [|discriminate]. split; [discriminate|]. intros (p & qs & Q & G & _). injection Q as <- <-. apply Tx in G. discriminate.
      + split.
        * rewrite (event_params_iff ps Fp). split.
          -- intros G. exists h, ps. split; [reflexivity|]. split; [now apply Tx|exact G].
          -- intros (p & qs & Q & _ & G). injection Q as <- <-. exact G.
        * destruct (event_params_ascii ps Fp) as [b ->]. discriminate. }
  rewrite <- call_iff, <- !tag_iff. destruct Ev as [Ev Np].
  destruct (no_err (validate_call_id c)); [|cbn; split; [discriminate|intuition discriminate]]. destruct (no_err (validate_tag f)); [|cbn; split; [discriminate|intuition discriminate]].
  destruct (no_err (validate_tag t)); [|cbn; split; [discriminate|intuition discriminate]]. cbn [andb].
  destruct (event_ok e) as [[|]|]; [| |congruence].
  - split; [intros [= <-]|intros (-> & _); reflexivity]. intuition.
  - split; [discriminate|]. intros (_ & _ & _ & _ & G). apply Ev in G. discriminate.
Qed.
Print Assumptions C179_id.
Example C179_id_example : sid_new (lit "c") (lit "f") (lit "t") (lit "presence; id=""7"" ;x") = Ret (Some (mkSid (lit "c") (lit "f") (lit "t") (lit "presence; id=""7"" ;x"))).
Proof. vm_compute. reflexivity. Qed.

(** each state has the word of RFC 6665 *)
Theorem C179_words : forall x w, state_text x = w <-> In (x, w) [(Active, lit "active"); (Pending, lit "pending"); (Ended, lit "terminated")].
Proof.
  intros x w. split; [intros <-; destruct x; [now left|right; now left|do 2 right; now left]|]. intros [H|[H|[H|[]]]]; apply pair_equal_spec in H as (<- & <-); reflexivity.
Qed.
Print Assumptions C179_words.

(** a change of state or expiry changes that and nothing else *)
Theorem C179_updates : forall s x e,
  (s_state (update_state s x) = x /\ update_state (update_state s x) (s_state s) = s) /\ (s_expires (update_expires s e) = e /\ update_expires (update_expires s e) (s_expires s) = s).
Proof. intros [] x e. repeat split. Qed.
Print Assumptions C179_updates.
