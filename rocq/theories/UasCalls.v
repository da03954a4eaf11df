(** Lemmas on the user agent server: when its answers can be built, and calls
    from the client of Uac.v. *)
From Coq Require Import Arith NArith Bool String List Lia ZifyBool ZifyN ZifyNat.
Import ListNotations.
From Verif Require Import Base BaseFacts NumFacts Headers HeadersProofs Method Text TextFacts Uri Msg Message Dialog DialogSpec DialogProofs Prack SessionTimer Uac UacSpec UacProofs UacSend UacSendProofs Uas UasSpec UasProofs.
Open Scope N_scope.
Open Scope list_scope.

(** ** When a response can be built *)
Lemma push_all_full : forall l acc, Forall line_ok l -> llen acc <= 200 -> 200 < llen acc + llen l -> push_all acc l = Panics.
Proof.
  induction l as [|[n v] l IH]; intros acc F A B; [unfold llen in *; cbn in B; lia|].
  inversion F as [|? ? (V1 & V2) F']; subst. cbn [fst snd] in *. cbn [push_all]. unfold hpush, MAX_HEADERS.
  destruct (200 <=? llen acc) eqn:E; [reflexivity|]. unfold header_new. rewrite V1, V2. apply IH; [exact F'|..];
    unfold llen in *; rewrite app_length; cbn [List.length] in *; lia.
Qed.
Lemma good_value : forall hs n v, good_headers hs -> In v (values n hs) -> validate_header_value v = None.
Proof.
  intros hs n v [G _] H. unfold values, hget_all in H. apply in_map_iff in H. destruct H as (h & <- & H). apply filter_In in H. destruct H as [H _].
  rewrite Forall_forall in G. apply G in H. apply validate_value_ok. destruct H as (_ & _ & _ & A & B & C & D). repeat split; assumption.
Qed.
Lemma get_values : forall hs n v, hget (lit n) hs = Some v -> In v (values n hs).
Proof. intros hs n v H. rewrite first_get in H. unfold first_value in H. destruct (values n hs); [discriminate|]. injection H as ->. now left. Qed.
Lemma shape_lines : forall rq to cl extra, good_headers (q_headers rq) -> (forall t, to = Some t -> validate_header_value t = None) ->
  validate_header_value cl = None -> Forall line_ok extra -> Forall line_ok (shape rq to cl extra).
Proof.
  intros rq to cl extra G T C X. unfold shape, front, rr_lines.
  assert (M : forall n, validate_header_name (lit n) = None -> Forall line_ok (map (fun v => ln n v) (values n (q_headers rq)))).
  { intros n Hn. apply Forall_forall. intros h Hh. apply in_map_iff in Hh. destruct Hh as (v & <- & Hv). split; [exact Hn|]. cbn [ln snd]. eapply good_value; eassumption. }
  assert (O : forall n o, validate_header_name (lit n) = None -> (forall v, o = Some v -> validate_header_value v = None) -> Forall line_ok (opt_line n o)).
  { intros n [v|] Hn Hv; [|constructor]. constructor; [|constructor]. split; [exact Hn|]. cbn [ln snd]. now apply Hv. }
  assert (I : forall n v, hget (lit n) (q_headers rq) = Some v -> validate_header_value v = None).
  { intros n v H. eapply good_value; [exact G|]. apply get_values. exact H. }
  repeat (apply Forall_app; split); try (apply M; reflexivity); try (apply O; [reflexivity|]; first [exact T|intros v Hv; eapply I; exact Hv]).
  constructor; [|exact X]. split; [reflexivity|exact C].
Qed.
Lemma shape_count : forall rq to cl extra, (to = None <-> hget (lit "To") (q_headers rq) = None) ->
  llen (shape rq to cl extra) = taken_over rq + 1 + llen extra.
Proof.
  intros rq to cl extra H. unfold shape, front, rr_lines, taken_over. unfold llen. rewrite !app_length, !map_length. cbn [List.length].
  assert (O : forall n, List.length (opt_line n (hget (lit n) (q_headers rq))) = List.length (first_value n (q_headers rq))).
  { intros n. rewrite first_get. unfold first_value. now destruct (values n (q_headers rq)). }
  rewrite !O. assert (T : List.length (opt_line "To" to) = List.length (first_value "To" (q_headers rq))).
  { rewrite <- O. destruct to as [t|], (hget (lit "To") (q_headers rq)); try reflexivity; exfalso.
    - destruct H as [_ H]. specialize (H eq_refl). discriminate.
    - destruct H as [H _]. specialize (H eq_refl). discriminate. }
  rewrite T. lia.
Qed.
Lemma tagged_none : forall rq code tag, tagged_to rq code tag = None <-> hget (lit "To") (q_headers rq) = None.
Proof. intros. unfold tagged_to. destruct (hget (lit "To") (q_headers rq)); split; congruence. Qed.
Lemma overflow_spec : forall rq tag t, good_headers (q_headers rq) -> tag_text tag -> hget (lit "To") (q_headers rq) = Some t -> contains (lit ";tag=") t = false ->
  (to_overflows rq tag <-> validate_header_value (t ++ lit ";tag=" ++ tag) <> None).
Proof.
  intros rq tag t G Ht E C. rewrite clean_tag_value; [|eapply good_value; [exact G|]; apply get_values; exact E|exact Ht].
  rewrite first_get in E. unfold to_overflows. destruct (first_value "To" (q_headers rq)) as [|x l] eqn:F; [discriminate|]. injection E as ->.
  assert (l = []) as -> by (unfold first_value in F; destruct (values "To" (q_headers rq)); congruence).
  split.
  - intros (y & Y & _ & L). injection Y as <-. replace (8192 <? blen t + 5 + blen tag) with true by lia. discriminate.
  - intros H. exists t. split; [reflexivity|]. split; [now apply contains_not|]. destruct (8192 <? blen t + 5 + blen tag) eqn:L; [lia|congruence].
Qed.
Lemma overflow_not : forall rq tag, hget (lit "To") (q_headers rq) = None \/ (exists t, hget (lit "To") (q_headers rq) = Some t /\ contains (lit ";tag=") t = true) -> ~ to_overflows rq tag.
Proof.
  intros rq tag H (t & F & C & _). rewrite first_get, F in H. destruct H as [H | (x & H & X)]; [discriminate|]. injection H as <-. apply C. now apply contains_spec.
Qed.
(** exactly when the response panics *)
Lemma create_exact : forall rq code reason tag, good_headers (q_headers rq) -> tag_text tag ->
  (create_response rq code reason tag = Panics <-> ~ status_fits code reason \/ 200 <= taken_over rq \/ (code <> 100 /\ to_overflows rq tag)).
Proof.
  intros rq code reason tag G Ht. unfold create_response. rewrite copied_shape.
  assert (L : Forall line_ok (shape rq (hget (lit "To") (q_headers rq)) (lit "0") [])).
  { apply shape_lines; [exact G| |reflexivity|constructor]. intros t E. eapply good_value; [exact G|]. apply get_values. exact E. }
  assert (C : @llen (str * str) (shape rq (hget (lit "To") (q_headers rq)) (lit "0") []) = taken_over rq + 1 + 0).
  { exact (shape_count rq (hget (lit "To") (q_headers rq)) (lit "0") [] (conj (fun x => x) (fun x => x))). }
  destruct (200 <=? taken_over rq) eqn:E.
  - rewrite push_all_full; [|exact L|unfold llen; cbn; lia|rewrite C; change (llen []) with 0; lia]. cbn [obind]. split; [intros _; right; left; lia|reflexivity].
  - rewrite push_all_ret; [|exact L|rewrite C; change (llen []) with 0; lia]. cbn [app obind].
    destruct (status_new code reason) as [p|] eqn:S.
    + assert (F : status_fits code reason).
      { apply status_fits_spec. rewrite S. unfold status_new in S. destruct (negb _); [discriminate|]. destruct (_ <? _); [discriminate|]. destruct (existsb _ _); [discriminate|]. congruence. }
      unfold response_new. change (MAX_BODY_SIZE <? llen []) with false. cbv iota. destruct (code =? 100) eqn:K.
      * split; [discriminate|]. intros [H | [H | [H _]]]; [now destruct H|lia|lia].
      * rewrite ensure_shape by constructor. destruct (hget (lit "To") (q_headers rq)) as [t|] eqn:T.
        -- destruct (contains (lit ";tag=") t) eqn:Ct.
           ++ split; [discriminate|]. intros [H | [H | [_ H]]]; [now destruct H|lia|]. exfalso. eapply overflow_not; [|exact H]. right. eauto.
           ++ assert (O := overflow_spec rq tag t G Ht T Ct). destruct (validate_header_value (t ++ lit ";tag=" ++ tag)) eqn:V.
              ** split; [|reflexivity]. intros _. right; right. split; [lia|]. apply O. discriminate.
              ** split; [discriminate|]. intros [H | [H | [_ H]]]; [now destruct H|lia|]. apply O in H. congruence.
        -- split; [discriminate|]. intros [H | [H | [_ H]]]; [now destruct H|lia|]. exfalso. eapply overflow_not; [|exact H]. now left.
    + split; [|reflexivity]. intros _. left. intros F. apply status_fits_spec in F. congruence.
Qed.
Lemma create_ret : forall rq code reason tag, roomy rq tag -> status_fits code reason ->
  create_response rq code reason tag = Ret (mkResp code reason (shape rq (tagged_to rq code tag) (lit "0") []) []).
Proof.
  intros rq code reason tag (G & T & O & Ht) F. destruct (create_response rq code reason tag) as [r|] eqn:E.
  - apply create_inv in E. destruct E as [_ ->]. reflexivity.
  - apply create_exact in E; [|assumption..]. destruct E as [E | [E | [_ E]]]; [now destruct E|lia|now destruct O].
Qed.
Lemma push_line_ret : forall n v c t hs b, line_ok (n, v) -> llen hs < 200 -> push_line (n, v) (mkResp c t hs b) = Ret (mkResp c t (hs ++ [(n, v)]) b).
Proof.
  intros n v c t hs b (A & B) L. unfold push_line, hpush. cbn [fst snd p_headers p_code p_reason p_body] in *. replace (MAX_HEADERS <=? llen hs) with false by (unfold MAX_HEADERS; lia).
  unfold header_new. rewrite A, B. reflexivity.
Qed.
Lemma tagged_count : forall rq code tag cl extra, llen (shape rq (tagged_to rq code tag) cl extra) = taken_over rq + 1 + llen extra.
Proof. intros. apply shape_count, tagged_none. Qed.
Lemma push_shape : forall rq code tag cl extra n v c t b, line_ok (n, v) -> taken_over rq <= 190 -> llen extra <= 8 ->
  push_line (n, v) (mkResp c t (shape rq (tagged_to rq code tag) cl extra) b) = Ret (mkResp c t (shape rq (tagged_to rq code tag) cl (extra ++ [(n, v)])) b).
Proof. intros. rewrite push_line_ret by (try assumption; rewrite tagged_count; lia). now rewrite shape_snoc. Qed.
Lemma set_length_ret : forall rq to cl v extra c t b, validate_header_value v = None ->
  set_line (lit "Content-Length", v) (mkResp c t (shape rq to cl extra) b) = Ret (mkResp c t (shape rq to v extra) b).
Proof.
  intros rq to cl v extra c t b V. unfold set_line, hset_or_push. cbn [fst snd p_headers p_code p_reason p_body].
  change (validate_header_name (lit "Content-Length")) with (@None header_error). cbv iota. rewrite V, set_length_shape. reflexivity.
Qed.
Lemma number_value : forall n, n <= 4294967295 -> validate_header_value (print_N n) = None.
Proof. intros n H. destruct (number_small n H) as [A B]. apply clean_value; [lia|exact B]. Qed.
Lemma with_sdp_ret : forall x rq code tag extra c t, blen x <= 1048576 -> taken_over rq <= 190 -> llen extra <= 8 ->
  with_sdp (Some x) (mkResp c t (shape rq (tagged_to rq code tag) (lit "0") extra) []) =
  Ret (mkResp c t (shape rq (tagged_to rq code tag) (print_N (blen x)) (extra ++ [ln "Content-Type" (lit "application/sdp")])) (utf8 x)).
Proof.
  intros x rq code tag extra c t B T E. cbn [with_sdp]. unfold length_line, ln. rewrite set_length_ret by (apply number_value; lia). cbn [obind].
  rewrite push_shape; [|split; reflexivity|assumption..]. cbn [obind p_code p_reason p_headers]. unfold response_new.
  replace (MAX_BODY_SIZE <? llen (utf8 x)) with false by (unfold MAX_BODY_SIZE; rewrite llen_utf8; lia). reflexivity.
Qed.
Lemma angle_ok : forall x, plain_uri_text x -> validate_header_value (angle x) = None.
Proof.
  intros x H. apply plain_clean in H. destruct H as [A B]. apply clean_value; unfold angle.
  - len_tac.
  - clean_tac.
Qed.
Definition ok_response (s : uas) (rq : req) (b : option str) (tag : str) : resp :=
  mkResp 200 (lit "OK") (shape rq (tagged_to rq 200 tag) (match b with Some x => print_N (blen x) | None => lit "0" end)
        (contact_line s :: match b with Some _ => [ln "Content-Type" (lit "application/sdp")] | None => [] end)) (body_bytes b).
Lemma fits_200 : status_fits 200 (lit "OK").
Proof. now apply status_fits_spec. Qed.
Lemma create_ok_ret : forall s rq b tag, roomy rq tag -> plain_uri_text (us_contact s) -> (forall x, b = Some x -> blen x <= 1048576) ->
  create_ok s rq b tag = Ret (Some (ok_response s rq b tag)).
Proof.
  intros s rq b tag R Hc B. assert (R' := R). destruct R' as (G & T & O & Ht). unfold create_ok.
  replace (sdp_ok b) with true by (destruct b as [x|]; [cbn; specialize (B x eq_refl); unfold UAS_MAX_BODY; lia|reflexivity]). cbn [negb].
  rewrite create_ret by (assumption || apply fits_200). cbn [obind]. unfold contact_line, ln. rewrite push_shape; [|split; [reflexivity|now apply angle_ok]|exact T|unfold llen; cbn; lia].
  cbn [obind app]. rewrite retag_ret by (repeat constructor || reflexivity). cbn [obind]. destruct b as [x|].
  - rewrite with_sdp_ret by (try apply B; try reflexivity; try exact T; unfold llen; cbn; lia). reflexivity.
  - reflexivity.
Qed.
(** no reply to a roomy request panics *)
Lemma make_ret : forall s rq tag y, roomy rq tag -> plain_uri_text (us_contact s) -> fits y -> exists r, make s rq tag y = Ret (Some r).
Proof.
  intros s rq tag y R Hc F. assert (R' := R). destruct R' as (G & T & O & Ht).
  assert (J : forall c t, status_fits c t -> c =? 100 = false -> exists r, reject rq c t tag = Ret r).
  { intros c t Hf H1. unfold reject. rewrite create_ret by assumption. cbn [obind]. rewrite retag_ret by (constructor || assumption). eauto. }
  assert (St : forall c t, status_new c t = Some (c, t) -> status_fits c t) by (intros; now apply status_fits_spec).
  assert (M : forall o, (exists r, o = Ret r) -> exists r, made o = Ret (Some r)) by (intros o (r & ->); exists r; reflexivity).
  destruct y as [c t|c t| | |b| |e| | | | | |n]; cbn [make]; cbn [fits] in F; try (apply M); unfold create_trying, plain_ok, create_busy, create_decline, create_request_terminated, create_bad_request;
    try (apply J; [now apply St|reflexivity]); try (rewrite create_ret by (assumption || now apply St); eauto; fail).
  - rewrite create_ret by (assumption || apply F). eauto.
  - apply J; [apply F|]. destruct F as [_ F]. lia.
  - rewrite create_ok_ret; [eauto|assumption..|]. intros x ->. exact F.
  - unfold accept_publish, plain_ok. destruct e as [e|].
    + destruct F as [F1 F2]. assert (Q : etag_ok e = true).
      { unfold etag_ok, short_text, MAX_ETAG. replace (256 <? blen e) with false by lia. cbn [negb andb].
        replace (existsb is_control e) with false; [lia|]. symmetry. apply not_true_is_false. intros X. apply existsb_exists in X. destruct X as (z & Hz & X). rewrite (F2 _ Hz) in X. discriminate. }
      rewrite Q. cbn [negb]. rewrite create_ret by (assumption || apply fits_200). cbn [obind]. unfold ln. rewrite push_shape.
      * cbn [obind]. eauto.
      * split; [reflexivity|]. cbn [snd]. apply clean_value; [lia|]. unfold clean. apply forallb_forall. intros z Hz. assert (X := F2 _ Hz). unfold is_control in X. apply orb_false_elim in X. destruct X as [X _]. apply N.ltb_ge in X. lia.
      * exact T.
      * unfold llen; cbn; lia.
    + cbn [negb]. rewrite create_ret by (assumption || apply fits_200). cbn [obind]. eauto.
  - unfold accept_options, plain_ok. rewrite create_ret by (assumption || apply fits_200). cbn [obind].
    unfold set_line, ln. cbn [fst snd p_headers p_code p_reason p_body]. unfold hset_or_push. change (validate_header_name (lit "Allow")) with (@None header_error). change (validate_header_value BASE_ALLOW) with (@None header_error). cbv iota.
    rewrite set_extra_shape by (cbn; intuition discriminate). cbn [set_first]. rewrite tagged_count. change (llen []) with 0. replace (MAX_HEADERS <=? taken_over rq + 1 + 0) with false by (unfold MAX_HEADERS; lia).
    cbn [unwrap obind fst snd p_headers p_code p_reason p_body]. change (validate_header_name (lit "Accept")) with (@None header_error). change (validate_header_value (lit "application/sdp")) with (@None header_error). cbv iota.
    rewrite shape_snoc. cbn [app]. rewrite set_extra_shape by (cbn; intuition discriminate).
    match goal with |- context [match (match ?x with Some _ => _ | None => _ end) with Some _ => _ | None => _ end] => change x with (@None headers) end. cbv iota.
    rewrite tagged_count. match goal with |- context [MAX_HEADERS <=? ?x] => replace (MAX_HEADERS <=? x) with false by (unfold MAX_HEADERS, llen; cbn [List.length]; lia) end. cbn [unwrap obind]. eauto.
  - unfold create_422. rewrite create_ret by (assumption || now apply St). cbn [obind]. unfold ln. rewrite push_shape; [|split; [reflexivity|now apply number_value]|exact T|unfold llen; cbn; lia].
    cbn [obind app]. rewrite retag_ret by (repeat constructor || reflexivity). eauto.
Qed.
