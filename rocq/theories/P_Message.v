(** Properties C49-C52 (messages on the wire) and C100 (passing messages on). *)
From Coq Require Import Arith NArith Bool String List Lia ZifyBool ZifyN ZifyNat.
Import ListNotations.
From Verif Require Import Base BaseFacts Headers HeadersProofs Method Text TextFacts Uri UriProofs Msg AnyUri ProxyCore P_Headers P_Uri Message MessageSpec MessageProofs.
Open Scope N_scope.
Open Scope list_scope.

Lemma made : forall n v, header_new n v = Ok (n, v) -> HeadersProofs.good_header (n, v).
Proof. intros n v H. now apply header_new_ok in H. Qed.
Lemma F2_len : forall A B (R : A -> B -> Prop) l l', Forall2 R l l' -> List.length l = List.length l'.
Proof. intros A B R l l' H. induction H; cbn; congruence. Qed.
(** a request used in the examples *)
Definition sample_uri : uri := match parse_any (lit "sip:bob@example.com;transport=tcp") with Some a => to_uri a | None => OtherU [] end.
Definition sample : req := mkReq MInvite sample_uri
  [(lit "v", lit "SIP/2.0/UDP a.example;branch=z9hG4bKabc"); (lit "via", lit "SIP/2.0/UDP b.example;branch=1"); (lit "From", lit " <sip:a@example.com>;tag=1 ");
   (lit "t", lit "<sip:bob@example.com>"); (lit "Call-ID", lit "x"); (lit "CSeq", lit "1 INVITE"); (lit "l", lit "99"); (lit "Subject", [8364])] [1; 2; 3].

(** ** C49: requests *)
(** Whatever the parser makes of a serialised request is that request as its receiver
    should see it: same method, Request-URI and body, the same headers in the same order
    under their full names, one Max-Forwards at least and one correct Content-Length. *)
Theorem C49_faithful : forall q q', api_method (q_method q) -> plain_uri (q_uri q) -> good_headers (q_headers q) -> text_headers (q_headers q) ->
  parse_request (serialize_request q) = Some q' \/ parse_request_strict (serialize_request q) = Some q' ->
  arrived_request q q' /\ no_repeats (q_headers q') /\ cseq_of (q_headers q') (q_method q').
Proof.
  intros q q' Hm Hu Hg Ht H. assert (Hl : llen (serialize_request q) <= DEFAULT_MAX_MESSAGE_SIZE).
  { destruct H as [H | H]; apply request_inv in H; tauto. }
  pose proof (good_fit _ Hg Ht) as F.
  assert (X : (if (llen (request_headers q) <=? 200) && singletons_unique (got_request q) && via_branch_ok (got_request q) && cseq_matches (got_request q) (q_method q)
     then Some (mkReq (q_method q) (q_uri q) (got_request q) (q_body q)) else None) = Some q').
  { destruct H as [H | H]; [rewrite <- (parse_serialized false q Hm Hu F Hl)|rewrite <- (parse_serialized true q Hm Hu F Hl)]; exact H. }
  destruct ((llen (request_headers q) <=? 200) && singletons_unique (got_request q) && via_branch_ok (got_request q) && cseq_matches (got_request q) (q_method q)) eqn:C; [|discriminate].
  injection X as <-. split; [apply arrived_got|]. rewrite !andb_true_iff in C. destruct C as [[[_ A] _] B]. cbn [q_headers q_method].
  split; [now apply singletons_spec|now apply cseq_spec].
Qed.
Print Assumptions C49_faithful.
(** And it accepts the request, if what arrives obeys the rules for received requests:
    at most 200 headers, no repeated singleton, a CSeq for the method, an RFC 3261
    branch in the first Via, and at most 65536 bytes altogether.
    Partial: Request-URIs with white space are excluded, and do not round trip
    ([C49_uri_refuted], [C49_tel_refuted]); so is a collection that is full before the
    serialiser adds its headers ([C49_count_refuted]). *)
Theorem C49_roundtrip_partial : forall q, api_method (q_method q) -> plain_uri (q_uri q) -> good_headers (q_headers q) -> text_headers (q_headers q) ->
  llen (serialize_request q) <= 65536 ->
  (forall q', arrived_request q q' ->
     llen (q_headers q') <= 200 /\ no_repeats (q_headers q') /\ cseq_of (q_headers q') (q_method q) /\ top_branch_ok (q_headers q')) ->
  exists q', parse_request (serialize_request q) = Some q' /\ parse_request_strict (serialize_request q) = Some q' /\ arrived_request q q'.
Proof.
  intros q Hm Hu Hg Ht Hl H. pose proof (good_fit _ Hg Ht) as F. destruct (H _ (arrived_got q)) as (A & B & C & D). cbn [q_headers q_method] in *.
  exists (mkReq (q_method q) (q_uri q) (got_request q) (q_body q)).
  assert (X : forall strict : bool, parse_request_by (if strict then extract_body_strict else extract_body) DEFAULT_MAX_MESSAGE_SIZE (serialize_request q)
              = Some (mkReq (q_method q) (q_uri q) (got_request q) (q_body q))).
  { intros strict. rewrite parse_serialized by assumption. rewrite llen_got in A. replace (llen (request_headers q) <=? 200) with true by lia.
    rewrite (proj2 (singletons_spec _) B), (top_branch_spec _ D), (proj2 (cseq_spec _ _) C). reflexivity. }
  split; [exact (X false)|]. split; [exact (X true)|]. apply arrived_got.
Qed.
Print Assumptions C49_roundtrip_partial.
Example C49_example : api_method (q_method sample) /\ plain_uri (q_uri sample) /\ good_headers (q_headers sample) /\ text_headers (q_headers sample)
  /\ (exists q', parse_request (serialize_request sample) = Some q' /\ parse_request_strict (serialize_request sample) = Some q'
     /\ hget_all (lit "Via") (q_headers q') = [lit "SIP/2.0/UDP a.example;branch=z9hG4bKabc"; lit "SIP/2.0/UDP b.example;branch=1"]
     /\ hget (lit "From") (q_headers q') = Some (lit "<sip:a@example.com>;tag=1") /\ hget_all (lit "Content-Length") (q_headers q') = [lit "3"]
     /\ hget (lit "Max-Forwards") (q_headers q') = Some (lit "70") /\ hget (lit "Subject") (q_headers q') = Some [8364]).
Proof.
  split; [exists (lit "INVITE"); reflexivity|]. split; [|split; [|split]].
  - split; [reflexivity|]. split; [assert (X : forallb (fun c => negb (is_ws c)) (uri_text (q_uri sample)) = true) by (vm_compute; reflexivity); intros c Hc; rewrite forallb_forall in X; apply X in Hc; now apply negb_true_iff in Hc|]. eexists. split; [vm_compute; reflexivity|reflexivity].
  - split; [|vm_compute; discriminate]. repeat (constructor; [apply made; reflexivity|]). constructor.
  - intros h Hh. cbn in Hh. repeat (destruct Hh as [<- | Hh]; [reflexivity|]). destruct Hh.
  - eexists. repeat (split; [vm_compute; reflexivity|]). vm_compute. reflexivity.
Qed.
(** A URI with a blank at its end is accepted when parsed, and the receiver sees another. *)
Theorem C49_uri_refuted : exists t u q', parse_uri t = Some u
  /\ parse_request (serialize_request (mkReq MOptions (SipU u) [] [])) = Some q' /\ q_uri q' <> SipU u.
Proof.
  exists (lit "sip:a.example "). eexists. eexists. split; [vm_compute; reflexivity|]. split; [vm_compute; reflexivity|]. vm_compute. discriminate.
Qed.
Print Assumptions C49_uri_refuted.
(** A telephone number with a blank in it makes a request that cannot be parsed. *)
Theorem C49_tel_refuted : exists t a, parse_any t = Some a
  /\ parse_request (serialize_request (mkReq MOptions (to_uri a) [] [])) = None.
Proof. exists (lit "tel:+1 555"). eexists. split; [vm_compute; reflexivity|]. vm_compute. reflexivity. Qed.
Print Assumptions C49_tel_refuted.
(** A full header collection makes a request that cannot be parsed. *)
Theorem C49_count_refuted : exists hs, good_headers hs /\ text_headers hs /\
  parse_request (serialize_request (mkReq MInvite sample_uri hs [])) = None.
Proof.
  set (hs := List.repeat (lit "A", lit "1") 200). assert (Hg : good_headers hs).
  { split; [|vm_compute; discriminate]. apply Forall_forall. intros h Hh. apply repeat_spec in Hh. subst h. apply made. reflexivity. }
  assert (Ht : text_headers hs) by (intros h Hh; apply repeat_spec in Hh; subst h; reflexivity).
  exists hs. split; [exact Hg|]. split; [exact Ht|]. destruct C49_example as (A & B & _).
  set (q := mkReq MInvite sample_uri hs []). destruct (parse_request (serialize_request q)) as [q'|] eqn:E; [|reflexivity]. exfalso.
  pose proof (C49_faithful q q' A B Hg Ht (or_introl E)) as [(_ & _ & _ & front & F & EH) _].
  apply parsed_request in E. destruct E as (_ & _ & [_ L] & _). rewrite EH in L.
  assert (X : List.length front = 200%nat) by (transitivity (List.length (filter (fun h => negb (length_header h)) hs)); [symmetry; exact (F2_len _ _ _ _ _ F)|vm_compute; reflexivity]).
  unfold llen in L. rewrite !app_length, X in L. cbn [q_headers q] in L. change (hcontains (lit "Max-Forwards") hs) with false in L. cbn [List.length] in L. lia.
Qed.
Print Assumptions C49_count_refuted.

(** ** C50: responses *)
Theorem C50_faithful : forall r r', status_new (p_code r) (p_reason r) = Some (p_code r, p_reason r) -> p_reason r <> [] -> trim (p_reason r) = p_reason r ->
  is_str (p_reason r) = true -> good_headers (p_headers r) -> text_headers (p_headers r) ->
  parse_response (serialize_response r) = Some r' \/ parse_response_strict (serialize_response r) = Some r' ->
  arrived_response r r' /\ no_repeats (p_headers r') /\ cseq_in_range (p_headers r').
Proof.
  intros q q' Hm Hn Htr Hs Hg Ht H. assert (Hl : llen (serialize_response q) <= DEFAULT_MAX_MESSAGE_SIZE).
  { destruct H as [H | H]; apply response_inv in H; tauto. }
  pose proof (good_fit _ Hg Ht) as F.
  assert (X : (if (llen (response_headers q) <=? 200) && singletons_unique (got_response q) && response_cseq_ok (got_response q)
     then Some (mkResp (p_code q) (p_reason q) (got_response q) (p_body q)) else None) = Some q').
  { destruct H as [H | H]; [rewrite <- (parse_serialized_response false q Hm Hn Htr Hs F Hl)|rewrite <- (parse_serialized_response true q Hm Hn Htr Hs F Hl)]; exact H. }
  destruct ((llen (response_headers q) <=? 200) && singletons_unique (got_response q) && response_cseq_ok (got_response q)) eqn:C; [|discriminate].
  injection X as <-. split; [apply arrived_got_response|]. rewrite !andb_true_iff in C. destruct C as [[_ A] B]. cbn [p_headers].
  split; [now apply singletons_spec|now apply response_cseq_spec].
Qed.
Print Assumptions C50_faithful.
(** Partial: the reason phrase must be non-empty and without white space at its ends
    ([C50_empty_refuted], [C50_edge_refuted]). *)
Theorem C50_roundtrip_partial : forall r, status_new (p_code r) (p_reason r) = Some (p_code r, p_reason r) -> p_reason r <> [] -> trim (p_reason r) = p_reason r ->
  is_str (p_reason r) = true -> good_headers (p_headers r) -> text_headers (p_headers r) -> llen (serialize_response r) <= 65536 ->
  (forall r', arrived_response r r' -> llen (p_headers r') <= 200 /\ no_repeats (p_headers r') /\ cseq_in_range (p_headers r')) ->
  exists r', parse_response (serialize_response r) = Some r' /\ parse_response_strict (serialize_response r) = Some r' /\ arrived_response r r'.
Proof.
  intros q Hm Hn Htr Hs Hg Ht Hl H. pose proof (good_fit _ Hg Ht) as F. destruct (H _ (arrived_got_response q)) as (A & B & C). cbn [p_headers] in *.
  exists (mkResp (p_code q) (p_reason q) (got_response q) (p_body q)).
  assert (X : forall strict : bool, parse_response_by (if strict then extract_body_strict else extract_body) (serialize_response q)
              = Some (mkResp (p_code q) (p_reason q) (got_response q) (p_body q))).
  { intros strict. rewrite parse_serialized_response by assumption. rewrite llen_got_response in A. replace (llen (response_headers q) <=? 200) with true by lia.
    rewrite (proj2 (singletons_spec _) B), (proj2 (response_cseq_spec _) C). reflexivity. }
  split; [exact (X false)|]. split; [exact (X true)|]. apply arrived_got_response.
Qed.
Print Assumptions C50_roundtrip_partial.
Definition sample_response : resp := mkResp 486 (lit "Busy Here")
  [(lit "v", lit "SIP/2.0/UDP a.example;branch=z9hG4bKabc"); (lit "From", lit " <sip:a@example.com>;tag=1 "); (lit "CSeq", lit "1 INVITE"); (lit "l", lit "99")] [1; 2; 3].
Example C50_example : status_new 486 (lit "Busy Here") = Some (486, lit "Busy Here") /\ trim (p_reason sample_response) = p_reason sample_response
  /\ is_str (p_reason sample_response) = true /\ good_headers (p_headers sample_response) /\ text_headers (p_headers sample_response)
  /\ (exists r', parse_response (serialize_response sample_response) = Some r' /\ parse_response_strict (serialize_response sample_response) = Some r'
      /\ p_headers r' = [(lit "Via", lit "SIP/2.0/UDP a.example;branch=z9hG4bKabc"); (lit "From", lit "<sip:a@example.com>;tag=1"); (lit "CSeq", lit "1 INVITE"); (lit "Content-Length", lit "3")]).
Proof.
  repeat (split; [reflexivity|]). split; [|split].
  - split; [|vm_compute; discriminate]. repeat (constructor; [apply made; reflexivity|]). constructor.
  - intros h Hh. cbn in Hh. repeat (destruct Hh as [<- | Hh]; [reflexivity|]). destruct Hh.
  - eexists. repeat (split; [vm_compute; reflexivity|]). vm_compute. reflexivity.
Qed.
(** RFC 3261 allows an empty reason phrase; the constructor takes it, the parser does not. *)
Theorem C50_empty_refuted : status_new 200 [] = Some (200, []) /\ parse_response (serialize_response (mkResp 200 [] [] [])) = None.
Proof. split; vm_compute; reflexivity. Qed.
Print Assumptions C50_empty_refuted.
Theorem C50_edge_refuted : exists reason r', status_new 200 reason = Some (200, reason)
  /\ parse_response (serialize_response (mkResp 200 reason [] [])) = Some r' /\ p_reason r' <> reason.
Proof. exists (lit "OK "). eexists. split; [vm_compute; reflexivity|]. split; [vm_compute; reflexivity|]. vm_compute. discriminate. Qed.
Print Assumptions C50_edge_refuted.

(** ** C51: no header injection *)
Lemma api_uri_control : forall u, api_uri u -> forall c, In c (uri_text u) -> is_control c = false.
Proof.
  intros u H c Hc. destruct H as [(st & ops & s & B & ->) | (t & a & P & ->)].
  - exact (C79_no_control st ops s B c Hc).
  - unfold parse_any in P. destruct (existsb is_control t) eqn:E; [discriminate|].
    assert (X : In c t).
    { destruct (starts_with (lit "tel:") t).
      - destruct (tel_parse t) as [u|] eqn:Q; [|discriminate]. injection P as <-. cbn in Hc. unfold tel_parse in Q. destruct (strip_prefix _ _); [|discriminate].
        destruct (negb _); [discriminate|]. destruct (fold_opt _ _ _) as [[? ?]|]; [|discriminate]. destruct (_ && _); [discriminate|]. destruct (_ && _); [discriminate|]. injection Q as <-. exact Hc.
      - destruct (_ || _).
        + destruct (parse_uri t) as [u|] eqn:Q; [|discriminate]. injection P as <-. cbn in Hc. apply C56_parsed_text in Q. destruct Q as [Q _]. now rewrite <- Q.
        + destruct (parse_absolute t) as [u|] eqn:Q; [|discriminate]. injection P as <-. cbn in Hc. unfold parse_absolute in Q. destruct (_ <? _); [discriminate|]. cbv zeta in Q.
          apply trim_in. destruct (trim t) as [|d r]; [discriminate|]. destruct (negb _); [discriminate|]. destruct (split_once 58 r) as [[sch rest]|]; [|discriminate].
          destruct (negb _); [discriminate|]. destruct rest as [|r0 rest]; [discriminate|]. destruct (existsb is_control (r0 :: rest)); [discriminate|]. injection Q as <-. exact Hc. }
    apply not_true_iff_false. intros Y. apply not_true_iff_false in E. apply E, existsb_exists. eauto.
Qed.
Lemma line_good : forall n v, n <> [] -> (forall c, In c n -> header_name_char c = true) -> ~ In 13 v -> ~ In 10 v ->
  n ++ lit ": " ++ v <> [] /\ ~ In 13 (n ++ lit ": " ++ v) /\ ~ In 10 (n ++ lit ": " ++ v).
Proof.
  intros n v N C A B. split; [destruct n; [congruence|discriminate]|].
  assert (X : forall c, c = 13 \/ c = 10 -> ~ In c (n ++ lit ": " ++ v)).
  { intros c E Hc. apply in_app_or in Hc. destruct Hc as [Hc | Hc].
    - apply C, name_char_facts in Hc. lia.
    - cbn in Hc. destruct E as [-> | ->]; destruct Hc as [Hc | [Hc | Hc]]; try discriminate; contradiction. }
  split; apply X; auto.
Qed.
Lemma request_laid : forall q, api_method (q_method q) -> api_uri (q_uri q) -> good_headers (q_headers q) ->
  laid_out (serialize_request q) (method_str (q_method q) ++ lit " " ++ uri_text (q_uri q) ++ lit " SIP/2.0") (map hline (request_headers q)) (q_body q).
Proof.
  intros q (t & Hm) Hu [Hg _].
  { split; [exact (serialize_request_lines q)|]. intros l [<- | Hl].
    + apply method_chars in Hm. destruct Hm as [N F]. rewrite forallb_forall in F. split; [destruct (method_str _); [congruence|discriminate]|].
      assert (X : forall c, c = 13 \/ c = 10 -> ~ In c (method_str (q_method q) ++ lit " " ++ uri_text (q_uri q) ++ lit " SIP/2.0")).
      { intros c E Hc. apply in_app_or in Hc. destruct Hc as [Hc | Hc]; [apply F, method_char_facts in Hc; lia|].
        apply in_app_or in Hc. destruct Hc as [[<- | []] | Hc]; [destruct E; discriminate|]. apply in_app_or in Hc. destruct Hc as [Hc | Hc].
        - apply (api_uri_control _ Hu) in Hc. destruct E; subst c; discriminate.
        - cbn in Hc. destruct E; subst c; repeat (destruct Hc as [Hc | Hc]; [discriminate|]); destruct Hc. }
      split; apply X; auto.
    + apply in_map_iff in Hl. destruct Hl as (h & <- & Hl). unfold request_headers in Hl. apply in_app_or in Hl. destruct Hl as [Hl | Hl].
      * apply in_map_iff in Hl. destruct Hl as (h0 & <- & Hl). apply filter_In in Hl. destruct Hl as [Hl _]. rewrite Forall_forall in Hg. destruct (Hg h0 Hl) as (A & B & C & D & E & F & G).
        unfold hline. cbn [fst snd]. destruct (wire_ok (fst h0)) as (W1 & _ & W3).
        { split; [exact A|]. split; [exact B|]. apply forallb_forall. rewrite Forall_forall in C. exact C. }
        rewrite forallb_forall in W3. apply line_good; [exact W1|exact W3| |]; intros X; apply trim_in in X; contradiction.
      * apply in_app_or in Hl. destruct Hl as [Hl | [<- | []]].
        -- unfold hops in Hl. destruct (hcontains _ _); [destruct Hl|]. destruct Hl as [<- | []]. split; [discriminate|]. split; vm_compute; intuition discriminate.
        -- apply line_good; [discriminate|intros c Hc; cbn in Hc; repeat (destruct Hc as [<- | Hc]; [reflexivity|]); destruct Hc| |]; intros X; apply print_N_digits in X; lia. }
Qed.
(** For a request made through the API, whatever its header values, Request-URI and
    method: the bytes are the start line, a line for each header but Content-Length, one
    for Max-Forwards if there was none, one for Content-Length, an empty line and the
    body; no line contains a CR or LF. *)
Theorem C51_request : forall q, api_method (q_method q) -> api_uri (q_uri q) -> good_headers (q_headers q) -> llen (q_body q) <= 10485760 ->
  exists lines front,
    laid_out (serialize_request q) (method_str (q_method q) ++ lit " " ++ uri_text (q_uri q) ++ lit " SIP/2.0") lines (q_body q)
    /\ Forall2 line_for (filter (fun h => negb (length_header h)) (q_headers q)) front
    /\ lines = front ++ (if hcontains (lit "Max-Forwards") (q_headers q) then [] else [lit "Max-Forwards: 70"])
                     ++ [lit "Content-Length: " ++ print_N (llen (q_body q))].
Proof.
  intros q Hm Hu Hg Hb. exists (map hline (request_headers q)), (map (fun h => hline (wire_name (fst h), trim (snd h))) (kept (q_headers q))).
  split; [now apply request_laid|split].
  - fold (kept (q_headers q)). induction (kept (q_headers q)) as [|h hs IH]; constructor; [|exact IH]. exists (wire_name (fst h)). split; [apply wire_lower|]. left. reflexivity.
  - unfold request_headers. rewrite !map_app, map_map. f_equal. f_equal. unfold hops. destruct (hcontains _ _); reflexivity.
Qed.
Print Assumptions C51_request.
Lemma response_laid : forall q, status_new (p_code q) (p_reason q) <> None -> good_headers (p_headers q) ->
  laid_out (serialize_response q) (lit "SIP/2.0 " ++ print_N (p_code q) ++ lit " " ++ p_reason q) (map hline (response_headers q)) (p_body q).
Proof.
  intros q Hs [Hg _].
  { split; [exact (serialize_response_lines q)|]. intros l [<- | Hl].
    + assert (R : forall c, In c (p_reason q) -> is_ascii_control c = false).
      { unfold status_new in Hs. destruct (negb _); [congruence|]. destruct (_ <? _); [congruence|].
        destruct (existsb is_ascii_control (p_reason q)) eqn:E; [congruence|]. intros c Hc. apply not_true_iff_false. intros X. apply not_true_iff_false in E. apply E, existsb_exists. eauto. }
      split; [discriminate|]. assert (X : forall c, c = 13 \/ c = 10 -> ~ In c (lit "SIP/2.0 " ++ print_N (p_code q) ++ lit " " ++ p_reason q)).
      { intros c E Hc. apply in_app_or in Hc. destruct Hc as [Hc | Hc].
        - cbn in Hc. destruct E; subst c; repeat (destruct Hc as [Hc | Hc]; [discriminate|]); destruct Hc.
        - apply in_app_or in Hc. destruct Hc as [Hc | Hc]; [apply print_N_digits in Hc; lia|]. apply in_app_or in Hc. destruct Hc as [[<- | []] | Hc]; [destruct E; discriminate|].
          apply R in Hc. destruct E; subst c; discriminate. }
      split; apply X; auto.
    + apply in_map_iff in Hl. destruct Hl as (h & <- & Hl). unfold response_headers in Hl. apply in_app_or in Hl. destruct Hl as [Hl | [<- | []]].
      * apply filter_In in Hl. destruct Hl as [Hl _]. rewrite Forall_forall in Hg. destruct (Hg h Hl) as (A & B & C & D & E & F & G).
        unfold hline. rewrite Forall_forall in C. apply line_good; auto.
      * apply line_good; [discriminate|intros c Hc; cbn in Hc; repeat (destruct Hc as [<- | Hc]; [reflexivity|]); destruct Hc| |]; intros X; apply print_N_digits in X; lia. }
Qed.
Theorem C51_response : forall r, status_new (p_code r) (p_reason r) <> None -> good_headers (p_headers r) ->
  exists lines front,
    laid_out (serialize_response r) (lit "SIP/2.0 " ++ print_N (p_code r) ++ lit " " ++ p_reason r) lines (p_body r)
    /\ Forall2 line_for (filter (fun h => negb (length_header h)) (p_headers r)) front
    /\ lines = front ++ [lit "Content-Length: " ++ print_N (llen (p_body r))].
Proof.
  intros q Hs Hg. exists (map hline (response_headers q)), (map hline (kept (p_headers q))).
  split; [now apply response_laid|split].
  - fold (kept (p_headers q)). induction (kept (p_headers q)) as [|h hs IH]; constructor; [|exact IH]. exists (fst h). split; [reflexivity|]. right. reflexivity.
  - unfold response_headers. rewrite !map_app. f_equal.
Qed.
Print Assumptions C51_response.
Example C51_example : api_method MInvite /\ api_uri sample_uri /\ good_headers (q_headers sample) /\ llen (q_body sample) <= 10485760
  /\ status_new 486 (lit "Busy Here") <> None
  (* values that would add a line never become headers *)
  /\ is_ok (header_new (lit "Subject") (lit "x" ++ [13; 10] ++ lit "Evil: 1")) = false /\ status_new 200 (lit "x" ++ [13; 10] ++ lit "Evil: 1") = None.
Proof.
  destruct C49_example as (A & B & C & _). split; [exact A|]. split; [right; exists (lit "sip:bob@example.com;transport=tcp"); eexists; split; [vm_compute; reflexivity|reflexivity]|].
  split; [exact C|]. split; [vm_compute; discriminate|]. split; [vm_compute; discriminate|]. split; reflexivity.
Qed.

(** ** C52: accepted messages are well framed *)
(** Partial: a request or response without CSeq is accepted, and the method in CSeq is
    compared without regard to case ([C52_cseq_refuted]). *)
Theorem C52_request_partial : forall d q, parse_request_strict d = Some q ->
  llen d <= 65536 /\ good_headers (q_headers q)
  /\ (exists head start lines, framed d head (q_body q) /\ lines_of head (start :: lines) /\ Forall2 header_line (filter nonempty lines) (q_headers q))
  /\ length_agrees (q_headers q) (q_body q) /\ no_repeats (q_headers q) /\ cseq_of (q_headers q) (q_method q).
Proof.
  intros d q H. pose proof (parsed_request _ _ _ _ H) as (_ & _ & G & _). apply request_inv in H. destruct H as (L & head & rest & start & lines & E1 & E2 & E3 & E4 & S & V & C & B & _).
  apply strict_body in B. destruct B as [-> B]. split; [exact L|]. split; [exact G|]. split; [|split; [exact B|split; [now apply singletons_spec|now apply cseq_spec]]].
  exists head, start, lines. split; [now apply framed_of in E1|]. split; [now apply lines_of_split|now apply header_lines].
Qed.
Print Assumptions C52_request_partial.
Theorem C52_response_partial : forall d r, parse_response_strict d = Some r ->
  llen d <= 65536 /\ good_headers (p_headers r) /\ 100 <= p_code r <= 699
  /\ (exists head start lines, framed d head (p_body r) /\ lines_of head (start :: lines) /\ Forall2 header_line (filter nonempty lines) (p_headers r))
  /\ length_agrees (p_headers r) (p_body r) /\ no_repeats (p_headers r) /\ cseq_in_range (p_headers r).
Proof.
  intros d q H. pose proof (parsed_response _ _ _ H) as (St & _ & _ & _ & G & _). apply response_inv in H. destruct H as (L & head & rest & start & lines & E1 & E2 & E3 & E4 & S & C & B & _).
  apply strict_body in B. destruct B as [-> B]. split; [exact L|]. split; [exact G|]. split.
  { unfold status_new in St. destruct (in_range 100 699 (p_code q)) eqn:R; [|discriminate]. unfold in_range in R. lia. }
  split; [|split; [exact B|split; [now apply singletons_spec|now apply response_cseq_spec]]].
  exists head, start, lines. split; [now apply framed_of in E1|]. split; [now apply lines_of_split|now apply header_lines].
Qed.
Print Assumptions C52_response_partial.
(** The lenient parser takes the body Content-Length asks for, and ignores values that are
    not numbers. *)
Theorem C52_lenient : forall d q, parse_request d = Some q ->
  llen d <= 65536 /\ good_headers (q_headers q) /\ no_repeats (q_headers q) /\ cseq_of (q_headers q) (q_method q)
  /\ exists head start lines rest, framed d head rest /\ lines_of head (start :: lines) /\ Forall2 header_line (filter nonempty lines) (q_headers q)
     /\ length_taken (q_headers q) (q_body q) rest.
Proof.
  intros d q H. pose proof (parsed_request _ _ _ _ H) as (_ & _ & G & _). apply request_inv in H. destruct H as (L & head & rest & start & lines & E1 & E2 & E3 & E4 & S & V & C & B & _).
  split; [exact L|]. split; [exact G|]. split; [now apply singletons_spec|]. split; [now apply cseq_spec|].
  exists head, start, lines, rest. split; [now apply framed_of in E1|]. split; [now apply lines_of_split|]. split; [now apply header_lines|now apply lenient_body].
Qed.
Print Assumptions C52_lenient.
Theorem C52_lenient_response : forall d r, parse_response d = Some r ->
  llen d <= 65536 /\ good_headers (p_headers r) /\ no_repeats (p_headers r) /\ cseq_in_range (p_headers r)
  /\ exists head start lines rest, framed d head rest /\ lines_of head (start :: lines) /\ Forall2 header_line (filter nonempty lines) (p_headers r)
     /\ length_taken (p_headers r) (p_body r) rest.
Proof.
  intros d q H. pose proof (parsed_response _ _ _ H) as (_ & _ & _ & _ & G & _). apply response_inv in H. destruct H as (L & head & rest & start & lines & E1 & E2 & E3 & E4 & S & C & B & _).
  split; [exact L|]. split; [exact G|]. split; [now apply singletons_spec|]. split; [now apply response_cseq_spec|].
  exists head, start, lines, rest. split; [now apply framed_of in E1|]. split; [now apply lines_of_split|]. split; [now apply header_lines|now apply lenient_body].
Qed.
Print Assumptions C52_lenient_response.
Definition text (s : list string) : list N := flat_map (fun l => lit l ++ [13; 10]) s.
Example C52_example : exists q, parse_request_strict (text ["INVITE sip:a@b.example SIP/2.0"; "CSeq: 7 INVITE"; "f: <sip:c@d>"; "Content-Length: 2"; ""]%string ++ [1; 2]) = Some q
  /\ q_body q = [1; 2] /\ llen (q_headers q) = 3.
Proof. eexists. split; [vm_compute; reflexivity|]. split; reflexivity. Qed.
Example C52_lenient_example : exists q, parse_request (text ["INVITE sip:a@b.example SIP/2.0"; "Content-Length: x"; "l: 2"; ""]%string ++ [1; 2; 3]) = Some q
  /\ q_body q = [1; 2] /\ llen (q_headers q) = 2.
Proof. eexists. split; [vm_compute; reflexivity|]. split; reflexivity. Qed.
Theorem C52_cseq_refuted :
  (exists q, parse_request_strict (text ["INVITE sip:a@b.example SIP/2.0"; ""]%string) = Some q /\ hget (lit "CSeq") (q_headers q) = None)
  /\ (exists q, parse_request_strict (text ["INVITE sip:a@b.example SIP/2.0"; "CSeq: 7 invite"; ""]%string) = Some q /\ q_method q = MInvite).
Proof. split; eexists; (split; [vm_compute; reflexivity|]); vm_compute; reflexivity. Qed.
Print Assumptions C52_cseq_refuted.
(** A Content-Length with a plus sign passes the strict parser. *)
Theorem C52_plus : exists q, parse_request_strict (text ["INVITE sip:a@b.example SIP/2.0"; "Content-Length: +2"; ""]%string ++ [1; 2]) = Some q /\ q_body q = [1; 2].
Proof. eexists. split; [vm_compute; reflexivity|]. vm_compute. reflexivity. Qed.
Print Assumptions C52_plus.

(** ** C100: an accepted message can be passed on *)
(** Whatever bytes were accepted, by either parser: serialising the request gives bytes
    both parsers accept, as long as they fit the limits; the next hop sees the same
    request, and passing it on again changes no byte. *)
Theorem C100_relay : forall d q, parse_request d = Some q \/ parse_request_strict d = Some q ->
  llen (serialize_request q) <= 65536 -> (forall q', arrived_request q q' -> llen (q_headers q') <= 200) ->
  exists q', parse_request (serialize_request q) = Some q' /\ parse_request_strict (serialize_request q) = Some q'
    /\ arrived_request q q' /\ serialize_request q' = serialize_request q.
Proof.
  intros d q H L N. assert (P : exists bo, parse_request_by bo DEFAULT_MAX_MESSAGE_SIZE d = Some q) by (destruct H as [H | H]; eexists; exact H).
  destruct P as [bo P]. destruct (parsed_request _ _ _ _ P) as (A & B & G & T & Lg). apply request_inv in P. destruct P as (_ & head & rest & start & lines & _ & _ & _ & _ & S & V & C & _).
  destruct (relay_ok q Lg S V C) as (S' & V' & C'). pose proof (good_fit _ G T) as F.
  exists (mkReq (q_method q) (q_uri q) (got_request q) (q_body q)).
  assert (X : forall strict : bool, parse_request_by (if strict then extract_body_strict else extract_body) DEFAULT_MAX_MESSAGE_SIZE (serialize_request q)
              = Some (mkReq (q_method q) (q_uri q) (got_request q) (q_body q))).
  { intros strict. rewrite parse_serialized by assumption. specialize (N _ (arrived_got q)). cbn [q_headers] in N. rewrite llen_got in N. replace (llen (request_headers q) <=? 200) with true by lia.
    rewrite S', V', C'. reflexivity. }
  split; [exact (X false)|]. split; [exact (X true)|]. split; [apply arrived_got|now apply rewrite_same].
Qed.
Print Assumptions C100_relay.
(** Responses likewise. *)
Theorem C100_relay_response : forall d r, parse_response d = Some r \/ parse_response_strict d = Some r ->
  llen (serialize_response r) <= 65536 -> (forall r', arrived_response r r' -> llen (p_headers r') <= 200) ->
  exists r', parse_response (serialize_response r) = Some r' /\ parse_response_strict (serialize_response r) = Some r'
    /\ arrived_response r r' /\ serialize_response r' = serialize_response r.
Proof.
  intros d q H L N. assert (P : exists bo, parse_response_by bo d = Some q) by (destruct H as [H | H]; eexists; exact H).
  destruct P as [bo P]. destruct (parsed_response _ _ _ P) as (A & B & St & Nr & G & T & Lg). apply response_inv in P. destruct P as (_ & head & rest & start & lines & _ & _ & _ & _ & S & V & _).
  destruct (relay_response_ok q Lg S V) as (S' & V'). pose proof (good_fit _ G T) as F.
  exists (mkResp (p_code q) (p_reason q) (got_response q) (p_body q)).
  assert (X : forall strict : bool, parse_response_by (if strict then extract_body_strict else extract_body) (serialize_response q)
              = Some (mkResp (p_code q) (p_reason q) (got_response q) (p_body q))).
  { intros strict. rewrite parse_serialized_response by assumption. specialize (N _ (arrived_got_response q)). cbn [p_headers] in N. rewrite llen_got_response in N. replace (llen (response_headers q) <=? 200) with true by lia.
    rewrite S', V'. reflexivity. }
  split; [exact (X false)|]. split; [exact (X true)|]. split; [apply arrived_got_response|now apply rewrite_same_response].
Qed.
Print Assumptions C100_relay_response.
Example C100_example : exists q q', parse_request (text ["INVITE sip:a@b.example SIP/2.0"; "CSeq: 7 INVITE"; "f: <sip:c@d>"; "VIA: SIP/2.0/TCP x;branch=z9hG4bK1"; "Content-Length: 2"; ""]%string ++ [1; 2; 3]) = Some q
  /\ q_body q = [1; 2] /\ parse_request (serialize_request q) = Some q' /\ serialize_request q' = serialize_request q
  /\ hget_all (lit "Via") (q_headers q') = [lit "SIP/2.0/TCP x;branch=z9hG4bK1"].
Proof. eexists. eexists. split; [vm_compute; reflexivity|]. split; [reflexivity|]. split; [vm_compute; reflexivity|]. split; vm_compute; reflexivity. Qed.
