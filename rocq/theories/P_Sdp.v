(** Offer/answer negotiation: C63, C64, C65, C107. *)
From Coq Require Import Arith NArith Bool String List Lia ZifyBool ZifyN ZifyNat.
Import ListNotations.
From Verif Require Import Base BaseFacts Text Sdp SdpSpec SdpProofs.
Open Scope N_scope.
Open Scope list_scope.

(** ** C63: answers match the offer line by line *)
Theorem C63_lines sid offer addr caps ans : negotiate_answer sid offer addr caps = Ok ans ->
  length (sd_media ans) = length (sd_media offer)
  /\ (forall i om am, nth_error (sd_media offer) i = Some om -> nth_error (sd_media ans) i = Some am ->
      md_type am = md_type om /\ md_proto am = md_proto om /\ md_ports am = md_ports om
      /\ (first_acceptable caps (sd_media offer) i -> forall lm, local_line caps (md_type om) lm ->
           md_port am = md_port lm /\ md_conn am = md_conn lm /\ md_formats am <> [])
      /\ (~ first_acceptable caps (sd_media offer) i ->
           md_port am = 0 /\ md_attrs am = [] /\ (md_formats om <> [] -> md_formats am = md_formats om)))
  /\ (forall i j a b, nth_error (sd_media ans) i = Some a -> nth_error (sd_media ans) j = Some b ->
      md_type a = md_type b -> md_port a <> 0 -> md_port b <> 0 -> i = j).
Proof.
  intro H. destruct (negotiate_answer_lines _ _ _ _ _ H) as [L K]. split; [exact L|].
  assert (forall i om am, nth_error (sd_media offer) i = Some om -> nth_error (sd_media ans) i = Some am ->
      md_type am = md_type om /\ md_proto am = md_proto om /\ md_ports am = md_ports om
      /\ (first_acceptable caps (sd_media offer) i -> forall lm, local_line caps (md_type om) lm ->
           md_port am = md_port lm /\ md_conn am = md_conn lm /\ md_formats am <> [])
      /\ (~ first_acceptable caps (sd_media offer) i ->
           md_port am = 0 /\ md_attrs am = [] /\ (md_formats om <> [] -> md_formats am = md_formats om))) as P.
  { intros i om am O A. destruct (K i om am O A) as [[F (lm & Lm & N)]|[F ->]].
    - apply answered_facts in N. split; [apply N|]. split; [apply N|]. split; [apply N|]. split; [|contradiction].
      intros _ lm' L'. apply find_local in L'. rewrite Lm in L'. injection L' as <-. split; [apply N|]. split; [apply N|].
      rewrite (af_nonempty _ _ _ N). destruct F as (om' & O' & Ac & _). rewrite O in O'. injection O' as <-. apply acceptable_iff in Ac.
      destruct Ac as (x & X & _ & Z). rewrite Lm in X. injection X as <-. destruct (find_common_formats om lm); [congruence|discriminate].
    - repeat split; try reflexivity; try contradiction. cbn. destruct (md_formats om); congruence. }
  split; [exact P|].
  assert (forall i a, nth_error (sd_media ans) i = Some a -> md_port a <> 0 -> exists o, nth_error (sd_media offer) i = Some o /\ md_type o = md_type a /\ acceptable caps o
    /\ forall j oj, (j < i)%nat -> nth_error (sd_media offer) j = Some oj -> md_type oj = md_type a -> ~ acceptable caps oj) as Q.
  { intros i a A Z. assert (i < length (sd_media offer))%nat as Li by (rewrite <- L; apply nth_error_Some; congruence).
    destruct (nth_error (sd_media offer) i) as [o|] eqn:O; [|apply nth_error_None in O; lia]. exists o. split; [reflexivity|].
    destruct (P i o a O A) as (T & _). split; [congruence|]. destruct (K i o a O A) as [[(o' & O' & Ac & F) _]|[_ ->]]; [|cbn in Z; congruence].
    rewrite O in O'. injection O' as <-. split; [exact Ac|]. rewrite T. exact F. }
  intros i j a b A B T Za Zb. destruct (Q i a A Za) as (oa & Oa & Ta & Aa & Fa). destruct (Q j b B Zb) as (ob & Ob & Tb & Ab & Fb).
  destruct (Nat.lt_trichotomy i j) as [J|[J|J]]; [|exact J|].
  - exfalso. apply (Fb i oa J Oa); congruence.
  - exfalso. apply (Fa j ob J Ob); congruence.
Qed.
Print Assumptions C63_lines.

Lemma family addr : family_of addr (addr_type_of addr).
Proof.
  unfold family_of, addr_type_of. destruct (mem 58 addr) eqn:E.
  - apply mem_In in E. split; split; intro; try discriminate; try reflexivity; try assumption; contradiction.
  - apply mem_false in E. split; split; intro; try discriminate; try reflexivity; try assumption; contradiction.
Qed.
Lemma fits_valid v max : fits v max <-> valid_field v max = true.
Proof.
  unfold fits, valid_field. rewrite !andb_true_iff, N.leb_le, negb_true_iff. split.
  - intros (A & B & C). split; [split; [destruct v; [congruence|reflexivity]|exact B]|]. apply negb_true_iff, not_true_iff_false. intros X. apply existsb_exists in X. destruct X as (c & X & Y). rewrite (C c X) in Y. discriminate.
  - intros ((A & B) & C). split; [destruct v; [discriminate|discriminate]|]. split; [exact B|]. intros c Hc. apply negb_true_iff in C. destruct (is_control c) eqn:E; [|reflexivity]. exfalso. apply not_true_iff_false in C. apply C. apply existsb_exists. eauto.
Qed.
(** the answer's own session part *)
Theorem C63_session sid offer addr caps ans : negotiate_answer sid offer addr caps = Ok ans ->
  sd_version ans = 0 /\ sd_name ans = sd_name caps
  /\ og_user (sd_origin ans) = og_user (sd_origin caps) /\ og_id (sd_origin ans) = sid /\ og_addr (sd_origin ans) = addr
  /\ family_of addr (og_type (sd_origin ans))
  /\ (exists c, sd_conn ans = Some c /\ cx_addr c = addr /\ family_of addr (cx_type c)) /\ sd_times ans = [mkTime 0 0 []] /\ sd_attrs ans = [].
Proof.
  unfold negotiate_answer, origin_new, connection_new. destruct (_ && _ && _); [|discriminate]. destruct (valid_field _ _); [|discriminate]. destruct (valid_field _ _); [|discriminate].
  destruct (negotiate_lines _ _ _ _); [|discriminate]. intro H. injection H as <-.
  cbn [sd_version sd_name sd_origin sd_conn sd_times sd_attrs og_user og_id og_addr og_type]. pose proof (family addr) as F.
  do 5 (split; [reflexivity|]). split; [exact F|]. split; [eexists; split; [reflexivity|]; split; [reflexivity|exact F]|]. split; reflexivity.
Qed.
Print Assumptions C63_session.

(** negotiation does answer: [user], [sid], [name] and [addr] fit their fields, there are
    at most 20 lines with at most 24 formats each, the local codecs are valid, and no
    direction pair is one of those given up on *)
Theorem C63_answers sid offer addr caps :
  fits (og_user (sd_origin caps)) 256 -> fits sid 256 -> fits addr 256 -> fits (sd_name caps) 512 ->
  llen (sd_media offer) <= 20 ->
  (forall om, In om (sd_media offer) -> llen (md_formats om) <= 24 /\ forall f, In f (md_formats om) -> fits f 64) ->
  (forall lm, In lm (sd_media caps) -> maps_ok lm /\ forall x, In x (map snd (md_maps lm)) -> fits (rm_name x) 64 /\ 1000 <= rm_rate x <= 1000000000) ->
  (forall om lm, In om (sd_media offer) -> In lm (sd_media caps) -> md_type om = md_type lm -> ~ given_up (dir_of om) (dir_of lm)) ->
  exists ans, negotiate_answer sid offer addr caps = Ok ans.
Proof.
  intros U S A N L O0 C0 D. rewrite fits_valid in U, S, A, N.
  assert (O : forall om, In om (sd_media offer) -> llen (md_formats om) <= 24 /\ forall f, In f (md_formats om) -> valid_field f 64 = true).
  { intros om I. destruct (O0 om I) as [O1 O2]. split; [exact O1|]. intros f Hf. apply fits_valid. now apply O2. }
  assert (C : forall lm, In lm (sd_media caps) -> maps_ok lm /\ forall x, In x (map snd (md_maps lm)) -> valid_field (rm_name x) 64 = true /\ valid_rate (rm_rate x) = true).
  { intros lm I. destruct (C0 lm I) as [C1 C2]. split; [exact C1|]. intros x Hx. destruct (C2 x Hx) as [C3 C4]. split; [now apply fits_valid|]. unfold valid_rate, MIN_CLOCK_RATE, MAX_CLOCK_RATE. lia. }
  unfold negotiate_answer, origin_new, connection_new. unfold MAX_USERNAME_LENGTH, MAX_SESSION_ID_LENGTH, MAX_ADDRESS_LENGTH, MAX_SESSION_NAME_LENGTH.
  rewrite U, S, A, N. cbn [andb]. destruct (negotiate_lines_ok caps (sd_media offer) [] []) as (ms & ->); [| |eauto].
  - intros om I Ac. pose proof Ac as (lm & Lm & _). pose proof Lm as (b & a & E & T & _).
    assert (In lm (sd_media caps)) as Il by (rewrite E; apply in_elt). destruct (O om I) as (O1 & O2). destruct (C lm Il) as (C1 & C2).
    apply (negotiate_media_some om caps lm Ac Lm O1 O2 C1 C2). specialize (D om lm I Il (eq_sym T)). unfold given_up in D.
    destruct (dir_of om), (dir_of lm); cbn; try discriminate; exfalso; apply D; intuition congruence.
  - change (llen (@nil media)) with 0. lia.
Qed.
Print Assumptions C63_answers.

(** a line switched off in the offer (port 0) is nevertheless answered with a port, and
    the working line of that type behind it is refused *)
Definition opus (pt : N) : rtpmap := mkRtpMap pt (lit "opus") 48000 (Some (lit "2")).
Definition ex_audio (port : N) (attrs : list attribute) : media :=
  mkMedia MAudio port None PRtpAvp [lit "0"; lit "96"] None None [] None (AVal (lit "rtpmap") (lit "96 opus/48000/2") :: attrs) [(96, opus 96)].
Definition ex_local (attrs : list attribute) : media :=
  mkMedia MAudio 7000 None PRtpAvp [lit "111"; lit "0"] None None [] None (AVal (lit "rtpmap") (lit "111 opus/48000/2") :: attrs) [(111, opus 111)].
Definition ex_sdp (l : list media) : sdp :=
  mkSdp 0 (mkOrigin (lit "alice") (lit "1") (lit "1") IP4 (lit "192.0.2.1")) (lit "call") None None None None None [] [mkTime 0 0 []] [] None [] l.
Theorem C63_disabled_refuted : exists sid offer addr caps ans a0 a1,
  map md_port (sd_media offer) = [0; 5004]
  /\ negotiate_answer sid offer addr caps = Ok ans
  /\ sd_media ans = [a0; a1] /\ md_port a0 = 7000 /\ md_port a1 = 0.
Proof.
  exists (lit "9"), (ex_sdp [ex_audio 0 []; ex_audio 5004 []]), (lit "192.0.2.9"), (ex_sdp [ex_local []]). do 3 eexists.
  split; [reflexivity|]. split; [vm_compute; reflexivity|]. split; [reflexivity|]. split; reflexivity.
Qed.
Print Assumptions C63_disabled_refuted.

(** ** C64: the formats of an accepted line are the common ones, in the offerer's order *)
Theorem C64_formats sid offer addr caps ans i om am lm : negotiate_answer sid offer addr caps = Ok ans ->
  nth_error (sd_media offer) i = Some om -> nth_error (sd_media ans) i = Some am ->
  first_acceptable caps (sd_media offer) i -> local_line caps (md_type om) lm ->
  picked (is_common om lm) (md_formats om) (md_formats am).
Proof. intros H O A F L. apply (accepted_line _ _ _ _ _ _ _ _ _ H O A F L). Qed.
Print Assumptions C64_formats.

(** a dynamic payload type keeps the offerer's number and codec; a static one takes the
    local description.  The attribute list says the same, with one line per number. *)
Theorem C64_codecs sid offer addr caps ans i om am lm pt : negotiate_answer sid offer addr caps = Ok ans ->
  nth_error (sd_media offer) i = Some om -> nth_error (sd_media ans) i = Some am ->
  first_acceptable caps (sd_media offer) i -> local_line caps (md_type om) lm ->
  maps_ok lm -> is_rtp (md_proto om) = true -> lists_pt am pt ->
  (96 <= pt -> exists o l, lookup N.eqb pt (md_maps om) = Some o /\ In l (map snd (md_maps lm)) /\ lists_pt lm (rm_pt l) /\ same_codec o l
     /\ lookup N.eqb pt (md_maps am) = Some (mkRtpMap pt (rm_name l) (rm_rate l) (rm_params l)))
  /\ (pt < 96 -> lookup N.eqb pt (md_maps am) = lookup N.eqb pt (md_maps lm))
  /\ rtpmap_lines pt am = match lookup N.eqb pt (md_maps am) with
                          | Some x => [AVal (lit "rtpmap") (rtpmap_text pt (rm_name x) (rm_rate x) (rm_params x))]
                          | None => [] end.
Proof.
  intros H O A F L OK R P. pose proof (accepted_line _ _ _ _ _ _ _ _ _ H O A F L) as K. split; [|split; [|apply K; assumption]].
  - intro G. pose proof (af_maps _ _ _ K OK R pt P) as M. unfold chosen_map in M. replace (pt <? 96) with false in M by lia.
    destruct P as (f & If & Pf). rewrite (af_nonempty _ _ _ K) in If. apply in_map_iff in If. destruct If as (x & <- & If). apply filter_map_in in If.
    destruct If as (g & _ & Cg). pose proof (common_fst _ _ _ _ Cg) as E. rewrite <- E in Cg. unfold common_format in Cg. rewrite R, Pf in Cg. replace (pt <? 96) with false in Cg by lia.
    destruct (lookup N.eqb pt (md_maps om)) as [o|]; [|discriminate]. destruct (matching_rtpmap lm o) as [l|] eqn:Q; [|discriminate].
    exists o, l. apply matching_some in Q. destruct Q as (Q1 & Q2 & Q3). auto.
  - intro G. rewrite (af_maps _ _ _ K OK R pt P). unfold chosen_map. replace (pt <? 96) with true by lia. reflexivity.
Qed.
Print Assumptions C64_codecs.

(** payload types from 35 to 95 have no fixed codec, yet are matched by number alone: the
    answer accepts 40, which the offer calls G722 and the local side AMR *)
Theorem C64_static_refuted : exists sid offer addr caps ans om lm am o l,
  negotiate_answer sid offer addr caps = Ok ans
  /\ sd_media offer = [om] /\ sd_media caps = [lm] /\ sd_media ans = [am]
  /\ md_formats om = [lit "40"] /\ md_formats am = [lit "40"]
  /\ lookup N.eqb 40 (md_maps om) = Some o /\ lookup N.eqb 40 (md_maps lm) = Some l /\ lookup N.eqb 40 (md_maps am) = Some l
  /\ rm_name o = lit "G722" /\ rm_name l = lit "AMR".
Proof.
  exists (lit "9"), (ex_sdp [mkMedia MAudio 5004 None PRtpAvp [lit "40"] None None [] None [AVal (lit "rtpmap") (lit "40 G722/8000")] [(40, mkRtpMap 40 (lit "G722") 8000 None)]]),
    (lit "192.0.2.9"), (ex_sdp [mkMedia MAudio 7000 None PRtpAvp [lit "40"] None None [] None [AVal (lit "rtpmap") (lit "40 AMR/8000")] [(40, mkRtpMap 40 (lit "AMR") 8000 None)]]).
  do 6 eexists. split; [vm_compute; reflexivity|]. repeat split.
Qed.
Print Assumptions C64_static_refuted.

(** ** C65: directions *)
(** towards the offerer an answer is always right: the answerer sends only what the
    offerer receives and conversely *)
Theorem C65_offerer_partial sid offer addr caps ans i om am lm : negotiate_answer sid offer addr caps = Ok ans ->
  nth_error (sd_media offer) i = Some om -> nth_error (sd_media ans) i = Some am ->
  first_acceptable caps (sd_media offer) i -> local_line caps (md_type om) lm ->
  (sends (dir_of am) -> receives (dir_of om)) /\ (receives (dir_of am) -> sends (dir_of om)).
Proof.
  intros H O A F L. exact (offerer_table _ _ _ (af_dir _ _ _ (accepted_line _ _ _ _ _ _ _ _ _ H O A F L))).
Qed.
Print Assumptions C65_offerer_partial.

(** towards the local side too, unless both are set to the same one-way direction *)
Theorem C65_agreed_partial sid offer addr caps ans i om am lm : negotiate_answer sid offer addr caps = Ok ans ->
  nth_error (sd_media offer) i = Some om -> nth_error (sd_media ans) i = Some am ->
  first_acceptable caps (sd_media offer) i -> local_line caps (md_type om) lm ->
  agreed (dir_of om) (dir_of lm) (dir_of am) <-> ~ same_way (dir_of om) (dir_of lm).
Proof.
  intros H O A F L. exact (agreed_table _ _ _ (af_dir _ _ _ (accepted_line _ _ _ _ _ _ _ _ _ H O A F L))).
Qed.
Print Assumptions C65_agreed_partial.

(** an accepted line is never one of the pairs given up on, and giving up for a direction
    happens only for such a pair *)
Theorem C65_given_up sid offer addr caps : negotiate_answer sid offer addr caps = Err IncompatibleDirection ->
  exists om lm, In om (sd_media offer) /\ local_line caps (md_type om) lm /\ acceptable caps om /\ given_up (dir_of om) (dir_of lm).
Proof.
  unfold negotiate_answer. destruct (origin_new _ _ _); [|discriminate]. destruct (valid_field _ _); [|discriminate]. destruct (connection_new _); [|discriminate].
  destruct (negotiate_lines caps [] [] (sd_media offer)) as [ms|e] eqn:E; [discriminate|]. intro H. injection H as ->. revert E. generalize (@nil media_type) (@nil media).
  generalize (sd_media offer). induction l as [|om r IH]; intros types acc E; cbn [negotiate_lines] in E; [discriminate|].
  assert (forall t a, negotiate_lines caps t a r = Err IncompatibleDirection -> exists om' lm, In om' (om :: r) /\ local_line caps (md_type om') lm /\ acceptable caps om' /\ given_up (dir_of om') (dir_of lm)) as IH'.
  { intros t a Q. destruct (IH t a Q) as (o1 & l1 & I & R). exists o1, l1. split; [now right|exact R]. }
  destruct (existsb _ types); [destruct (llen acc <? _); [eapply IH'; exact E|discriminate]|].
  destruct (negotiate_media om caps) as [am|e] eqn:M; [destruct (llen acc <? _); [eapply IH'; exact E|discriminate]|].
  destruct e; try discriminate; try (destruct (llen acc <? _); [eapply IH'; exact E|discriminate]).
  clear IH IH' E. unfold negotiate_media in M. destruct (find_media (md_type om) (sd_media caps)) as [lm|] eqn:Lm; [|discriminate].
  destruct (protocol_eqb (md_proto om) (md_proto lm)) eqn:P; cbn [negb] in M; [|discriminate]. destruct (find_common_formats om lm) as [|x y] eqn:C; [discriminate|]. cbv zeta in M.
  exists om, lm. split; [now left|]. split; [now apply find_local|]. split; [apply acceptable_iff; exists lm; split; [exact Lm|]; split; [exact P|congruence]|].
  change (match extract_direction (md_attrs om) with Some d => d | None => DSendRecv end) with (dir_of om) in M.
  change (match extract_direction (md_attrs lm) with Some d => d | None => DSendRecv end) with (dir_of lm) in M.
  apply given_up_table. destruct (dir_negotiate _ _) as [d|]; [|reflexivity]. destruct (add_formats _ _); [|discriminate]. destruct (add_property _ _); discriminate.
Qed.
Print Assumptions C65_given_up.
(** conversely, an offer whose first acceptable line of some type is such a pair is never answered *)
Theorem C65_no_answer sid offer addr caps i om lm : nth_error (sd_media offer) i = Some om ->
  first_acceptable caps (sd_media offer) i -> local_line caps (md_type om) lm -> given_up (dir_of om) (dir_of lm) ->
  forall ans, negotiate_answer sid offer addr caps <> Ok ans.
Proof.
  intros O F L G ans H. destruct (negotiate_answer_lines _ _ _ _ _ H) as [N _]. assert (i < length (sd_media offer))%nat as Li by (apply nth_error_Some; congruence).
  destruct (nth_error (sd_media ans) i) as [am|] eqn:A; [|apply nth_error_None in A; lia].
  pose proof (af_dir _ _ _ (accepted_line _ _ _ _ _ _ _ _ _ H O A F L)) as D. apply given_up_table in G. congruence.
Qed.
Print Assumptions C65_no_answer.

(** both sides only receive: the answer promises to send *)
Theorem C65_refuted : exists sid offer addr caps ans om lm am,
  negotiate_answer sid offer addr caps = Ok ans /\ sd_media offer = [om] /\ sd_media caps = [lm] /\ sd_media ans = [am]
  /\ dir_of om = DRecvOnly /\ dir_of lm = DRecvOnly /\ dir_of am = DSendOnly.
Proof.
  exists (lit "9"), (ex_sdp [ex_audio 5004 [AProp (lit "recvonly")]]), (lit "192.0.2.9"), (ex_sdp [ex_local [AProp (lit "recvonly")]]). do 4 eexists.
  split; [vm_compute; reflexivity|]. repeat split.
Qed.
Print Assumptions C65_refuted.
(** a perfect match, the offerer receiving and the local side sending, is refused, and
    with it a second stream that could be answered; so is an offer on hold (inactive) *)
Theorem C65_whole_refuted : forall d l, (d, l) = (DRecvOnly, DSendOnly) \/ (d, l) = (DSendOnly, DRecvOnly) \/ (d, l) = (DInactive, DSendRecv) ->
  exists sid offer addr caps om v lm w,
  sd_media offer = [om; v] /\ sd_media caps = [lm; w] /\ dir_of om = d /\ dir_of lm = l /\ acceptable caps om /\ acceptable caps v
  /\ ~ given_up (dir_of v) (dir_of w) /\ negotiate_answer sid offer addr caps = Err IncompatibleDirection.
Proof.
  intros d l H.
  set (v := mkMedia MVideo 5006 None PRtpAvp [lit "31"] None None [] None [] []).
  set (w := mkMedia MVideo 7006 None PRtpAvp [lit "31"] None None [] None [] []).
  exists (lit "9"), (ex_sdp [ex_audio 5004 [AProp (dir_token d)]; v]), (lit "192.0.2.9"), (ex_sdp [ex_local [AProp (dir_token l)]; w]).
  do 4 eexists. split; [reflexivity|]. split; [reflexivity|]. split; [destruct d; reflexivity|]. split; [destruct l; reflexivity|].
  split; [|split; [|split]].
  - apply acceptable_iff. eexists. split; [reflexivity|]. split; [reflexivity|]. vm_compute. discriminate.
  - apply acceptable_iff. exists w. split; [reflexivity|]. split; [reflexivity|]. vm_compute. discriminate.
  - rewrite given_up_table. discriminate.
  - destruct H as [H|[H|H]]; injection H as -> ->; vm_compute; reflexivity.
Qed.
Print Assumptions C65_whole_refuted.
(** a direction given for the whole session is not looked at *)
Theorem C65_session_refuted : exists sid offer addr caps ans om am,
  negotiate_answer sid offer addr caps = Ok ans /\ sd_media offer = [om] /\ sd_media ans = [am]
  /\ extract_direction (sd_attrs offer) = Some DSendOnly /\ extract_direction (md_attrs om) = None /\ dir_of am = DSendRecv.
Proof.
  exists (lit "9"), (mkSdp 0 (mkOrigin (lit "alice") (lit "1") (lit "1") IP4 (lit "192.0.2.1")) (lit "call") None None None None None [] [mkTime 0 0 []] [] None
     [AProp (lit "sendonly")] [ex_audio 5004 []]), (lit "192.0.2.9"), (ex_sdp [ex_local []]). do 3 eexists.
  split; [vm_compute; reflexivity|]. repeat split.
Qed.
Print Assumptions C65_session_refuted.

(** ** C107: format parameters and packet time *)
(** each negotiated payload type carries the local a=fmtp parameters for that number, else
    the offered ones; no other number has any; likewise a=ptime *)
Theorem C107_carried sid offer addr caps ans i om am lm : negotiate_answer sid offer addr caps = Ok ans ->
  nth_error (sd_media offer) i = Some om -> nth_error (sd_media ans) i = Some am ->
  first_acceptable caps (sd_media offer) i -> local_line caps (md_type om) lm ->
  (forall pt, lists_pt am pt -> fmtp_for pt (md_attrs am) = match fmtp_for pt (md_attrs lm) with Some x => Some x | None => fmtp_for pt (md_attrs om) end)
  /\ (forall pt, ~ lists_pt am pt -> fmtp_for pt (md_attrs am) = None)
  /\ ptime am = match ptime lm with Some x => Some x | None => ptime om end.
Proof. intros H O A F L. pose proof (accepted_line _ _ _ _ _ _ _ _ _ H O A F L) as K. split; [apply K|]. split; [apply K|]. apply K. Qed.
Print Assumptions C107_carried.
(** the local number may mean another codec: the offer's 96 is opus, the local 96 is
    telephone-event, and the answer gives opus the event list *)
Theorem C107_refuted : exists sid offer addr caps ans om lm am o l,
  negotiate_answer sid offer addr caps = Ok ans /\ sd_media offer = [om] /\ sd_media caps = [lm] /\ sd_media ans = [am]
  /\ lookup N.eqb 96 (md_maps om) = Some o /\ lookup N.eqb 96 (md_maps am) = Some o /\ rm_name o = lit "opus"
  /\ lookup N.eqb 96 (md_maps lm) = Some l /\ rm_name l = lit "telephone-event"
  /\ fmtp_for 96 (md_attrs om) = Some (lit "useinbandfec=1") /\ fmtp_for 96 (md_attrs am) = Some (lit "0-16").
Proof.
  exists (lit "9"), (ex_sdp [ex_audio 5004 [AVal (lit "fmtp") (lit "96 useinbandfec=1")]]), (lit "192.0.2.9"),
    (ex_sdp [mkMedia MAudio 7000 None PRtpAvp [lit "111"; lit "96"] None None [] None [AVal (lit "fmtp") (lit "96 0-16")]
       [(111, opus 111); (96, mkRtpMap 96 (lit "telephone-event") 8000 None)]]). do 6 eexists.
  split; [vm_compute; reflexivity|]. repeat split.
Qed.
Print Assumptions C107_refuted.

(** a non-trivial case: opus under another number and PCMU, video refused *)
Example C63_case : exists ans, negotiate_answer (lit "9")
    (ex_sdp [ex_audio 5004 [AVal (lit "ptime") (lit "20"); AProp (lit "sendonly")]; mkMedia MVideo 5006 None PRtpAvp [lit "31"] None None [] None [] []; ex_audio 5008 []])
    (lit "192.0.2.9") (ex_sdp [ex_local [AVal (lit "fmtp") (lit "111 x=1")]]) = Ok ans
  /\ map md_port (sd_media ans) = [7000; 0; 0] /\ map md_formats (sd_media ans) = [[lit "0"; lit "96"]; [lit "31"]; [lit "0"; lit "96"]]
  /\ map dir_of (sd_media ans) = [DRecvOnly; DSendRecv; DSendRecv] /\ map ptime (sd_media ans) = [Some 20; None; None].
Proof. eexists. split; [vm_compute; reflexivity|]. repeat split. Qed.
