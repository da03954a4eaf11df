(** The answer to an offer (C149). *)
From Coq Require Import Arith NArith Bool String List Lia ZifyBool ZifyN ZifyNat.
Import ListNotations.
From Verif Require Import Base BaseFacts NumFacts TypedFacts Msg SdpCore SdpCoreSpec SdpCoreProofs SdpCoreSound SdpCoreWrite P_SdpCore OfferAnswer OfferSpec OfferProofs OfferFacts.
Open Scope N_scope.
Open Scope list_scope.

(** C149: an answer has the streams of the offer, in their order and of their
    kinds. A stream that is listed as rejected, or has no codec in common, is
    declined with port 0. Any other lists the common codecs, each once and with
    the meaning it has in the offer, their first parameters, and the direction
    turned round *)
Theorem C149_streams : forall ords offer o a, any_order ords -> keeps_unique ords -> generate_answer ords offer o = Ret (Some a) ->
  List.length (ss_media a) = List.length (ss_media offer)
  /\ forall k m, nth_error (ss_media offer) k = Some m -> exists x, nth_error (ss_media a) k = Some x
     /\ md_type x = md_type m /\ md_proto x = md_proto m /\ md_mid x = md_mid m /\ md_caps x = md_caps m
     /\ ((taken o k m /\ answers o m x) \/ (~ taken o k m /\ declines m x)).
Proof.
  intros ords offer o a O U H. destruct (answer_spec _ _ _ _ O U H) as (_ & L & S). split; [exact L|]. intros k m Hm. destruct (S k m Hm) as (x & X & [(T & cs & C & ->)|(T & ->)]).
  - eexists. split; [exact X|]. do 4 (split; [reflexivity|]). left. split; [exact T|]. apply accept_answers; [exact O|exact U|exact C|exact (proj2 T)].
  - eexists. split; [exact X|]. do 4 (split; [reflexivity|]). right. split; [exact T|]. now repeat split.
Qed.
Print Assumptions C149_streams.

(** C149: the answered streams get the ports from the base port on, in steps of
    two, and each leaves room for RTCP on the next port *)
Theorem C149_ports : forall ords offer o a, any_order ords -> keeps_unique ords -> generate_answer ords offer o = Ret (Some a) ->
  forall answered, (forall k m, nth_error (ss_media offer) k = Some m -> exists b, nth_error answered k = Some b /\ (b = true <-> taken o k m)) ->
  forall k m x, nth_error (ss_media offer) k = Some m -> nth_error (ss_media a) k = Some x -> taken o k m ->
  md_port x = ao_port o + 2 * trues (firstn k answered) /\ md_port x + 1 < 65535.
Proof.
  intros ords offer o a O U H answered A k m x Hm Hx T. destruct (answer_spec _ _ _ _ O U H) as (L & _ & S). destruct (S k m Hm) as (y & Y & [(_ & cs & C & E)|(T' & _)]); [|contradiction].
  rewrite Hx in Y. injection Y as ->. subst y. unfold accept. cbn [md_port].
  assert (F : firstn k answered = firstn k (flags ords o 0 (ss_media offer))).
  { clear - A O Hm. assert (W : forall i, (i < k)%nat -> nth_error answered i = nth_error (flags ords o 0 (ss_media offer)) i).
    { intros i Hi. assert (Hl : (k < List.length (ss_media offer))%nat) by (apply nth_error_Some; congruence). destruct (nth_error (ss_media offer) i) as [mi|] eqn:Ei; [|apply nth_error_None in Ei; lia]. destruct (A i mi Ei) as (b & B1 & B2). rewrite B1, (flags_nth ords o _ 0 i mi Ei). f_equal. cbn [plus]. pose proof (flag_taken ords o i mi O) as FT. destruct b, (flag ords o i mi); try reflexivity; exfalso; intuition congruence. }
    clear A. revert W. generalize (flags ords o 0 (ss_media offer)). generalize answered. clear. induction k as [|k IH]; intros [|b l] [|b' l'] W; try reflexivity.
    - specialize (W 0%nat ltac:(lia)). discriminate.
    - specialize (W 0%nat ltac:(lia)). discriminate.
    - cbn [firstn]. f_equal; [specialize (W 0%nat ltac:(lia)); cbn in W; congruence|]. apply IH. intros i Hi. apply (W (S i)). lia. }
  rewrite F. split; [reflexivity|]. assert (NP : answer_loop ords o 0 (ao_port o) (ss_media offer) <> Panics) by (rewrite L; discriminate). rewrite loop_panics in NP.
  assert (N1 : nth_error (flags ords o 0 (ss_media offer)) k = Some true) by (rewrite (flags_nth ords o _ 0 k m Hm); f_equal; now apply (flag_taken ords o k m O)).
  pose proof (trues_step _ _ N1). pose proof (trues_all (flags ords o 0 (ss_media offer)) (Datatypes.S k)). unfold u16_max in NP. lia.
Qed.
Print Assumptions C149_ports.

(** C149: an offer of more than twenty streams is refused; otherwise there is an
    answer, unless the ports run out *)
Theorem C149_total : forall ords offer o, any_order ords ->
  (generate_answer ords offer o = Ret None <-> (20 < List.length (ss_media offer))%nat)
  /\ (ao_port o + 2 * N.of_nat (List.length (ss_media offer)) <= 65535 -> generate_answer ords offer o <> Panics).
Proof.
  intros ords offer o O. unfold generate_answer, llen. split.
  - destruct (20 <? N.of_nat (List.length (ss_media offer))) eqn:E; [split; [lia|reflexivity]|]. split; [|lia]. destruct (answer_loop _ _ _ _ _); discriminate.
  - intros P. destruct (20 <? _); [discriminate|]. destruct (answer_loop ords o 0 (ao_port o) (ss_media offer)) eqn:E; [discriminate|]. apply loop_panics in E as (E & _). unfold u16_max in E.
    assert (X : trues (flags ords o 0 (ss_media offer)) <= N.of_nat (List.length (ss_media offer))).
    { rewrite <- (flags_len ords o (ss_media offer) 0). unfold trues. generalize (flags ords o 0 (ss_media offer)). intros l. induction l as [|[] l IH]; cbn [filter List.length]; lia. } lia.
Qed.
Print Assumptions C149_total.

(** C149: the answer carries the name and the times of the offer, and the other
    side reads it as it was made, when the options are words and no stream gets
    more than a hundred attributes *)
Lemma in_or_cases : forall A (a : A) x l, In a (x :: l) -> a = x \/ In a l.
Proof. intros A a x l [H|H]; [now left|now right]. Qed.
Lemma pre_sound : forall o m a, In a (preconditions o m) -> sound_attr a.
Proof.
  intros o m a H. unfold preconditions in H. apply in_app_or in H as [H|H]; [|apply in_app_or in H as [H|H]]; apply in_map_iff in H as (c & <- & Hc); apply filter_In in Hc as (_ & Q); apply str_eqb_spec in Q; (apply attr_of; [known|known|]); apply text_iff.
  - unfold answer_curr. rewrite Q. destruct (cu_status c), (ao_local o) as [[]|], (ao_remote o) as [[]|], (cu_dir c); vm_compute; reflexivity.
  - unfold answer_des. rewrite Q. destruct (de_status c), (de_strength c), (ao_upgrade o), (de_dir c); vm_compute; reflexivity.
  - unfold answer_conf. rewrite Q. destruct (cu_status c), (cu_dir c); vm_compute; reflexivity.
Qed.
Lemma rtp_text_ok : forall r, sound_rtp r -> text_ok 4096 (rtp_text r).
Proof.
  intros r (A & (B1 & B2) & _ & D & E). unfold rtp_text.
  assert (P : blen (print_N (rt_pt r)) <= 3) by (apply (print_N_blen _ 3); change (10 ^ N.of_nat 3) with 1000; lia).
  assert (Q : blen (print_N (rt_rate r)) <= 10) by (apply (print_N_blen _ 10); change (10 ^ N.of_nat 10) with 10000000000; lia).
  split.
  - rewrite blen_app. change (32 :: rt_name r ++ 47 :: print_N (rt_rate r) ++ match rt_params r with Some p => 47 :: p | None => [] end) with ([32] ++ rt_name r ++ [47] ++ print_N (rt_rate r) ++ match rt_params r with Some p => [47] ++ p | None => [] end).
    rewrite !blen_app. change (blen [32]) with 1. change (blen [47]) with 1. destruct (rt_params r) as [p|]; [destruct E as ((E & _) & _); rewrite blen_app; change (blen [47]) with 1; lia|]. change (blen []) with 0. lia.
  - intros c H K. apply in_app_or in H as [H|H]; [now apply (plain_digits (rt_pt r))|]. destruct H as [<-|H]; [discriminate|]. apply in_app_or in H as [H|H]; [now apply B2|]. destruct H as [<-|H]; [discriminate|]. apply in_app_or in H as [H|H]; [now apply (plain_digits (rt_rate r))|].
    destruct (rt_params r) as [p|]; [|destruct H]. destruct H as [<-|H]; [discriminate|]. destruct E as ((_ & E) & _). now apply E.
Qed.
Lemma codec_len : forall m com, (List.length com <= List.length (codec_attrs m com))%nat.
Proof. intros m. induction com as [|p com IH]; [cbn; lia|]. unfold codec_attrs in *. cbn [flat_map List.length app]. apply le_n_S. eapply Nat.le_trans; [exact IH|]. rewrite app_length. apply Nat.le_add_l. Qed.
Lemma accept_sound : forall o m port com, sound_media m -> port <= 65535 -> com <> [] -> (forall p, In p com -> sound_rtp (snd p) /\ key (snd p) = fst p) ->
  (one_if (md_mid m) + one_if (md_rtcp m) + cap_lines (md_caps m) + List.length (md_attrs (accept o m port com)) <= 100)%nat -> sound_media (accept o m port com).
Proof.
  intros o m port com S P NE H L. destruct S as (S1 & S2 & S3 & S4 & S5 & S6 & S7 & S8 & S9 & S10 & S11 & S12 & S13 & S14 & S15 & S16 & S17 & S18).
  unfold sound_media. unfold accept in *. cbn [md_type md_port md_count md_proto md_fmt md_title md_conn md_bw md_key md_attrs md_mid md_rtcp md_caps] in *.
  split; [exact S1|]. split; [exact P|]. split; [apply opt_none|]. split; [exact S4|]. split; [intros E; apply map_eq_nil in E; contradiction|]. split.
  { unfold at_most. rewrite map_length. rewrite app_length in L. pose proof (codec_len m com). lia. }
  split.
  { apply Forall_forall. intros f Hf. apply in_map_iff in Hf as (p & <- & Hp). destruct (H p Hp) as ((A & _) & <-). unfold key. destruct (digits_like (rt_pt (snd p))) as (D1 & D2). split; [exact D1|]. split; [exact D2|]. split; [|apply plain_digits].
    assert (X : blen (print_N (rt_pt (snd p))) <= 3) by (apply (print_N_blen _ 3); change (10 ^ N.of_nat 3) with 1000; lia). lia. }
  split; [apply opt_none|]. split; [apply opt_none|]. split; [unfold at_most; cbn; lia|]. split; [constructor|]. split; [apply opt_none|]. split; [|split; [|split; [exact S15|split; [exact S16|split; [exact S17|exact L]]]]].
  - apply Forall_forall. intros a Ha. apply in_app_or in Ha as [Ha|Ha]; [|apply in_or_cases in Ha as [->|Ha]].
    + apply codec_valued in Ha as [(p & Hp & ->)|(p & v & Hp & F & ->)].
      * apply attr_of; [known|known|]. apply rtp_text_ok. apply (H p Hp).
      * apply fmtp_first in F as (a1 & b1 & q & E & _). rewrite Forall_forall in S13. apply (S13 (lit "fmtp", Some v)). rewrite E. apply in_or_app. right. now left.
    + split; [|split; [|apply opt_none]]; cbn [fst]; destruct (match ao_override o with Some d => d | None => mirror (media_dir m) end); known.
    + now apply (pre_sound o m).
  - intros a Ha K. apply in_app_or in Ha as [Ha|Ha]; [|apply in_or_cases in Ha as [->|Ha]].
    + apply codec_valued in Ha as [(p & Hp & ->)|(p & v & Hp & F & ->)]; cbn [fst] in K; cbn in K; repeat destruct K as [K|K]; try discriminate K; contradiction.
    + cbn [fst] in K. apply (dir_names (match ao_override o with Some d => d | None => mirror (media_dir m) end)). do 5 right. exact K.
    + apply pre_names in Ha as ([N|[N|N]] & _); rewrite N in K; cbn in K; repeat destruct K as [K|K]; try discriminate K; contradiction.
Qed.
Lemma rejected_sound : forall m, sound_media m -> sound_media (rejected m).
Proof.
  intros m S. destruct S as (S1 & S2 & S3 & S4 & S5 & S6 & S7 & S8 & S9 & S10 & S11 & S12 & S13 & S14 & S15 & S16 & S17 & S18). unfold sound_media, rejected. cbn [md_type md_port md_count md_proto md_fmt md_title md_conn md_bw md_key md_attrs md_mid md_rtcp md_caps].
  split; [exact S1|]. split; [lia|]. split; [apply opt_none|]. split; [exact S4|]. split; [exact S5|]. split; [exact S6|]. split; [exact S7|]. split; [apply opt_none|]. split; [apply opt_none|]. split; [unfold at_most; cbn; lia|]. split; [constructor|]. split; [apply opt_none|]. split; [constructor|]. split; [intros a []|]. split; [exact S15|]. split; [apply opt_none|]. split; [exact S17|]. cbn [one_if List.length]. lia.
Qed.
Theorem C149_wire : forall ords offer o a, any_order ords -> keeps_unique ords -> sound_session offer ->
  word_ok 255 (ao_username o) -> word_ok 64 (ao_session o) -> word_ok 255 (ao_address o) -> generate_answer ords offer o = Ret (Some a) ->
  (forall x, In x (ss_media a) -> (one_if (md_mid x) + one_if (md_rtcp x) + cap_lines (md_caps x) + List.length (md_attrs x) <= 100)%nat) ->
  sdp_parse (sdp_print a) = Some a /\ ss_name a = ss_name offer /\ bd_timing (ss_body a) = bd_timing (ss_body offer).
Proof.
  intros ords offer o a O U S W1 W2 W3 H L.
  assert (MS : Forall sound_media (ss_media a)).
  { apply Forall_forall. intros x Hx. apply In_nth_error in Hx as (k & Hk). destruct (answer_spec _ _ _ _ O U H) as (LP & LE & SP).
    destruct (nth_error (ss_media offer) k) as [m|] eqn:Hm; [|apply nth_error_None in Hm; assert (k < List.length (ss_media a))%nat by (apply nth_error_Some; congruence); lia].
    assert (SM : sound_media m) by (destruct S as (_ & _ & _ & _ & _ & _ & _ & _ & _ & _ & _ & _ & _ & _ & _ & _ & _ & _ & _ & _ & _ & _ & _ & _ & _ & _ & S & _); rewrite Forall_forall in S; apply S; now apply nth_error_In in Hm).
    destruct (SP k m Hm) as (y & Y & [(T & cs & C & E)|(T & E)]); rewrite Hk in Y; injection Y as <-.
    - assert (P : ao_port o + 2 * trues (firstn k (flags ords o 0 (ss_media offer))) <= 65535).
      { assert (NP : answer_loop ords o 0 (ao_port o) (ss_media offer) <> Panics) by (rewrite LP; discriminate). rewrite loop_panics in NP.
        assert (N1 : nth_error (flags ords o 0 (ss_media offer)) k = Some true) by (rewrite (flags_nth ords o _ 0 k m Hm); f_equal; now apply (flag_taken ords o k m O)).
        pose proof (trues_step _ _ N1). pose proof (trues_all (flags ords o 0 (ss_media offer)) (Datatypes.S k)). unfold u16_max in NP. lia. }
      specialize (L x (nth_error_In _ _ Hk)). rewrite E in *. apply accept_sound; [exact SM|exact P| |intros (f, r) Hr; cbn [fst snd]; apply (chosen_iff ords k o m cs O C) in Hr as (Hr & _); now apply (offers_sound m)|exact L].
      destruct T as (_ & f & r & T). apply (chosen_iff ords k o m cs O C) in T. intros E0. rewrite E0 in T. destruct T.
    - rewrite E. now apply rejected_sound. }
  assert (LE : (List.length (ss_media a) <= 50)%nat).
  { destruct (answer_spec _ _ _ _ O U H) as (_ & -> & _). unfold generate_answer in H. destruct (20 <? llen (ss_media offer)) eqn:E; [discriminate|]. unfold llen in E. lia. }
  unfold generate_answer in H. destruct (20 <? llen (ss_media offer)); [discriminate|]. destruct (answer_loop ords o 0 (ao_port o) (ss_media offer)) as [ms|]; [|discriminate]. injection H as <-. cbn [ss_media] in *. split; [|split; reflexivity]. apply C148_roundtrip; [|unfold at_most; cbn; lia].
  destruct S as (_ & _ & S1 & _ & _ & _ & _ & _ & _ & _ & _ & _ & S2 & S3 & S4 & _).
  unfold sound_session. cbn [ss_version ss_origin ss_name ss_body ss_groups ss_caps ss_media bd_info bd_uri bd_emails bd_phones bd_conn bd_bw bd_timing bd_repeats bd_zones bd_key bd_attrs].
  assert (KN : forall w, word_ok 16 w -> word_ok 16 w) by trivial.
  assert (WI : word_ok 16 (lit "IN")) by (split; [discriminate|split; [intros c K; cbn in K; repeat destruct K as [<-|K]; try reflexivity; destruct K|known]]).
  assert (W4 : word_ok 16 (lit "IP4")) by (split; [discriminate|split; [intros c K; cbn in K; repeat destruct K as [<-|K]; try reflexivity; destruct K|known]]).
  assert (W0 : word_ok 64 (lit "0")) by (split; [discriminate|split; [intros c K; cbn in K; repeat destruct K as [<-|K]; try reflexivity; destruct K|known]]).
  split; [unfold u32_max; lia|]. split; [split; [exact W1|]; split; [exact W2|]; split; [exact W0|]; split; [exact WI|]; split; [exact W4|exact W3]|]. split; [exact S1|]. split; [apply opt_none|]. split; [apply opt_none|]. split; [unfold at_most; cbn; lia|]. split; [constructor|]. split; [unfold at_most; cbn; lia|]. split; [constructor|].
  split; [apply opt_some; split; [exact WI|]; split; [exact W4|exact W3]|]. split; [unfold at_most; cbn; lia|]. split; [constructor|]. split; [exact S2|]. split; [exact S3|]. split; [exact S4|]. split; [unfold at_most; cbn; lia|]. split; [constructor|]. split; [constructor|]. split; [apply opt_none|]. split; [constructor|]. split; [intros a []|]. split; [unfold at_most; cbn; lia|]. split; [constructor|]. split; [apply opt_none|]. split; [cbn; lia|]. split; [exact LE|]. split; [exact MS|]. left. discriminate.
Qed.
Print Assumptions C149_wire.

(** ** The offer of an audio stream with two codecs, and of a text stream *)
Definition audio_lines : list str := [lit "rtpmap:101 telephone-event/8000"; lit "fmtp:101 0-15"; lit "sendonly"].
Definition attr_line (t : str) : attribute := match split_once 58 t with Some (n, v) => (n, Some v) | None => (t, None) end.
Definition stream (kind : str) (port : N) (fmt : list str) (attrs : list str) : media := mkMedia kind port None (lit "RTP/AVP") fmt None None [] None (map attr_line attrs) None None None.
Definition offer_of (attrs : list str) (ms : list media) : session :=
  mkSession 0 (mkOrigin (lit "-") (lit "1") (lit "1") (lit "IN") (lit "IP4") (lit "h")) (lit "-")
    (mkBody None None [] [] (Some (mkConn (lit "IN") (lit "IP4") (lit "h"))) [] [(0, 0)] [] [] None (map attr_line attrs)) [] None ms.
Definition offer1 : session := offer_of [] [stream (lit "audio") 5000 [lit "0"; lit "101"; lit "7"] audio_lines; stream (lit "text") 5002 [lit "9"] []].
Definition as_is : nat -> order := fun _ l => l.
Lemma as_is_any : any_order as_is.
Proof. intros k l _ p. reflexivity. Qed.
Lemma as_is_unique : keeps_unique as_is.
Proof. intros k l H. exact H. Qed.
Definition backwards : nat -> order := fun _ l => rev l.
Lemma backwards_any : any_order backwards.
Proof. intros k l _ p. symmetry. apply in_rev. Qed.
Lemma backwards_unique : keeps_unique backwards.
Proof. intros k l H. unfold backwards. rewrite map_rev. now apply NoDup_rev. Qed.
Example C149_hypotheses_met :
  any_order as_is /\ keeps_unique as_is
  /\ exists a, generate_answer as_is offer1 default_options = Ret (Some a)
     /\ map md_port (ss_media a) = [50000; 0] /\ map md_fmt (ss_media a) = [[lit "101"; lit "0"]; [lit "9"]] /\ map media_dir (ss_media a) = [RecvOnly; SendRecv]
     /\ sdp_parse (sdp_print a) = Some a.
Proof. split; [exact as_is_any|]. split; [exact as_is_unique|]. eexists. split; [vm_compute; reflexivity|]. split; [reflexivity|]. split; [reflexivity|]. split; [reflexivity|]. vm_compute. reflexivity. Qed.

(** C149, refuted: the answer keeps neither the order of preference of the
    offer nor any other: two runs may put the codecs in different orders *)
Theorem C149_preference_refuted : exists a b,
  generate_answer as_is offer1 default_options = Ret (Some a) /\ generate_answer backwards offer1 default_options = Ret (Some b)
  /\ map md_fmt (ss_media a) = [[lit "101"; lit "0"]; [lit "9"]] /\ map md_fmt (ss_media b) = [[lit "0"; lit "101"]; [lit "9"]].
Proof. do 2 eexists. split; [vm_compute; reflexivity|]. split; [vm_compute; reflexivity|]. now split. Qed.
Print Assumptions C149_preference_refuted.

(** C149, refuted: a format that the offer does not list, but describes, is
    answered *)
Theorem C149_listed_refuted : exists offer a m x,
  generate_answer as_is offer default_options = Ret (Some a) /\ ss_media offer = [m] /\ ss_media a = [x] /\ In (lit "101") (md_fmt x) /\ ~ In (lit "101") (md_fmt m).
Proof.
  exists (offer_of [] [stream (lit "audio") 5000 [lit "0"] audio_lines]). do 3 eexists. split; [vm_compute; reflexivity|]. split; [reflexivity|]. split; [reflexivity|]. split; [now left|]. intros K. cbn in K. destruct K as [K|[]]; discriminate.
Qed.
Print Assumptions C149_listed_refuted.

(** C149, refuted: a stream offered with port 0, which RFC 3264 section 6 wants
    answered with port 0, is answered with a port *)
Theorem C149_disabled_refuted : exists offer a m x,
  generate_answer as_is offer default_options = Ret (Some a) /\ ss_media offer = [m] /\ ss_media a = [x] /\ md_port m = 0 /\ md_port x = 50000.
Proof. exists (offer_of [] [stream (lit "audio") 0 [lit "0"] []]). do 3 eexists. split; [vm_compute; reflexivity|]. now repeat split. Qed.
Print Assumptions C149_disabled_refuted.

(** C149, refuted: a direction for the whole session does not count: an offer
    that wants no media at all is answered with media both ways *)
Theorem C149_session_direction_refuted : exists offer a x,
  generate_answer as_is offer default_options = Ret (Some a) /\ bd_attrs (ss_body offer) = [(lit "inactive", None)] /\ ss_media a = [x] /\ media_dir x = SendRecv.
Proof. exists (offer_of [lit "inactive"] [stream (lit "audio") 5000 [lit "0"] []]). do 2 eexists. split; [vm_compute; reflexivity|]. now repeat split. Qed.
Print Assumptions C149_session_direction_refuted.

(** C149, refuted: the setters accept a base port whose successors do not exist,
    although one stream fits: the addition overflows *)
Definition with_port (p : N) (o : answer_options) : answer_options :=
  mkOpts (ao_address o) p (ao_audio o) (ao_video o) (ao_override o) (ao_reject o) (ao_username o) (ao_session o) (ao_local o) (ao_remote o) (ao_upgrade o).
Theorem C149_port_refuted : options_ok (with_port 65534 default_options) = true /\ generate_answer as_is offer1 (with_port 65534 default_options) = Panics.
Proof. split; vm_compute; reflexivity. Qed.
Print Assumptions C149_port_refuted.

(** C149, refuted: an IPv6 address is announced as IP4, and a user name with a
    blank, which the setters accept, makes an answer that cannot be read *)
Definition with_names (addr user : str) (o : answer_options) : answer_options :=
  mkOpts addr (ao_port o) (ao_audio o) (ao_video o) (ao_override o) (ao_reject o) user (ao_session o) (ao_local o) (ao_remote o) (ao_upgrade o).
Theorem C149_wire_refuted :
  (exists a, generate_answer as_is offer1 (with_names (lit "2001:db8::1") (lit "-") default_options) = Ret (Some a) /\ og_type (ss_origin a) = lit "IP4" /\ og_addr (ss_origin a) = lit "2001:db8::1")
  /\ options_ok (with_names (lit "10.0.0.1") (lit "a b") default_options) = true
  /\ exists a, generate_answer as_is offer1 (with_names (lit "10.0.0.1") (lit "a b") default_options) = Ret (Some a) /\ sdp_parse (sdp_print a) = None.
Proof. split; [eexists; split; [vm_compute; reflexivity|]; now split|]. split; [vm_compute; reflexivity|]. eexists. split; [vm_compute; reflexivity|]. vm_compute. reflexivity. Qed.
Print Assumptions C149_wire_refuted.
