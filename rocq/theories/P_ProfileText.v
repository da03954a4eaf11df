(** Offers from the built-in profiles (C188), and answers from a profile as text (C187). *)
From Coq Require Import Arith NArith Bool String List Lia ZifyBool ZifyN ZifyNat.
Import ListNotations.
From Verif Require Import Base BaseFacts Text Msg Sdp SdpText Profile ProfileSpec P_Profile.
Open Scope N_scope.
Open Scope list_scope.

(** ** C187, as text *)
(** an offer that comes as this text is a panic *)
Definition bad_rate : str := lit "v=0" ++ crlf ++ lit "o=- 1 1 IN IP4 10.0.0.2" ++ crlf ++ lit "s=-" ++ crlf ++ lit "c=IN IP4 10.0.0.2" ++ crlf ++ lit "t=0 0" ++ crlf ++ lit "m=audio 4000 RTP/AVP 0" ++ crlf ++ lit "a=rtpmap:0 PCMU/1" ++ crlf.
Theorem C187_wire_refuted : exists offer, parse_sdp bad_rate = Ok offer /\ forall id user addr ap vp, profile_answer offer audio_only id user addr ap vp = Panics.
Proof.
  eexists. split; [vm_compute; reflexivity|]. intros id user addr ap vp. unfold profile_answer. match goal with |- build ?p _ _ _ _ _ = _ => assert (E : exists q, p = q /\ forall x, audio_section q x = None) by (eexists; split; [vm_compute; reflexivity|reflexivity]) end. destruct E as (q & -> & E). unfold build. rewrite E. now destruct (origin_new user id addr), (connection_new addr).
Qed.
Print Assumptions C187_wire_refuted.
(** the user agent passes its product name as the user: with a blank in it the answer
    cannot be read *)
Theorem C187_name_refuted : exists s, profile_answer (offer_of [offered MAudio [lit "0"] [pcmu] []]) audio_only (lit "7") (lit "Acme Voice Bridge/2.1") (lit "10.0.0.1") 5000 None = Ret s /\ parse_sdp (serialize s) = Err EFailed.
Proof. eexists. split; [vm_compute; reflexivity|]. vm_compute. reflexivity. Qed.
Print Assumptions C187_name_refuted.

(** ** C188 *)
(** an offer from a built-in profile names the given address and lists the two audio
    codecs and telephone events, and for video H264 and VP8 on the given port or the
    second port behind the audio port; texts that are not fields and, for video, an audio
    port above 65533 are a panic, and nothing else is *)
Definition codecs_are (m : media) (l : list codec) : Prop :=
  md_formats m = map (fun c => print_N (c_pt c)) l /\ forall pt x, lookup N.eqb pt (md_maps m) = Some x <-> In (mkCodec pt (rm_name x) (rm_rate x)) l /\ rm_pt x = pt /\ rm_params x = None.
Definition audio_codecs : list codec := [mkCodec 0 (lit "PCMU") 8000; mkCodec 8 (lit "PCMA") 8000; mkCodec 101 (lit "telephone-event") 8000].
Definition video_codecs : list codec := [mkCodec 96 (lit "H264") 90000; mkCodec 97 (lit "VP8") 90000].
Definition video_port (ap : N) (vp : option N) : N := match vp with Some v => v | None => ap + 2 end.
(** the values of the attributes of that name, in order *)
Definition values (n : str) (m : media) : list str := flat_map (fun a => match a with AVal k v => if str_eqb k n then [v] else [] | AProp _ => [] end) (md_attrs m).
Definition feedback : list str := [lit "96 nack"; lit "96 nack pli"; lit "97 nack"; lit "97 nack pli"].
Lemma valid_iff : forall mx s, valid_field s mx = true <-> field mx s.
Proof.
  intros mx s. split; [|apply field_ok]. unfold valid_field. intros H. apply andb_true_iff in H as (H & H3). apply andb_true_iff in H as (H1 & H2). split; [intros ->; discriminate|]. split; [lia|]. intros c C. apply negb_true_iff in H3. destruct (is_control c) eqn:K; [|reflexivity]. assert (X : existsb is_control s = true) by (apply existsb_exists; now exists c). congruence.
Qed.
Lemma map_eta : forall x pt n r, x = mkRtpMap pt n r None <-> rm_name x = n /\ rm_rate x = r /\ rm_pt x = pt /\ rm_params x = None.
Proof. intros [a b c d] pt n r. cbn. split; [intros E; injection E as -> -> -> ->; now repeat split|intros (-> & -> & -> & ->); reflexivity]. Qed.
Lemma codecs_std : forall (m : media) l, NoDup (map c_pt l) -> md_formats m = map (fun c => print_N (c_pt c)) l ->
  (forall pt, lookup N.eqb pt (md_maps m) = option_map (fun c => mkRtpMap (c_pt c) (c_name c) (c_rate c) None) (find (fun c => c_pt c =? pt) l)) -> codecs_are m l.
Proof.
  intros m l ND F L. split; [exact F|]. intros pt x. rewrite L. split.
  - destruct (find _ l) as [c|] eqn:E; [|discriminate]. cbn [option_map]. intros H. injection H as <-. apply find_some in E as (E & P). apply N.eqb_eq in P. subst pt. cbn [rm_name rm_rate rm_pt rm_params]. refine (conj _ (conj eq_refl eq_refl)). now destruct c.
  - intros (I & P & Q). assert (E : find (fun c => c_pt c =? pt) l = Some (mkCodec pt (rm_name x) (rm_rate x))).
    { clear F L. induction l as [|c l IH]; [destruct I|]. cbn [map] in ND. inversion ND as [|? ? N1 N2]; subst. cbn [find]. destruct I as [->|I]; [cbn [c_pt]; now rewrite N.eqb_refl|]. destruct (c_pt c =? rm_pt x) eqn:K; [|now apply IH]. exfalso. apply N1. apply N.eqb_eq in K. rewrite K. apply in_map_iff. exists (mkCodec (rm_pt x) (rm_name x) (rm_rate x)). now split. }
    rewrite E. cbn [option_map c_pt c_name c_rate]. f_equal. symmetry. now apply map_eta.
Qed.
Lemma audio_std : forall p, exists m, std_audio p = Some m /\ md_type m = MAudio /\ md_port m = p /\ codecs_are m audio_codecs /\ extract_direction (md_attrs m) = Some DSendRecv /\ values (lit "fmtp") m = [lit "101 0-16"] /\ values (lit "rtcp-fb") m = [].
Proof.
  intros p. eexists. split; [vm_compute; reflexivity|]. split; [reflexivity|]. split; [reflexivity|]. split; [|split; [|split]; vm_compute; reflexivity]. apply codecs_std; [repeat constructor; cbn; intuition discriminate|reflexivity|]. intros pt. cbn [md_maps]. unfold audio_codecs. cbn [find c_pt].
  rewrite (N.eqb_sym 0 pt), (N.eqb_sym 8 pt), (N.eqb_sym 101 pt). cbn [lookup insert remove_key]. cbn.
  destruct (N.eqb_spec pt 0) as [->|]; [reflexivity|]. destruct (N.eqb_spec pt 8) as [->|]; [reflexivity|]. destruct (N.eqb_spec pt 101) as [->|]; reflexivity.
Qed.
Lemma video_std : forall p, exists m, std_video p = Some m /\ md_type m = MVideo /\ md_port m = p /\ codecs_are m video_codecs /\ extract_direction (md_attrs m) = Some DSendRecv /\ values (lit "fmtp") m = [] /\ values (lit "rtcp-fb") m = feedback.
Proof.
  intros p. eexists. split; [vm_compute; reflexivity|]. split; [reflexivity|]. split; [reflexivity|]. split; [|split; [|split]; vm_compute; reflexivity]. apply codecs_std; [repeat constructor; cbn; intuition discriminate|reflexivity|]. intros pt. cbn [md_maps]. unfold video_codecs. cbn [find c_pt].
  rewrite (N.eqb_sym 96 pt), (N.eqb_sym 97 pt). cbn.
  destruct (N.eqb_spec pt 96) as [->|]; [reflexivity|]. destruct (N.eqb_spec pt 97) as [->|]; reflexivity.
Qed.
Definition offers (m : media) (t : media_type) (port : N) (l : list codec) (params fb : list str) : Prop :=
  md_type m = t /\ md_port m = port /\ codecs_are m l /\ extract_direction (md_attrs m) = Some DSendRecv /\ values (lit "fmtp") m = params /\ values (lit "rtcp-fb") m = fb.
Theorem C188_created : forall p id user addr ap vp s, create p id user addr ap vp = Ret s ->
  og_user (sd_origin s) = user /\ og_id (sd_origin s) = id /\ og_addr (sd_origin s) = addr /\ (exists c, sd_conn s = Some c /\ cx_addr c = addr)
  /\ sd_name s = match p with AudioVideo => lit "Audio/Video Conference" | _ => lit "VoIP Audio Call" end
  /\ match p with
     | AudioVideo => exists a v, sd_media s = [a; v] /\ offers a MAudio ap audio_codecs [lit "101 0-16"] [] /\ offers v MVideo (video_port ap vp) video_codecs [] feedback
     | _ => exists a, sd_media s = [a] /\ offers a MAudio ap audio_codecs [lit "101 0-16"] []
     end.
Proof.
  intros p id user addr ap vp s H. unfold create in H. cbv zeta in H. destruct (audio_std ap) as (a & Ea & A). destruct (video_std (video_port ap vp)) as (v & Ev & V). unfold video_port in Ev. rewrite Ea in H. rewrite Ev in H. clear Ea Ev.
  destruct (origin_new user id addr) as [o|] eqn:O; [|destruct p; [discriminate H|destruct (u16_max <? _); discriminate H|discriminate H]]. destruct (connection_new addr) as [c|] eqn:C; [|destruct p; [discriminate H|destruct (u16_max <? _); discriminate H|discriminate H]].
  assert (Oa : og_user o = user /\ og_id o = id /\ og_addr o = addr) by (unfold origin_new in O; destruct (valid_field user _ && _ && _); [|discriminate]; injection O as <-; now repeat split). assert (Ca : cx_addr c = addr) by (unfold connection_new in C; destruct (valid_field addr _); [|discriminate]; injection C as <-; reflexivity). destruct Oa as (O1 & O2 & O3).
  destruct p; [|destruct (u16_max <? _); [discriminate H|]|]; injection H as <-; cbn [named_session sd_origin sd_conn sd_media]; refine (conj O1 (conj O2 (conj O3 (conj (ex_intro _ c (conj eq_refl Ca)) (conj eq_refl _))))).
  - exists a. exact (conj eq_refl A).
  - exists a, v. exact (conj eq_refl (conj A V)).
  - exists a. exact (conj eq_refl A).
Qed.
Print Assumptions C188_created.
Theorem C188_panics : forall p id user addr ap vp,
  create p id user addr ap vp = Panics <-> ~ (field 256 user /\ field 256 id /\ field 256 addr) \/ (p = AudioVideo /\ 65535 < ap + 2).
Proof.
  intros p id user addr ap vp. unfold create. cbv zeta. destruct (audio_std ap) as (a & Ea & _). destruct (video_std (video_port ap vp)) as (v & Ev & _). fold (video_port ap vp). rewrite Ea, Ev. clear Ea Ev. unfold origin_new, connection_new, MAX_USERNAME_LENGTH, MAX_SESSION_ID_LENGTH, MAX_ADDRESS_LENGTH. rewrite <- !valid_iff.
  destruct (valid_field user 256), (valid_field id 256), (valid_field addr 256); cbn [andb]; destruct p; try (unfold u16_max; destruct (65535 <? ap + 2) eqn:W); split; intros H; try discriminate H; try reflexivity; try (left; intuition discriminate); try (right; split; [reflexivity|lia]); try (destruct H as [H|(_ & H)]; [elim H; now repeat split|first [discriminate|lia]]); (destruct H as [H|(K & _)]; [elim H; now repeat split|discriminate K]).
Qed.
Print Assumptions C188_panics.
Example C188_example : exists s, create AudioVideo (lit "7") (lit "alice") (lit "192.168.1.100") 8000 None = Ret s /\ map md_port (sd_media s) = [8000; 8002] /\ parse_sdp (serialize s) = Ok s.
Proof. eexists. split; [vm_compute; reflexivity|]. split; [reflexivity|]. vm_compute. reflexivity. Qed.
(** ... so a high audio port is one, even when a video port is given *)
Theorem C188_port_refuted : create AudioVideo (lit "7") (lit "alice") (lit "10.0.0.1") 65534 (Some 4000) = Panics.
Proof. apply C188_panics. right. split; [reflexivity|]. cbn. lia. Qed.
Print Assumptions C188_port_refuted.
Example C187_port_example : exists offer, video_shared offer audio_video /\ profile_answer offer audio_video (lit "7") (lit "u") (lit "10.0.0.1") 65534 (Some 4000) = Panics.
Proof.
  exists (offer_of [offered MAudio [lit "0"] [pcmu] []; offered MVideo [lit "96"] [] []]). assert (V : video_shared (offer_of [offered MAudio [lit "0"] [pcmu] []; offered MVideo [lit "96"] [] []]) audio_video) by (apply shared_has; vm_compute; reflexivity).
  split; [exact V|]. apply (C187_port _ _ _ _ _ _ _ V). lia.
Qed.
