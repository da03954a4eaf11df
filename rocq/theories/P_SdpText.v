(** Reading and writing session descriptions: C108, C109. *)
From Coq Require Import Arith NArith Bool String List Lia ZifyBool ZifyN ZifyNat.
Import ListNotations.
From Verif Require Import Base BaseFacts Text NumFacts Sdp SdpText SdpTextSpec SdpTextProofs P_Sdp.
Open Scope N_scope.
Open Scope list_scope.

(** ** C108: a description survives being written and read *)
Theorem C108_written : forall lim s, good_sdp lim s -> within lim (serialize s) = true -> parse_with lim (serialize s) = Ok s.
Proof. exact reads_back. Qed.
Print Assumptions C108_written.
(** what was read is well formed, so it can be written and read again, without change *)
Theorem C108_read : forall lim t s, parse_with lim t = Ok s ->
  good_sdp lim s /\ (within lim (serialize s) = true -> parse_with lim (serialize s) = Ok s).
Proof. intros lim t s H. apply read_good in H. split; [exact H|]. now apply reads_back. Qed.
Print Assumptions C108_read.
(** different descriptions have different texts *)
Theorem C108_distinct : forall lim s1 s2, good_sdp lim s1 -> good_sdp lim s2 -> within lim (serialize s1) = true -> serialize s1 = serialize s2 -> s1 = s2.
Proof.
  intros lim s1 s2 G1 G2 W E. pose proof (reads_back lim s1 G1 W) as R1. rewrite E in *. rewrite (reads_back lim s2 G2 W) in R1. now inversion R1.
Qed.
Print Assumptions C108_distinct.
(** a description without times, or media without formats, is written with a time and
    a format that mean "always" and nothing in particular *)
Definition filled_media (m : media) : media :=
  match md_formats m with
  | [] => mkMedia (md_type m) (md_port m) (md_ports m) (md_proto m) [lit "0"] (md_title m) (md_conn m) (md_bw m) (md_key m) (md_attrs m) (md_maps m)
  | _ => m
  end.
Definition filled (s : sdp) : sdp :=
  mkSdp (sd_version s) (sd_origin s) (sd_name s) (sd_info s) (sd_uri s) (sd_email s) (sd_phone s) (sd_conn s) (sd_bw s)
    (match sd_times s with [] => [mkTime 0 0 []] | l => l end) (sd_zones s) (sd_key s) (sd_attrs s) (map filled_media (sd_media s)).
Theorem C108_filled : forall lim s, good_sdp lim (filled s) -> within lim (serialize s) = true -> parse_with lim (serialize s) = Ok (filled s).
Proof.
  intros lim s G W. assert (E : serialize s = serialize (filled s)); [|rewrite E in *; now apply reads_back].
  assert (M : forall m, media_text m = media_text (filled_media m)) by (intros [t p ps pr [|f fs] ti c b k a mp]; reflexivity).
  assert (Ms : forall l, flat_map media_text l = flat_map media_text (map filled_media l)) by (induction l as [|m l IH]; [reflexivity|]; cbn [map flat_map]; now rewrite <- M, IH).
  unfold serialize. cbv zeta. unfold filled. cbn [sd_version sd_origin sd_name sd_info sd_uri sd_email sd_phone sd_conn sd_bw sd_times sd_zones sd_key sd_attrs sd_media]. rewrite Ms. destruct (sd_times s); reflexivity.
Qed.
Print Assumptions C108_filled.
(** the limits are on the bytes, on the lines that are not empty and on their length *)
Theorem C108_limits : forall lim t,
  let ls := filter (fun x => negb (is_nil x)) (str_lines t) in
  (blen t <= max_bytes lim /\ llen ls <= max_lines lim /\ (forall x, In x ls -> blen x <= max_line_length lim)) <-> within lim t = true.
Proof.
  intros lim t ls. unfold within. fold ls. cbv zeta. rewrite !andb_true_iff, !N.leb_le, forallb_forall. split.
  - intros (A & B & C). repeat split; try assumption. intros x Hx. apply N.leb_le. now apply C.
  - intros ((A & B) & C). repeat split; try assumption. intros x Hx. apply N.leb_le. now apply C.
Qed.
Print Assumptions C108_limits.
Theorem C108_over : forall lim t, within lim t = false -> parse_with lim t = Err ELimit.
Proof. intros lim t H. unfold parse_with. now rewrite H. Qed.
Print Assumptions C108_over.
(** of the maps of one payload type the last is kept, and nothing else *)
Definition maps_to (a : attribute) (pt : N) (x : rtpmap) : Prop := exists v, a = AVal (lit "rtpmap") v /\ parse_rtpmap v = Some x /\ rm_pt x = pt.
Lemma maps_of_snoc : forall l a, maps_of (l ++ [a]) =
  match a with AVal n v => if str_eqb n (lit "rtpmap") then match parse_rtpmap v with Some x => insert N.eqb (rm_pt x) x (maps_of l) | None => maps_of l end else maps_of l | AProp _ => maps_of l end.
Proof. intros l a. unfold maps_of. rewrite fold_left_app. reflexivity. Qed.
Lemma maps_of_spec : forall l pt x, lookup N.eqb pt (maps_of l) = Some x <-> exists l1 a l2, l = l1 ++ a :: l2 /\ maps_to a pt x /\ forall b y, In b l2 -> ~ maps_to b pt y.
Proof.
  intros l. induction l as [|a l IH] using rev_ind; intros pt x.
  - split; [discriminate|]. intros (l1 & a & l2 & E & _). destruct l1; discriminate.
  - rewrite maps_of_snoc. assert (Keep : (forall y, ~ maps_to a pt y) -> (exists l1 b l2, l ++ [a] = l1 ++ b :: l2 /\ maps_to b pt x /\ forall c y, In c l2 -> ~ maps_to c pt y) <-> (exists l1 b l2, l = l1 ++ b :: l2 /\ maps_to b pt x /\ forall c y, In c l2 -> ~ maps_to c pt y)).
    { intros Na. split.
      - intros (l1 & b & l2 & E & B & Z). destruct l2 as [|c l2] using rev_ind; [apply app_inj_tail in E as [_ ->]; now apply Na in B|]. clear IHl2.
        change (l1 ++ b :: l2 ++ [c]) with (l1 ++ (b :: l2) ++ [c]) in E. rewrite app_assoc in E. apply app_inj_tail in E as [-> ->]. exists l1, b, l2. split; [reflexivity|]. split; [exact B|]. intros d y Hd. apply Z. apply in_or_app. now left.
      - intros (l1 & b & l2 & -> & B & Z). exists l1, b, (l2 ++ [a]). split; [now rewrite <- app_assoc|]. split; [exact B|]. intros c y Hc. apply in_app_or in Hc as [Hc|[<-|[]]]; [now apply Z|apply Na]. }
    destruct a as [n|n v]; [rewrite IH, Keep; [reflexivity|intros y (v & E & _); discriminate]|].
    destruct (str_eqb n (lit "rtpmap")) eqn:En.
    + apply str_eqb_spec in En. subst n. destruct (parse_rtpmap v) as [y|] eqn:Ev; [|rewrite IH, Keep; [reflexivity|intros y (v' & E & E2 & _); injection E as <-; congruence]].
      destruct (N.eq_dec (rm_pt y) pt) as [<-|Np].
      * rewrite (lookup_insert_same N.eqb N.eqb_eq). split.
        -- intros [= <-]. exists l, (AVal (lit "rtpmap") v), []. split; [reflexivity|]. split; [now exists v|]. intros b z [].
        -- intros (l1 & b & l2 & E & B & Z). destruct l2 as [|c l2] using rev_ind; [apply app_inj_tail in E as [_ <-]; destruct B as (v' & E & E2 & _); injection E as <-; congruence|]. clear IHl2.
           change (l1 ++ b :: l2 ++ [c]) with (l1 ++ (b :: l2) ++ [c]) in E. rewrite app_assoc in E. apply app_inj_tail in E as [_ <-]. exfalso. apply (Z (AVal (lit "rtpmap") v) y); [apply in_or_app; right; now left|now exists v].
      * rewrite (lookup_insert_other N.eqb N.eqb_eq) by congruence. rewrite IH, Keep; [reflexivity|]. intros z (v' & E & E2 & E3). injection E as <-. congruence.
    + rewrite IH, Keep; [reflexivity|]. intros y (v' & E & _). injection E as -> _. now rewrite str_eqb_refl in En.
Qed.
Theorem C108_maps : forall lim t s m pt x, parse_with lim t = Ok s -> In m (sd_media s) ->
  lookup N.eqb pt (md_maps m) = Some x <-> exists l1 a l2, md_attrs m = l1 ++ a :: l2 /\ maps_to a pt x /\ forall b y, In b l2 -> ~ maps_to b pt y.
Proof. intros lim t s m pt x H Hm. apply read_good in H. apply H in Hm. destruct Hm as (_ & _ & _ & _ & _ & _ & _ & _ & _ & _ & _ & _ & _ & ->). apply maps_of_spec. Qed.
Print Assumptions C108_maps.
(** a full description meets the hypotheses *)
Definition full : sdp :=
  mkSdp 0 (mkOrigin (lit "-") (lit "42") (lit "7") IP6 (lit "2001:db8::1")) (lit "A talk") (Some (lit "about SDP")) (Some (lit "http://example.com/")) (Some (lit "a@example.com"))
    (Some (lit "+1 617 555")) (Some (mkConnection IP4 (lit "224.2.17.12/127"))) [mkBandwidth (lit "AS") 256]
    [mkTime 3034423619 3042462419 [mkRepeat (lit "7d") (lit "1h") [lit "0"; lit "25h"]]; mkTime 0 0 []] [mkZone (lit "2882844526") (lit "-1h"); mkZone (lit "2898848070") (lit "0")]
    (Some (lit "prompt")) [AProp (lit "recvonly"); AVal (lit "tool") (lit "x: y")]
    [ex_audio 49170 [AVal (lit "fmtp") (lit "96 useinbandfec=1")];
     mkMedia (MOther (lit "image")) 0 (Some 2) (POther (lit "udptl")) [lit "t38"] (Some (lit "fax")) (Some (mkConnection IP4 (lit "192.0.2.7"))) [mkBandwidth (lit "TIAS") 64000] (Some (lit "clear:k")) [] []].
Example C108_case : within default_limits (serialize full) = true /\ parse_sdp (serialize full) = Ok full.
Proof. split; vm_compute; reflexivity. Qed.
Example C108_case_good : good_sdp default_limits full.
Proof. apply (read_good _ (serialize full)). vm_compute. reflexivity. Qed.
(** The limits are on the text, and writing can lengthen it: lines are ended with two
    characters, however they were read *)
Definition small_text : str := lit "v=0" ++ 10 :: lit "o=- 1 1 IN IP4 h" ++ 10 :: lit "s=-" ++ 10 :: lit "t=0 0" ++ [10].
Theorem C108_limit_refuted : exists lim t s, parse_with lim t = Ok s /\ parse_with lim (serialize s) = Err ELimit.
Proof. exists (mkLimits 32 2048 4096 500), small_text. eexists. split; [vm_compute; reflexivity|]. vm_compute. reflexivity. Qed.
Print Assumptions C108_limit_refuted.
(** The constructors accept fields that cannot be written: a user name with a blank *)
Definition with_origin (o : origin) : sdp := mkSdp 0 o (lit "-") None None None None None [] [mkTime 0 0 []] [] None [] [].
Theorem C108_user_refuted : exists o s, origin_new (lit "Alice Smith") (lit "1") (lit "192.0.2.1") = Some o
  /\ s = with_origin o /\ parse_sdp (serialize s) = Err EFailed.
Proof. do 2 eexists. split; [vm_compute; reflexivity|]. split; [reflexivity|]. vm_compute. reflexivity. Qed.
Print Assumptions C108_user_refuted.
(** and encoding parameters with a line end add lines of their own *)
Theorem C108_inject_refuted : exists m s s', 
  add_rtpmap 96 (lit "opus") 48000 (Some (lit "2" ++ crlf ++ lit "a=inactive")) (mkMedia MAudio 9 None PRtpAvp [lit "96"] None None [] None [] []) = Some m
  /\ s = mkSdp 0 (mkOrigin (lit "-") (lit "1") (lit "1") IP4 (lit "h")) (lit "-") None None None None None [] [mkTime 0 0 []] [] None [] [m]
  /\ parse_sdp (serialize s) = Ok s' /\ extract_direction (md_attrs m) = None
  /\ map (fun x => extract_direction (md_attrs x)) (sd_media s') = [Some DInactive].
Proof. do 3 eexists. split; [vm_compute; reflexivity|]. split; [reflexivity|]. split; [vm_compute; reflexivity|]. split; vm_compute; reflexivity. Qed.
Print Assumptions C108_inject_refuted.
(** A bandwidth line without its colon takes the lines after it with it *)
Theorem C108_swallow_refuted : exists t s, 
  t = lit "v=0" ++ crlf ++ lit "o=- 1 1 IN IP4 h" ++ crlf ++ lit "s=-" ++ crlf ++ lit "t=0 0" ++ crlf ++ lit "m=audio 9 RTP/AVP 0" ++ crlf
      ++ lit "b=AS" ++ crlf ++ lit "a=inactive" ++ crlf ++ lit "a=ptime:20" ++ crlf
  /\ parse_sdp t = Ok s /\ map md_attrs (sd_media s) = [[]].
Proof. do 2 eexists. split; [reflexivity|]. split; [vm_compute; reflexivity|]. reflexivity. Qed.
Print Assumptions C108_swallow_refuted.

(** ** C109: protocols outside the built-in list *)
Definition with_media (s : sdp) (l : list media) : sdp :=
  mkSdp (sd_version s) (sd_origin s) (sd_name s) (sd_info s) (sd_uri s) (sd_email s) (sd_phone s) (sd_conn s) (sd_bw s) (sd_times s) (sd_zones s) (sd_key s) (sd_attrs s) l.
(** A protocol that does not begin like a built-in one is read as written *)
Theorem C109_other_partial : forall lim s i m n, good_sdp lim s -> within lim (serialize s) = true -> nth_error (sd_media s) i = Some m -> md_proto m = POther n ->
  exists s' m', parse_with lim (serialize s) = Ok s' /\ nth_error (sd_media s') i = Some m' /\ md_proto m' = POther n.
Proof. intros lim s i m n G W Hm Hp. exists s, m. split; [now apply reads_back|]. now split. Qed.
Print Assumptions C109_other_partial.
(** One that does, and is not built in itself, makes the whole description unreadable *)
Theorem C109_prefix_refuted : forall lim s before m after n, sd_media s = before ++ m :: after ->
  good_sdp lim (with_media s before) -> good_type (md_type m) -> md_port m <= u16_max -> md_ports m = None -> md_formats m <> [] ->
  md_proto m = POther n -> (forall c, In c n -> c <> 32 /\ c <> 9) -> ~ In n known_protocols -> (exists k q, In k known_protocols /\ n = k ++ q) ->
  forall s', parse_with lim (serialize s) <> Ok s'.
Proof.
  intros lim s before m after n Es G Ht Hp Hn Hf En Hc Hk Hq s'.
  assert (S : exists rest, serialize s = texts (lines_of (with_media s before)) ++ media_start (md_type m) (md_port m) n rest).
  { destruct (md_formats m) as [|f fs] eqn:Ef; [congruence|].
    eexists. rewrite <- serialize_lines; [|apply G|intros x Hx; apply G in Hx; apply Hx].
    assert (E : serialize s = serialize (with_media s before) ++ flat_map media_text (m :: after)).
    { unfold serialize. cbv zeta. cbn [with_media sd_version sd_origin sd_name sd_info sd_uri sd_email sd_phone sd_conn sd_bw sd_times sd_zones sd_key sd_attrs sd_media].
      rewrite Es, flat_map_app. repeat rewrite <- app_assoc. reflexivity. }
    rewrite E. f_equal. cbn [flat_map]. unfold media_text at 1, media_start. rewrite Hn, Ef, En. cbn [proto_text app flat_map].
    repeat (rewrite <- ?app_assoc; cbn [app]). reflexivity. }
  destruct S as [rest ->]. apply unreadable; auto.
  - now apply lines_good with lim.
  - destruct Hq as (k & q & K & ->). cbn [In known_protocols] in K. intros E0. apply app_eq_nil in E0. destruct E0 as [-> _]. decompose [or] K; try discriminate; contradiction.
Qed.
Print Assumptions C109_prefix_refuted.
(** registered protocols are among them *)
Example C109_case : forall n, In n [lit "RTP/AVPF"; lit "UDP/DTLS/SCTP"; lit "UDP/TLS/RTP/SAVP"; lit "TCP/MSRP"; lit "TCP/RTP/AVP"; lit "UDP/BFCP"] ->
  ~ In n known_protocols /\ (exists k q, In k known_protocols /\ n = k ++ q)
  /\ forall s, parse_sdp (serialize (ex_sdp [mkMedia MAudio 9 None (POther n) [lit "0"] None None [] None [] []])) <> Ok s.
Proof.
  intros n H. cbn [In] in H. 
  assert (K : exists k q, In k known_protocols /\ n = k ++ q).
  { decompose [or] H; subst; try contradiction;
    [exists (lit "RTP/AVP"), (lit "F") | exists (lit "UDP"), (lit "/DTLS/SCTP") | exists (lit "UDP"), (lit "/TLS/RTP/SAVP") | exists (lit "TCP"), (lit "/MSRP") | exists (lit "TCP"), (lit "/RTP/AVP") | exists (lit "UDP"), (lit "/BFCP")];
    (split; [cbn; tauto|reflexivity]). }
  assert (Q : ~ In n known_protocols) by (decompose [or] H; subst; try contradiction; vm_compute; intuition discriminate).
  split; [exact Q|]. split; [exact K|]. intros s. apply (C109_prefix_refuted default_limits _ [] (mkMedia MAudio 9 None (POther n) [lit "0"] None None [] None [] []) [] n); auto; try reflexivity; try discriminate.
  - apply (read_good _ (serialize (ex_sdp []))). vm_compute. reflexivity.
  - decompose [or] H; subst; try contradiction; intros c Hc; vm_compute in Hc; decompose [or] Hc; subst; try contradiction; split; discriminate.
Qed.
