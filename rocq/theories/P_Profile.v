(** Answers made from a profile (C187). *)
From Coq Require Import Arith NArith Bool String List Lia ZifyBool ZifyN ZifyNat.
Import ListNotations.
From Verif Require Import Base BaseFacts Text Msg Sdp Profile ProfileSpec.
Open Scope N_scope.
Open Scope list_scope.

(** ** What is picked from an offer *)
Lemma format_pt : forall f pt, payload_type f = Some pt <-> format_is f pt.
Proof.
  intros f pt. unfold payload_type, format_is. destruct (parse_uint u16_max f) as [v|]; [|split; [discriminate|intros (H & _); discriminate]]. destruct (127 <? v) eqn:E; split; intros H; [discriminate|destruct H as (H & L); injection H as ->; lia|injection H as ->; split; [reflexivity|lia]|destruct H as (H & _); exact H].
Qed.
Lemma wants_iff : forall l pt, wants l pt = true <-> exists d, In d l /\ c_pt d = pt.
Proof. intros l pt. unfold wants. rewrite existsb_exists. split; intros (d & D & E); exists d; (split; [exact D|]); [now apply N.eqb_eq|now apply N.eqb_eq]. Qed.
Definition pick (mine : list codec) (m : media) (f : str) : list codec :=
  match payload_type f with Some pt => if wants mine pt then match lookup N.eqb pt (md_maps m) with Some r => [mkCodec pt (rm_name r) (rm_rate r)] | None => [] end else [] | None => [] end.
Definition is101 (f : str) : bool := match payload_type f with Some pt => pt =? 101 | None => false end.
Lemma audio_fold : forall mine m l b, fold_left (pick_audio mine m) l b = mkProfile (pf_audio b ++ flat_map (pick (pf_audio mine) m) l) (pf_video b) (pf_events b || (pf_events mine && existsb is101 l)) (pf_dir b) (pf_has_video b) (pf_mux b).
Proof.
  induction l as [|f l IH]; intros b; [cbn; rewrite app_nil_r, andb_false_r, orb_false_r; now destruct b|]. cbn [fold_left flat_map existsb]. rewrite IH. unfold pick_audio, pick, is101 at 2. destruct (payload_type f) as [pt|]; [|reflexivity]. cbv zeta.
  destruct (wants (pf_audio mine) pt); [destruct (lookup N.eqb pt (md_maps m)) as [r|]|]; destruct (pt =? 101), (pf_events mine) eqn:E; cbn [andb set_events add_audio pf_audio pf_video pf_events pf_dir pf_has_video pf_mux app]; rewrite ?orb_true_r, <- ?app_assoc; cbn [orb app]; try reflexivity; now destruct (pf_events b).
Qed.
Lemma video_fold : forall mine m l b, pf_has_video b = true -> fold_left (pick_video mine m) l b = mkProfile (pf_audio b) (pf_video b ++ flat_map (pick (pf_video mine) m) l) (pf_events b) (pf_dir b) true (pf_mux b).
Proof.
  induction l as [|f l IH]; intros b V; [cbn; rewrite app_nil_r, <- V; now destruct b|]. cbn [fold_left flat_map]. unfold pick_video at 2, pick at 1. destruct (payload_type f) as [pt|]; [|now apply IH]. destruct (wants (pf_video mine) pt); [|now apply IH]. destruct (lookup N.eqb pt (md_maps m)) as [r|]; [|now apply IH].
  rewrite IH by reflexivity. cbn [add_video pf_audio pf_video pf_events pf_dir pf_has_video pf_mux]. now rewrite <- app_assoc.
Qed.
Definition can_video (mine : profile) : bool := pf_has_video mine || negb (is_nil (pf_video mine)).
Definition audio_of (mine : profile) (m : media) : list codec := match md_type m with MAudio => flat_map (pick (pf_audio mine) m) (md_formats m) | _ => [] end.
Definition video_of (mine : profile) (m : media) : list codec := match md_type m with MVideo => if can_video mine then flat_map (pick (pf_video mine) m) (md_formats m) else [] | _ => [] end.
Definition events_of (mine : profile) (m : media) : bool := match md_type m with MAudio => pf_events mine && existsb is101 (md_formats m) | _ => false end.
Definition has_of (mine : profile) (m : media) : bool := match md_type m with MVideo => can_video mine | _ => false end.
Lemma media_fold : forall mine l b, fold_left (pick_media mine) l b = mkProfile (pf_audio b ++ flat_map (audio_of mine) l) (pf_video b ++ flat_map (video_of mine) l) (pf_events b || existsb (events_of mine) l) (pf_dir b) (pf_has_video b || existsb (has_of mine) l) (pf_mux b).
Proof.
  induction l as [|m l IH]; intros b; [cbn; rewrite !app_nil_r, !orb_false_r; now destruct b|]. cbn [fold_left flat_map existsb]. rewrite IH. unfold pick_media, audio_of at 2, video_of at 2, events_of at 2, has_of at 2. fold (can_video mine).
  destruct (md_type m); try reflexivity.
  - rewrite audio_fold. cbn [pf_audio pf_video pf_events pf_dir pf_has_video pf_mux app orb]. now rewrite <- app_assoc, <- orb_assoc.
  - destruct (can_video mine); [|reflexivity]. rewrite video_fold by reflexivity. cbn [set_video pf_audio pf_video pf_events pf_dir pf_has_video pf_mux app orb]. rewrite <- app_assoc. now rewrite orb_true_r.
Qed.
Lemma pick_in : forall mine m f c, In c (pick mine m f) <-> format_is f (c_pt c) /\ (exists d, In d mine /\ c_pt d = c_pt c) /\ exists r, lookup N.eqb (c_pt c) (md_maps m) = Some r /\ rm_name r = c_name c /\ rm_rate r = c_rate c.
Proof.
  intros mine m f c. unfold pick. split.
  - destruct (payload_type f) as [pt|] eqn:P; [|intros []]. destruct (wants mine pt) eqn:W; [|intros []]. destruct (lookup N.eqb pt (md_maps m)) as [r|] eqn:L; [|intros []]. intros [<-|[]]. cbn [c_pt c_name c_rate]. refine (conj _ (conj _ _)); [now apply format_pt|now apply wants_iff|now exists r].
  - intros (F & W & r & L & E1 & E2). apply format_pt in F. apply wants_iff in W. rewrite F, W, L, E1, E2. left. now destruct c.
Qed.
Lemma picked_is : forall offer mine, picked offer mine = mkProfile (flat_map (audio_of mine) (sd_media offer)) (flat_map (video_of mine) (sd_media offer)) (existsb (events_of mine) (sd_media offer)) (lit "sendrecv") (existsb (has_of mine) (sd_media offer)) (pf_mux mine).
Proof. intros. unfold picked. now rewrite media_fold. Qed.
Lemma can_iff : forall mine, can_video mine = true <-> pf_has_video mine = true \/ pf_video mine <> [].
Proof. intros mine. unfold can_video. rewrite orb_true_iff. apply or_iff_compat_l. destruct (pf_video mine); cbn; split; congruence. Qed.
Lemma shared_audio : forall offer mine c, In c (pf_audio (picked offer mine)) <-> shared offer MAudio (pf_audio mine) c.
Proof.
  intros offer mine c. rewrite picked_is. cbn [pf_audio]. rewrite in_flat_map. unfold shared, audio_of. split.
  - intros (m & M & H). destruct (md_type m) eqn:T; try destruct H. apply in_flat_map in H as (f & Ff & H). apply pick_in in H as (F & W & r & L & E1 & E2). exists m, f, r. exact (conj M (conj T (conj Ff (conj F (conj L (conj E1 (conj E2 W))))))).
  - intros (m & f & r & M & T & Ff & F & L & E1 & E2 & W). exists m. split; [exact M|]. rewrite T. apply in_flat_map. exists f. split; [exact Ff|]. apply pick_in. refine (conj F (conj W _)). now exists r.
Qed.
Lemma shared_video : forall offer mine c, In c (pf_video (picked offer mine)) <-> shared offer MVideo (pf_video mine) c.
Proof.
  intros offer mine c. rewrite picked_is. cbn [pf_video]. rewrite in_flat_map. unfold shared, video_of. split.
  - intros (m & M & H). destruct (md_type m) eqn:T; try destruct H. destruct (can_video mine); [|destruct H]. apply in_flat_map in H as (f & Ff & H). apply pick_in in H as (F & W & r & L & E1 & E2). exists m, f, r. exact (conj M (conj T (conj Ff (conj F (conj L (conj E1 (conj E2 W))))))).
  - intros (m & f & r & M & T & Ff & F & L & E1 & E2 & W). exists m. split; [exact M|]. rewrite T. assert (C : can_video mine = true) by (apply can_iff; right; destruct W as (d & D & _); intros K; now rewrite K in D). rewrite C. apply in_flat_map. exists f. split; [exact Ff|]. apply pick_in. refine (conj F (conj W _)). now exists r.
Qed.
Lemma shared_events : forall offer mine, pf_events (picked offer mine) = true <-> events_shared offer mine.
Proof.
  intros offer mine. rewrite picked_is. cbn [pf_events]. rewrite existsb_exists. unfold events_shared, events_of. split.
  - intros (m & M & H). destruct (md_type m) eqn:T; try discriminate. apply andb_true_iff in H as (E & H). apply existsb_exists in H as (f & Ff & H). split; [exact E|]. exists m, f. unfold is101 in H. destruct (payload_type f) as [pt|] eqn:P; [|discriminate]. apply N.eqb_eq in H. subst pt. apply format_pt in P. exact (conj M (conj T (conj Ff P))).
  - intros (E & m & f & M & T & Ff & F). exists m. split; [exact M|]. rewrite T, E. cbn [andb]. apply existsb_exists. exists f. split; [exact Ff|]. unfold is101. apply format_pt in F. now rewrite F.
Qed.
Lemma shared_has : forall offer mine, pf_has_video (picked offer mine) = true <-> video_shared offer mine.
Proof.
  intros offer mine. rewrite picked_is. cbn [pf_has_video]. rewrite existsb_exists. unfold video_shared, has_of. rewrite <- can_iff. split.
  - intros (m & M & H). destruct (md_type m) eqn:T; try discriminate. split; [exact H|]. now exists m.
  - intros (C & m & M & T). exists m. split; [exact M|]. now rewrite T.
Qed.

(** ** Sections *)
Definition keeps (m m' : media) : Prop := md_type m' = md_type m /\ md_port m' = md_port m.
Lemma format_step : forall pt m m', add_format pt m = Some m' -> keeps m m' /\ md_formats m' = md_formats m ++ [print_N pt] /\ md_maps m' = md_maps m /\ md_attrs m' = md_attrs m.
Proof. intros pt m m' H. unfold add_format in H. destruct (valid_pt pt && _); [|discriminate]. injection H as <-. now repeat split. Qed.
Lemma lookup_same : forall (k : N) (x : rtpmap) l, lookup N.eqb k (insert N.eqb k x l) = Some x.
Proof. intros. apply lookup_insert_same. intros; apply N.eqb_eq. Qed.
Lemma map_step : forall pt n r m m', add_rtpmap pt n r None m = Some m' -> keeps m m' /\ md_formats m' = md_formats m
  /\ forall k x, lookup N.eqb k (md_maps m') = Some x -> (k = pt /\ rm_name x = n /\ rm_rate x = r) \/ lookup N.eqb k (md_maps m) = Some x.
Proof.
  intros pt n r m m' H. unfold add_rtpmap in H. destruct (valid_pt pt && _ && _); [|discriminate]. destruct (is_some (lookup N.eqb pt (md_maps m))).
  - destruct (_ && _); [|discriminate]. injection H as <-. refine (conj (conj eq_refl eq_refl) (conj eq_refl _)). cbn [md_maps]. intros k x K. destruct (N.eq_dec k pt) as [->|D]; [rewrite lookup_same in K; injection K as <-; now left|].
    right. rewrite lookup_insert_other in K by (try (intros; apply N.eqb_eq); congruence). rewrite lookup_remove_other in K by (try (intros; apply N.eqb_eq); congruence). exact K.
  - destruct (_ && _); [|discriminate]. injection H as <-. refine (conj (conj eq_refl eq_refl) (conj eq_refl _)). cbn [md_maps]. intros k x K. destruct (N.eq_dec k pt) as [->|D]; [rewrite lookup_same in K; injection K as <-; now left|].
    right. rewrite lookup_insert_other in K by (try (intros; apply N.eqb_eq); congruence). exact K.
Qed.
Lemma prop_step : forall n m m', add_property n m = Some m' -> keeps m m' /\ md_formats m' = md_formats m /\ md_maps m' = md_maps m /\ md_attrs m' = md_attrs m ++ [AProp n].
Proof. intros n m m' H. unfold add_property in H. destruct (valid_field n _ && _); [|discriminate]. injection H as <-. now repeat split. Qed.
Lemma attr_step : forall n v m m', add_attribute n v m = Some m' -> keeps m m' /\ md_formats m' = md_formats m /\ md_maps m' = md_maps m.
Proof. intros n v m m' H. unfold add_attribute in H. destruct (valid_field n _ && _ && _); [|discriminate]. injection H as <-. now repeat split. Qed.
Lemma keeps_trans : forall a b c, keeps a b -> keeps b c -> keeps a c.
Proof. intros a b c (E1 & E2) (E3 & E4). split; congruence. Qed.
Lemma codecs_step : forall l m m', add_codecs l m = Some m' -> keeps m m' /\ md_formats m' = md_formats m ++ map (fun c => print_N (c_pt c)) l
  /\ forall k x, lookup N.eqb k (md_maps m') = Some x -> In (mkCodec k (rm_name x) (rm_rate x)) l \/ lookup N.eqb k (md_maps m) = Some x.
Proof.
  induction l as [|c l IH]; intros m m' H; cbn [add_codecs] in H.
  - injection H as <-. refine (conj (conj eq_refl eq_refl) (conj _ _)); [now rewrite app_nil_r|intros; now right].
  - destruct (add_format (c_pt c) m) as [m1|] eqn:F; [|discriminate]. destruct (add_rtpmap (c_pt c) (c_name c) (c_rate c) None m1) as [m2|] eqn:R; [|discriminate]. apply format_step in F as (K1 & F1 & F2 & _). apply map_step in R as (K2 & R1 & R2). apply IH in H as (K3 & H1 & H2).
    refine (conj (keeps_trans _ _ _ K1 (keeps_trans _ _ _ K2 K3)) (conj _ _)); [cbn [map]; rewrite H1, R1, F1, <- app_assoc; reflexivity|]. intros k x L. apply H2 in L as [L|L]; [left; now right|]. apply R2 in L as [(-> & E1 & E2)|L]; [left; left; rewrite E1, E2; now destruct c|right; now rewrite <- F2].
Qed.
Lemma mux_step : forall b m m', add_mux b m = Some m' -> keeps m m' /\ md_formats m' = md_formats m /\ md_maps m' = md_maps m.
Proof. intros [|] m m' H; cbn [add_mux] in H; [apply prop_step in H; tauto|injection H as <-; now repeat split]. Qed.
Lemma audio_lists : forall p port m, audio_section p port = Some m -> md_type m = MAudio /\ md_port m = port /\ lists m (fun c => In c (pf_audio p)) (pf_events p = true).
Proof.
  intros p port m H. unfold audio_section in H. destruct (add_property (pf_dir p) (media_new MAudio port)) as [m0|] eqn:E0; [|discriminate]. apply prop_step in E0 as (K0 & A0 & B0 & _). destruct (add_codecs (pf_audio p) m0) as [m1|] eqn:E1; [|discriminate]. apply codecs_step in E1 as (K1 & A1 & B1).
  rewrite A0 in A1. rewrite B0 in B1. cbn [media_new md_formats md_maps app] in A1, B1.
  destruct (pf_events p) eqn:Ev.
  - unfold add_events in H. destruct (add_format 101 m1) as [m2|] eqn:E2; [|discriminate]. destruct (add_rtpmap 101 (lit "telephone-event") 8000 None m2) as [m3|] eqn:E3; [|discriminate]. destruct (add_attribute (lit "fmtp") (lit "101 0-16") m3) as [m4|] eqn:E4; [|discriminate].
    apply format_step in E2 as (K2 & A2 & B2 & _). apply map_step in E3 as (K3 & A3 & B3). apply attr_step in E4 as (K4 & A4 & B4). apply mux_step in H as (K5 & A5 & B5). pose proof (keeps_trans _ _ _ K0 (keeps_trans _ _ _ K1 (keeps_trans _ _ _ K2 (keeps_trans _ _ _ K3 (keeps_trans _ _ _ K4 K5))))) as (T & P).
    refine (conj T (conj P (conj _ _))).
    + intros f. rewrite A5, A4, A3, A2, A1, in_app_iff, in_map_iff. split; [intros [(c & <- & C)|[<-|[]]]; [left; now exists c|right; now split]|intros [(c & C & ->)|(_ & ->)]; [left; now exists c|right; now left]].
    + intros pt x L. rewrite B5, B4 in L. apply B3 in L as [(-> & L1 & L2)|L]; [right; now repeat split|]. rewrite B2 in L. apply B1 in L as [L|L]; [now left|discriminate].
  - apply mux_step in H as (K5 & A5 & B5). pose proof (keeps_trans _ _ _ K0 (keeps_trans _ _ _ K1 K5)) as (T & P). refine (conj T (conj P (conj _ _))).
    + intros f. rewrite A5, A1, in_map_iff. split; [intros (c & <- & C); left; now exists c|intros [(c & C & ->)|(K & _)]; [now exists c|discriminate]].
    + intros pt x L. rewrite B5 in L. apply B1 in L as [L|L]; [now left|discriminate].
Qed.
Lemma video_lists : forall p port m, video_section p port = Some m -> md_type m = MVideo /\ md_port m = port /\ lists m (fun c => In c (pf_video p)) False.
Proof.
  intros p port m H. unfold video_section in H. destruct (add_property (pf_dir p) (media_new MVideo port)) as [m0|] eqn:E0; [|discriminate]. apply prop_step in E0 as (K0 & A0 & B0 & _). destruct (add_codecs (pf_video p) m0) as [m1|] eqn:E1; [|discriminate]. apply codecs_step in E1 as (K1 & A1 & B1).
  rewrite A0 in A1. rewrite B0 in B1. cbn [media_new md_formats md_maps app] in A1, B1. apply mux_step in H as (K5 & A5 & B5). pose proof (keeps_trans _ _ _ K0 (keeps_trans _ _ _ K1 K5)) as (T & P). refine (conj T (conj P (conj _ _))).
  + intros f. rewrite A5, A1, in_map_iff. split; [intros (c & <- & C); left; now exists c|intros [(c & C & ->)|([] & _)]; now exists c].
  + intros pt x L. rewrite B5 in L. apply B1 in L as [L|L]; [now left|discriminate].
Qed.
Lemma lists_iff : forall m P Q e e', (forall c, P c <-> Q c) -> (e <-> e') -> lists m P e -> lists m Q e'.
Proof.
  intros m P Q e e' PQ E (L1 & L2). split.
  - intros f. rewrite L1, E. apply or_iff_compat_r. split; intros (c & C & F); exists c; (split; [now apply PQ|exact F]).
  - intros pt x L. apply L2 in L as [L|(L & R)]; [left; now apply PQ|right; split; [now apply E|exact R]].
Qed.

(** ** C187 *)
(** an answer has an audio section and, if video is offered and the profile has any, a
    video section behind it; each lists exactly the codecs offered under a number of the
    profile, with the name and rate of the offer *)
Theorem C187_answer : forall offer mine id user addr ap vp s, profile_answer offer mine id user addr ap vp = Ret s ->
  exists a rest, sd_media s = a :: rest /\ md_type a = MAudio /\ md_port a = ap /\ lists a (shared offer MAudio (pf_audio mine)) (events_shared offer mine)
  /\ (video_shared offer mine -> exists v, rest = [v] /\ md_type v = MVideo /\ md_port v = match vp with Some p => p | None => ap + 2 end /\ lists v (shared offer MVideo (pf_video mine)) False)
  /\ (~ video_shared offer mine -> rest = []).
Proof.
  intros offer mine id user addr ap vp s H. unfold profile_answer, build in H. cbv zeta in H. destruct (origin_new user id addr) as [o|]; [|discriminate]. destruct (connection_new addr) as [c|]; [|discriminate]. destruct (audio_section (picked offer mine) ap) as [a|] eqn:A; [|discriminate].
  apply audio_lists in A as (T & P & L). apply (lists_iff _ _ _ _ _ (shared_audio offer mine) (shared_events offer mine)) in L. pose proof (shared_has offer mine) as V. destruct (pf_has_video (picked offer mine)).
  - destruct (u16_max <? _); [discriminate|]. destruct (video_section _ _) as [v|] eqn:E; [|discriminate]. injection H as <-. apply video_lists in E as (T' & P' & L'). exists a, [v]. refine (conj eq_refl (conj T (conj P (conj L (conj _ _))))); [intros _|intros K; now elim K; apply V].
    exists v. refine (conj eq_refl (conj T' (conj P' _))). exact (lists_iff _ _ _ _ _ (shared_video offer mine) (iff_refl False) L').
  - injection H as <-. exists a, []. refine (conj eq_refl (conj T (conj P (conj L (conj _ _))))); [intros K; apply V in K; discriminate|reflexivity].
Qed.
Print Assumptions C187_answer.

(** the answers of the two built-in profiles are of that kind *)
Definition offered (t : media_type) (fs : list str) (maps : list (N * rtpmap)) (at_ : list attribute) : media := mkMedia t 4000 None PRtpAvp fs None None [] None at_ maps.
Definition offer_of (ms : list media) : sdp := mkSdp 0 (mkOrigin (lit "-") (lit "1") (lit "1") IP4 (lit "10.0.0.2")) (lit "-") None None None None None [] [mkTime 0 0 []] [] None [] ms.
Definition pcmu : N * rtpmap := (0, mkRtpMap 0 (lit "PCMU") 8000 None).
Definition answered (o : sdp) (p : profile) : outcome sdp := profile_answer o p (lit "7") (lit "u") (lit "10.0.0.1") 5000 None.
Example C187_example : exists s, answered (offer_of [offered MAudio [lit "0"; lit "18"; lit "101"] [pcmu] []]) audio_only = Ret s /\ map md_formats (sd_media s) = [[lit "0"; lit "101"]].
Proof. eexists. split; [vm_compute; reflexivity|reflexivity]. Qed.

(** what an answer should be and is not: a payload type without an rtpmap is not
    answered although it is known; a number is answered although it stands for another
    codec; the sections of the offer are not answered one by one; the direction of the
    offer is not looked at; and an unusual rate in the offer is a panic *)
Theorem C187_static_refuted : exists s, answered (offer_of [offered MAudio [lit "0"; lit "8"] [] []]) audio_only = Ret s /\ map md_formats (sd_media s) = [[]] /\ map md_port (sd_media s) = [5000].
Proof. eexists. split; [vm_compute; reflexivity|split; reflexivity]. Qed.
Print Assumptions C187_static_refuted.
Theorem C187_number_refuted : exists s v, answered (offer_of [offered MVideo [lit "96"] [(96, mkRtpMap 96 (lit "AV1") 90000 None)] []]) audio_video = Ret s /\ nth_error (sd_media s) 1 = Some v /\ md_formats v = [lit "96"]
  /\ (forall c, In c (pf_video audio_video) -> c_name c <> lit "AV1").
Proof. do 2 eexists. split; [vm_compute; reflexivity|]. split; [reflexivity|]. split; [reflexivity|]. intros c [<-|[<-|[]]]; discriminate. Qed.
Print Assumptions C187_number_refuted.
Theorem C187_sections_refuted :
  (exists s, answered (offer_of [offered MVideo [lit "96"] [] []; offered MAudio [lit "0"] [pcmu] []]) audio_video = Ret s /\ map md_type (sd_media s) = [MAudio; MVideo])
  /\ (exists s, answered (offer_of [offered MAudio [lit "0"] [pcmu] []; offered MAudio [lit "0"] [pcmu] []]) audio_only = Ret s /\ map md_formats (sd_media s) = [[lit "0"; lit "0"]])
  /\ exists s, answered (offer_of [offered MApplication [lit "x"] [] []]) audio_only = Ret s /\ map md_type (sd_media s) = [MAudio].
Proof. refine (conj _ (conj _ _)); eexists; (split; [vm_compute; reflexivity|reflexivity]). Qed.
Print Assumptions C187_sections_refuted.
Theorem C187_direction_refuted : exists s a, answered (offer_of [offered MAudio [lit "0"] [pcmu] [AProp (lit "sendonly")]]) audio_only = Ret s /\ sd_media s = [a] /\ extract_direction (md_attrs a) = Some DSendRecv.
Proof. do 2 eexists. split; [vm_compute; reflexivity|]. split; reflexivity. Qed.
Print Assumptions C187_direction_refuted.
Theorem C187_panic_refuted :
  parse_rtpmap (lit "0 PCMU/1") = Some (mkRtpMap 0 (lit "PCMU") 1 None) /\ answered (offer_of [offered MAudio [lit "0"] [(0, mkRtpMap 0 (lit "PCMU") 1 None)] []]) audio_only = Panics.
Proof. split; vm_compute; reflexivity. Qed.
Print Assumptions C187_panic_refuted.
(** an address with a port, as the user agent passes it, is taken for an IPv6 address *)
Theorem C187_address_refuted : exists s c, profile_answer (offer_of []) audio_only (lit "7") (lit "u") (lit "10.0.0.1:5060") 5000 None = Ret s /\ sd_conn s = Some c /\ cx_type c = IP6 /\ cx_addr c = lit "10.0.0.1:5060".
Proof. do 2 eexists. split; [vm_compute; reflexivity|]. split; [reflexivity|]. split; reflexivity. Qed.
Print Assumptions C187_address_refuted.

(** ... but with usual rates and names, and not too many formats, there is an answer *)
Lemma field_ok : forall mx s, field mx s -> valid_field s mx = true.
Proof.
  intros mx s (E & L & C). unfold valid_field. destruct s as [|c s]; [now elim E|]. cbn [negb andb]. apply andb_true_iff. split; [lia|]. apply negb_true_iff. destruct (existsb is_control (c :: s)) eqn:X; [|reflexivity]. apply existsb_exists in X as (d & D & X). apply C in D. congruence.
Qed.
Definition room (k : nat) (m : media) : Prop := (List.length (md_formats m) + k <= 50 /\ List.length (md_attrs m) + k <= 50 /\ List.length (md_maps m) + k <= 50)%nat.
Lemma filter_le : forall A (f : A -> bool) l, (List.length (filter f l) <= List.length l)%nat.
Proof. induction l as [|x l IH]; [apply Nat.le_refl|]. cbn [filter]. destruct (f x); cbn [List.length]; lia. Qed.
Lemma remove_le : forall (k : N) (l : list (N * rtpmap)), (List.length (remove_key N.eqb k l) <= List.length l)%nat.
Proof. intros. apply filter_le. Qed.
Lemma codec_room : forall k pt n r m, pt <= 127 -> field 64 n -> 1000 <= r <= 1000000000 -> room (S k) m ->
  exists m1 m2, add_format pt m = Some m1 /\ add_rtpmap pt n r None m1 = Some m2 /\ room k m2.
Proof.
  intros k pt n r m P F R (L1 & L2 & L3).
  assert (E1 : exists m1, add_format pt m = Some m1).
  { unfold add_format, valid_pt, llen, MAX_FORMATS. assert (G : (pt <=? 127) && (N.of_nat (List.length (md_formats m)) <? 50) = true) by (apply andb_true_iff; split; lia). rewrite G. now eexists. }
  destruct E1 as (m1 & E1). exists m1. destruct (format_step _ _ _ E1) as (_ & A1 & A2 & A3).
  unfold add_rtpmap, valid_pt, valid_rate, MIN_CLOCK_RATE, MAX_CLOCK_RATE, MAX_RTPMAPS, MAX_ATTRIBUTES, llen. rewrite A2, A3.
  assert (G2 : (pt <=? 127) && valid_field n MAX_ENCODING_NAME_LENGTH && ((1000 <=? r) && (r <=? 1000000000)) = true) by (apply andb_true_iff; split; [apply andb_true_iff; split; [lia|now apply field_ok]|lia]). rewrite G2.
  destruct (is_some (lookup N.eqb pt (md_maps m))).
  - pose proof (filter_le _ (fun a => negb (pt_attr (lit "rtpmap") pt a)) (md_attrs m)) as F1. pose proof (remove_le pt (md_maps m)) as F2. pose proof (remove_le pt (remove_key N.eqb pt (md_maps m))) as F3.
    match goal with |- context [if ?b then _ else _] => assert (G3 : b = true) by (apply andb_true_iff; split; lia) end. rewrite G3. eexists. refine (conj E1 (conj eq_refl _)). unfold room. cbn [md_formats md_attrs md_maps]. unfold insert. rewrite A1, !app_length. cbn [List.length]. lia.
  - pose proof (remove_le pt (md_maps m)) as F2. match goal with |- context [if ?b then _ else _] => assert (G3 : b = true) by (apply andb_true_iff; split; lia) end. rewrite G3. eexists. refine (conj E1 (conj eq_refl _)). unfold room. cbn [md_formats md_attrs md_maps]. unfold insert. rewrite A1, !app_length. cbn [List.length]. lia.
Qed.
Lemma codecs_room : forall l k m, (forall c, In c l -> c_pt c <= 127 /\ good_codec c) -> room (List.length l + k) m -> exists m', add_codecs l m = Some m' /\ room k m'.
Proof.
  induction l as [|c l IH]; intros k m G R; [now exists m|]. destruct (G c (or_introl eq_refl)) as (P & F & Rt). destruct (codec_room (List.length l + k) _ _ _ m P F Rt R) as (m1 & m2 & E1 & E2 & R2). cbn [add_codecs]. rewrite E1, E2. apply IH; [intros d D; apply G; now right|exact R2].
Qed.
Lemma prop_room : forall k n m, field 128 n -> room (S k) m -> exists m', add_property n m = Some m' /\ room k m'.
Proof.
  intros k n m F (L1 & L2 & L3). unfold add_property, llen, MAX_ATTRIBUTES, MAX_ATTRIBUTE_NAME_LENGTH. rewrite (field_ok _ _ F). cbn [andb]. assert (G : (N.of_nat (List.length (md_attrs m)) <? 50) = true) by lia. rewrite G. eexists. split; [reflexivity|]. unfold room, with_attrs. cbn [md_formats md_attrs md_maps]. rewrite app_length. cbn [List.length]. lia.
Qed.
Lemma field_by : forall mx s, negb (str_eqb s []) && (blen s <=? mx) && forallb (fun c => negb (is_control c)) s = true -> field mx s.
Proof. intros mx s H. apply andb_true_iff in H as (H & H3). apply andb_true_iff in H as (H1 & H2). split; [intros ->; discriminate|]. split; [lia|]. intros c C. rewrite forallb_forall in H3. apply H3 in C. now apply negb_true_iff. Qed.
Lemma events_room : forall k m, room (S (S k)) m -> exists m', add_events m = Some m' /\ room k m'.
Proof.
  intros k m R. destruct (codec_room (S k) 101 (lit "telephone-event") 8000 m) as (m1 & m2 & E1 & E2 & L1 & L2 & L3); [lia|now apply field_by|lia|exact R|]. unfold add_events. rewrite E1, E2. unfold add_attribute, llen, MAX_ATTRIBUTES. change (valid_field (lit "fmtp") MAX_ATTRIBUTE_NAME_LENGTH) with true. change (valid_field (lit "101 0-16") MAX_ATTRIBUTE_VALUE_LENGTH) with true. cbn [andb].
  assert (G : (N.of_nat (List.length (md_attrs m2)) <? 50) = true) by lia. rewrite G. eexists. split; [reflexivity|]. unfold room, with_attrs. cbn [md_formats md_attrs md_maps]. rewrite app_length. cbn [List.length]. lia.
Qed.
Lemma mux_room : forall b m, room 1 m -> exists m', add_mux b m = Some m'.
Proof. intros [|] m R; [|now exists m]. destruct (prop_room 0 (lit "rtcp-mux") m) as (m' & E & _); [now apply field_by|exact R|]. now exists m'. Qed.
Lemma room_new : forall t p, room 50 (media_new t p). Proof. intros. unfold room, media_new. cbn. lia. Qed.
Lemma room_less : forall j k m, (j <= k)%nat -> room k m -> room j m. Proof. unfold room. intros. lia. Qed.
Lemma audio_room : forall p port, pf_dir p = lit "sendrecv" -> (forall c, In c (pf_audio p) -> c_pt c <= 127 /\ good_codec c) -> (List.length (pf_audio p) <= 40)%nat -> exists m, audio_section p port = Some m.
Proof.
  intros p port D G L. unfold audio_section. rewrite D. destruct (prop_room 49 (lit "sendrecv") (media_new MAudio port)) as (m0 & E0 & R0); [now apply field_by|apply room_new|]. rewrite E0. destruct (codecs_room (pf_audio p) 3 m0 G) as (m1 & E1 & R1); [apply (room_less _ 49); [lia|exact R0]|]. rewrite E1.
  destruct (pf_events p); [destruct (events_room 1 m1 R1) as (m2 & E2 & R2); rewrite E2; now apply mux_room|apply mux_room; apply (room_less _ 3); [lia|exact R1]].
Qed.
Lemma video_room : forall p port, pf_dir p = lit "sendrecv" -> (forall c, In c (pf_video p) -> c_pt c <= 127 /\ good_codec c) -> (List.length (pf_video p) <= 40)%nat -> exists m, video_section p port = Some m.
Proof.
  intros p port D G L. unfold video_section. rewrite D. destruct (prop_room 49 (lit "sendrecv") (media_new MVideo port)) as (m0 & E0 & R0); [now apply field_by|apply room_new|]. rewrite E0. destruct (codecs_room (pf_video p) 3 m0 G) as (m1 & E1 & R1); [apply (room_less _ 49); [lia|exact R0]|]. rewrite E1. apply mux_room. apply (room_less _ 3); [lia|exact R1].
Qed.
Lemma flat_le : forall A B (f : A -> list B) l, (forall x, (List.length (f x) <= 1)%nat) -> (List.length (flat_map f l) <= List.length l)%nat.
Proof. induction l as [|x l IH]; intros H; [apply Nat.le_refl|]. cbn [flat_map]. rewrite app_length. specialize (IH H). specialize (H x). cbn [List.length]. lia. Qed.
Lemma pick_le : forall mine m f, (List.length (pick mine m f) <= 1)%nat.
Proof. intros. unfold pick. destruct (payload_type f); [|cbn; lia]. destruct (wants mine n); [|cbn; lia]. destruct (lookup N.eqb n (md_maps m)); cbn; lia. Qed.
Lemma picked_le : forall offer mine, (List.length (pf_audio (picked offer mine)) <= List.length (flat_map md_formats (sd_media offer)) /\ List.length (pf_video (picked offer mine)) <= List.length (flat_map md_formats (sd_media offer)))%nat.
Proof.
  intros offer mine. rewrite picked_is. cbn [pf_audio pf_video]. induction (sd_media offer) as [|m l (I1 & I2)]; [split; apply Nat.le_refl|]. cbn [flat_map]. rewrite !app_length.
  assert (A : (List.length (audio_of mine m) <= List.length (md_formats m))%nat) by (unfold audio_of; destruct (md_type m); try (cbn; lia); apply flat_le, pick_le).
  assert (B : (List.length (video_of mine m) <= List.length (md_formats m))%nat) by (unfold video_of; destruct (md_type m); try (cbn; lia); destruct (can_video mine); [apply flat_le, pick_le|cbn; lia]). lia.
Qed.
Theorem C187_total : forall offer mine id user addr ap vp,
  field 256 user -> field 256 id -> field 256 addr -> (video_shared offer mine -> ap + 2 <= 65535) -> (List.length (flat_map md_formats (sd_media offer)) <= 40)%nat ->
  (forall c, shared offer MAudio (pf_audio mine) c \/ shared offer MVideo (pf_video mine) c -> good_codec c) ->
  exists s, profile_answer offer mine id user addr ap vp = Ret s.
Proof.
  intros offer mine id user addr ap vp U I A V L G. destruct (picked_le offer mine) as (L1 & L2). assert (D : pf_dir (picked offer mine) = lit "sendrecv") by now rewrite picked_is.
  assert (P : forall k l c, shared offer k l c -> c_pt c <= 127) by (intros k l c (m & f & r & _ & _ & _ & F & _); exact (proj2 F)).
  destruct (audio_room (picked offer mine) ap D) as (a & Ea); [intros c C; apply shared_audio in C; split; [exact (P _ _ _ C)|apply G; now left]|lia|].
  destruct (video_room (picked offer mine) (match vp with Some v => v | None => ap + 2 end) D) as (v & Ev); [intros c C; apply shared_video in C; split; [exact (P _ _ _ C)|apply G; now right]|lia|].
  unfold profile_answer, build. cbv zeta. unfold origin_new, connection_new, MAX_USERNAME_LENGTH, MAX_SESSION_ID_LENGTH, MAX_ADDRESS_LENGTH. rewrite (field_ok _ _ U), (field_ok _ _ I), (field_ok _ _ A). cbn [andb]. rewrite Ea. destruct (pf_has_video (picked offer mine)) eqn:HV; [|now eexists].
  apply shared_has in HV. rewrite Ev. assert (W : (u16_max <? ap + 2) = false) by (specialize (V HV); unfold u16_max; lia). rewrite W. now eexists.
Qed.
Print Assumptions C187_total.
(** and when video is shared an audio port above 65533 is a panic, given a video port or not *)
Theorem C187_port : forall offer mine id user addr ap vp, video_shared offer mine -> 65535 < ap + 2 -> profile_answer offer mine id user addr ap vp = Panics.
Proof.
  intros offer mine id user addr ap vp V W. apply shared_has in V. unfold profile_answer, build. cbv zeta. rewrite V. assert (E : (u16_max <? ap + 2) = true) by (unfold u16_max; lia). rewrite E. now destruct (origin_new user id addr), (connection_new addr), (audio_section (picked offer mine) ap).
Qed.
Print Assumptions C187_port.
Example C187_total_example : field 256 (lit "u") /\ (forall c, shared (offer_of [offered MAudio [lit "0"] [pcmu] []]) MAudio (pf_audio audio_only) c -> good_codec c).
Proof.
  split; [now apply field_by|]. intros c H. apply (shared_audio _ audio_only) in H. vm_compute in H. destruct H as [<-|[]]. split; [now apply field_by|cbn [c_rate]; lia].
Qed.

(** what else an answer says: the address it was given, both directions, the marks of the
    profile and the telephone events *)
Lemma map_attrs : forall pt n r m m', add_rtpmap pt n r None m = Some m' -> forall a, not_map a -> In a (md_attrs m') <-> In a (md_attrs m).
Proof.
  intros pt n r m m' H a A. unfold add_rtpmap in H. destruct (valid_pt pt && _ && _); [|discriminate]. destruct (is_some (lookup N.eqb pt (md_maps m))).
  - destruct (_ && _); [|discriminate]. injection H as <-. cbn [md_attrs]. rewrite in_app_iff, filter_In. split; [intros [(K & _)|[K|[]]]; [exact K|now elim (A (rtpmap_text pt n r None))]|]. intros K. left. split; [exact K|]. destruct a as [k|k v]; [reflexivity|]. unfold pt_attr. destruct (str_eqb k (lit "rtpmap")) eqn:E; [apply str_eqb_spec in E; subst k; now elim (A v)|reflexivity].
  - destruct (_ && _); [|discriminate]. injection H as <-. cbn [md_attrs]. rewrite in_app_iff. split; [intros [K|[K|[]]]; [exact K|now elim (A (rtpmap_text pt n r None))]|now left].
Qed.
Lemma codecs_attrs : forall l m m', add_codecs l m = Some m' -> forall a, not_map a -> In a (md_attrs m') <-> In a (md_attrs m).
Proof.
  induction l as [|c l IH]; intros m m' H a A; cbn [add_codecs] in H; [injection H as <-; tauto|]. destruct (add_format (c_pt c) m) as [m1|] eqn:F; [|discriminate]. destruct (add_rtpmap (c_pt c) (c_name c) (c_rate c) None m1) as [m2|] eqn:R; [|discriminate].
  apply format_step in F as (_ & _ & _ & F). rewrite (IH _ _ H a A), (map_attrs _ _ _ _ _ R a A), F. tauto.
Qed.
Lemma mux_attrs : forall b m m', add_mux b m = Some m' -> forall a, In a (md_attrs m') <-> In a (md_attrs m) \/ (b = true /\ a = AProp (lit "rtcp-mux")).
Proof.
  intros [|] m m' H a; cbn [add_mux] in H; [apply prop_step in H as (_ & _ & _ & ->); rewrite in_app_iff; cbn [In]; split; [intros [K|[K|[]]]; [now left|right; now split]|intros [K|(_ & ->)]; [now left|right; now left]]|]. injection H as <-. split; [now left|intros [K|(K & _)]; [exact K|discriminate]].
Qed.
Lemma audio_marks : forall p port m, pf_dir p = lit "sendrecv" -> audio_section p port = Some m -> marks m (pf_mux p) (pf_events p = true).
Proof.
  intros p port m D H a A. unfold audio_section in H. rewrite D in H. destruct (add_property (lit "sendrecv") (media_new MAudio port)) as [m0|] eqn:E0; [|discriminate]. destruct (add_codecs (pf_audio p) m0) as [m1|] eqn:E1; [|discriminate].
  apply prop_step in E0 as (_ & _ & _ & E0). cbn [media_new md_attrs app] in E0. pose proof (codecs_attrs _ _ _ E1 a A) as C1. rewrite E0 in C1. cbn [In] in C1.
  destruct (pf_events p) eqn:Ev.
  - unfold add_events in H. destruct (add_format 101 m1) as [m2|] eqn:E2; [|discriminate]. destruct (add_rtpmap 101 (lit "telephone-event") 8000 None m2) as [m3|] eqn:E3; [|discriminate]. destruct (add_attribute (lit "fmtp") (lit "101 0-16") m3) as [m4|] eqn:E4; [|discriminate].
    rewrite (mux_attrs _ _ _ H a). assert (E5 : md_attrs m4 = md_attrs m3 ++ [AVal (lit "fmtp") (lit "101 0-16")]) by (unfold add_attribute in E4; destruct (valid_field (lit "fmtp") _ && _ && _); [|discriminate]; injection E4 as <-; reflexivity). rewrite E5, in_app_iff, (map_attrs _ _ _ _ _ E3 a A). apply format_step in E2 as (_ & _ & _ & E2). rewrite E2, C1. cbn [In]. intuition congruence.
  - rewrite (mux_attrs _ _ _ H a), C1. intuition congruence.
Qed.
Lemma video_marks : forall p port m, pf_dir p = lit "sendrecv" -> video_section p port = Some m -> marks m (pf_mux p) False.
Proof.
  intros p port m D H a A. unfold video_section in H. rewrite D in H. destruct (add_property (lit "sendrecv") (media_new MVideo port)) as [m0|] eqn:E0; [|discriminate]. destruct (add_codecs (pf_video p) m0) as [m1|] eqn:E1; [|discriminate].
  apply prop_step in E0 as (_ & _ & _ & E0). cbn [media_new md_attrs app] in E0. pose proof (codecs_attrs _ _ _ E1 a A) as C1. rewrite E0 in C1. cbn [In] in C1. rewrite (mux_attrs _ _ _ H a), C1. intuition congruence.
Qed.
Theorem C187_marks : forall offer mine id user addr ap vp s, profile_answer offer mine id user addr ap vp = Ret s ->
  (exists c, sd_conn s = Some c /\ cx_addr c = addr) /\ og_addr (sd_origin s) = addr /\ og_user (sd_origin s) = user /\ og_id (sd_origin s) = id /\ sd_attrs s = []
  /\ forall m, In m (sd_media s) -> (md_type m = MAudio /\ marks m (pf_mux mine) (events_shared offer mine)) \/ (md_type m = MVideo /\ marks m (pf_mux mine) False).
Proof.
  intros offer mine id user addr ap vp s H. unfold profile_answer, build in H. cbv zeta in H. destruct (origin_new user id addr) as [o|] eqn:O; [|discriminate]. destruct (connection_new addr) as [c|] eqn:C; [|discriminate]. destruct (audio_section (picked offer mine) ap) as [a|] eqn:A; [|discriminate].
  assert (D : pf_dir (picked offer mine) = lit "sendrecv") by now rewrite picked_is. assert (X : pf_mux (picked offer mine) = pf_mux mine) by now rewrite picked_is.
  assert (Oa : og_addr o = addr /\ og_user o = user /\ og_id o = id) by (unfold origin_new in O; destruct (valid_field user _ && _ && _); [|discriminate]; injection O as <-; now repeat split). assert (Ca : cx_addr c = addr) by (unfold connection_new in C; destruct (valid_field addr _); [|discriminate]; injection C as <-; reflexivity).
  pose proof (audio_marks _ _ _ D A) as M. rewrite X in M. assert (Ma : marks a (pf_mux mine) (events_shared offer mine)) by (intros x Hx; rewrite (M x Hx), (shared_events offer mine); tauto). apply audio_lists in A as (T & _).
  assert (R : exists ms, s = session o c ms /\ forall m, In m ms -> m = a \/ (md_type m = MVideo /\ marks m (pf_mux mine) False)).
  { destruct (pf_has_video (picked offer mine)); [|injection H as <-; exists [a]; split; [reflexivity|intros m [<-|[]]; now left]]. destruct (u16_max <? _); [discriminate|]. destruct (video_section _ _) as [v|] eqn:E; [|discriminate]. injection H as <-. exists [a; v]. split; [reflexivity|]. pose proof (video_marks _ _ _ D E) as N. rewrite X in N. apply video_lists in E as (T' & _). intros m [<-|[<-|[]]]; [now left|right; now split]. }
  destruct R as (ms & -> & R). cbn [session sd_conn sd_origin sd_attrs sd_media]. destruct Oa as (O1 & O2 & O3). refine (conj (ex_intro _ c (conj eq_refl Ca)) (conj O1 (conj O2 (conj O3 (conj eq_refl _))))). intros m Hm. apply R in Hm as [->|Hm]; [left; now split|right; exact Hm].
Qed.
Print Assumptions C187_marks.
