(** Hold and resume (C150) and preconditions (C151). *)
From Coq Require Import Arith NArith Bool String List Lia ZifyBool ZifyN ZifyNat.
Import ListNotations.
From Verif Require Import Base BaseFacts NumFacts TypedFacts Msg SdpCore SdpCoreSpec SdpCoreProofs SdpCoreSound SdpCoreWrite P_SdpCore OfferAnswer OfferSpec OfferProofs OfferFacts P_OfferAnswer.
Open Scope N_scope.
Open Scope list_scope.

(** ** C150 *)
Lemma dir_parse_spec : forall s, is_some (dir_parse s) = existsb (str_eqb s) [lit "sendrecv"; lit "sendonly"; lit "recvonly"; lit "inactive"].
Proof.
  intros s. unfold dir_parse. cbn [existsb]. destruct (str_eqb s (lit "sendrecv")), (str_eqb s (lit "sendonly")), (str_eqb s (lit "recvonly")), (str_eqb s (lit "inactive")); reflexivity.
Qed.
Lemma is_dir_directs : forall a, is_dir a = directs a.
Proof. intros (n, [v|]); [reflexivity|]. apply dir_parse_spec. Qed.
Lemma redirect_directed : forall f m, redirect f m = directed m (f (media_dir m)).
Proof.
  intros f m. unfold redirect, directed, m_attrs. f_equal. f_equal. apply filter_ext. intros a. now rewrite is_dir_directs.
Qed.
Lemma find_none : forall l, (forall a, In a l -> is_dir a = false) -> forall r, find_dir (l ++ r) = find_dir r.
Proof.
  induction l as [|(n, [v|]) l IH]; intros H r; cbn [app find_dir]; [reflexivity|apply IH; intros a Ha; apply H; now right|]. assert (E : is_dir (n, None) = false) by (apply H; now left). unfold is_dir in E. cbn [snd fst] in E. destruct (dir_parse n); [discriminate|]. apply IH. intros a Ha. apply H. now right.
Qed.
Lemma directed_dir : forall m d, media_dir (directed m d) = d.
Proof.
  intros m d. unfold media_dir, directed. cbn [md_attrs]. rewrite find_none.
  - cbn [find_dir]. now rewrite dir_back.
  - intros a H. apply filter_In in H as (_ & H). rewrite is_dir_directs. now destruct (directs a).
Qed.
Lemma directed_twice : forall m d e, directed (directed m d) e = directed m e.
Proof.
  intros m d e. unfold directed. cbn [md_type md_port md_count md_proto md_fmt md_title md_conn md_bw md_key md_attrs md_mid md_rtcp md_caps]. f_equal. f_equal. rewrite filter_app.
  assert (E : directs (dir_text d, None) = true) by (destruct d; reflexivity). cbn [filter]. rewrite E. cbn [negb]. rewrite app_nil_r. induction (md_attrs m) as [|a l IH]; [reflexivity|]. cbn [filter]. destruct (negb (directs a)) eqn:D; [cbn [filter]; rewrite D; f_equal; exact IH|exact IH].
Qed.
Lemma new_offer_spec : forall f s h, new_offer f s = Ret h ->
  ss_media h = map (fun m => directed m (f (media_dir m))) (ss_media s) /\ ss_version h = ss_version s /\ ss_name h = ss_name s /\ ss_body h = ss_body s /\ ss_groups h = ss_groups s /\ ss_caps h = ss_caps s
  /\ ss_origin h = with_version (ss_origin s) (og_version (ss_origin h)) /\ next_version (og_version (ss_origin s)) = Ret (og_version (ss_origin h)).
Proof.
  intros f s h H. unfold new_offer in H. destruct (next_version (og_version (ss_origin s))) as [v|] eqn:V; [|discriminate]. injection H as <-. cbn [ss_media ss_version ss_name ss_body ss_groups ss_caps ss_origin]. split; [apply map_ext; intros m; apply redirect_directed|]. now repeat split.
Qed.
(** the two offers are the same but for the version and the streams *)
Definition same_session (s h : session) : Prop :=
  ss_version h = ss_version s /\ ss_name h = ss_name s /\ ss_body h = ss_body s /\ ss_groups h = ss_groups s /\ ss_caps h = ss_caps s
  /\ og_user (ss_origin h) = og_user (ss_origin s) /\ og_id (ss_origin h) = og_id (ss_origin s) /\ og_net (ss_origin h) = og_net (ss_origin s)
  /\ og_type (ss_origin h) = og_type (ss_origin s) /\ og_addr (ss_origin h) = og_addr (ss_origin s).
Lemma new_offer_same : forall f s h, new_offer f s = Ret h -> same_session s h.
Proof.
  intros f s h H. apply new_offer_spec in H as (_ & A & B & C & D & E & F & _). unfold same_session. rewrite F. now repeat split.
Qed.

(** C150: the offer that puts a call on hold is the session with the streams in
    another direction, which sends as before and receives nothing *)
Theorem C150_hold : forall s h, hold_offer s = Ret h -> same_session s h
  /\ List.length (ss_media h) = List.length (ss_media s)
  /\ forall k m, nth_error (ss_media s) k = Some m -> exists d, nth_error (ss_media h) k = Some (directed m d) /\ media_dir (directed m d) = d
     /\ sends d = sends (media_dir m) /\ receives d = false.
Proof.
  intros s h H. split; [now apply (new_offer_same hold_dir)|]. apply new_offer_spec in H as (H & _). rewrite H. split; [apply map_length|]. intros k m Hm. exists (hold_dir (media_dir m)).
  split; [exact (map_nth_error (fun m => directed m (hold_dir (media_dir m))) k (ss_media s) Hm)|]. split; [apply directed_dir|]. now destruct (media_dir m).
Qed.
Print Assumptions C150_hold.

(** C150: the offer that ends it sends as before and receives *)
Theorem C150_resume : forall s h, resume_offer s = Ret h -> same_session s h
  /\ List.length (ss_media h) = List.length (ss_media s)
  /\ forall k m, nth_error (ss_media s) k = Some m -> exists d, nth_error (ss_media h) k = Some (directed m d) /\ media_dir (directed m d) = d
     /\ sends d = sends (media_dir m) /\ receives d = true.
Proof.
  intros s h H. split; [now apply (new_offer_same resume_dir)|]. apply new_offer_spec in H as (H & _). rewrite H. split; [apply map_length|]. intros k m Hm. exists (resume_dir (media_dir m)).
  split; [exact (map_nth_error (fun m => directed m (resume_dir (media_dir m))) k (ss_media s) Hm)|]. split; [apply directed_dir|]. now destruct (media_dir m).
Qed.
Print Assumptions C150_resume.

(** C150: hold and resume give a stream its direction back if and only if it
    received before *)
Theorem C150_restore : forall s h r k m x, hold_offer s = Ret h -> resume_offer h = Ret r -> nth_error (ss_media s) k = Some m -> nth_error (ss_media r) k = Some x ->
  x = directed m (media_dir x) /\ (media_dir x = media_dir m <-> receives (media_dir m) = true).
Proof.
  intros s h r k m x H R Hm Hx. apply new_offer_spec in H as (H & _). apply new_offer_spec in R as (R & _). rewrite R, H, map_map in Hx.
  rewrite (map_nth_error (fun m => directed (directed m (hold_dir (media_dir m))) (resume_dir (media_dir (directed m (hold_dir (media_dir m)))))) k (ss_media s) Hm) in Hx. injection Hx as <-. rewrite directed_twice, !directed_dir. split; [reflexivity|]. destruct (media_dir m); cbn; split; congruence.
Qed.
Print Assumptions C150_restore.

(** C150: who answers an offer that holds sends nothing *)
Theorem C150_silence : forall s h ords o a k x, any_order ords -> keeps_unique ords -> hold_offer s = Ret h -> ao_override o = None -> generate_answer ords h o = Ret (Some a) ->
  nth_error (ss_media a) k = Some x -> md_port x = 0 \/ sends (media_dir x) = false.
Proof.
  intros s h ords o a k x O U H V G Hx. destruct (C149_streams _ _ _ _ O U G) as (L & S).
  destruct (nth_error (ss_media h) k) as [m|] eqn:Hm; [|apply nth_error_None in Hm; assert (k < List.length (ss_media a))%nat by (apply nth_error_Some; congruence); lia].
  destruct (S k m Hm) as (y & Y & _ & _ & _ & _ & C). rewrite Hx in Y. injection Y as <-. destruct C as [(_ & A)|(_ & D & _)]; [right|now left]. destruct A as (_ & _ & _ & _ & _ & A & _). rewrite A. unfold wanted. rewrite V.
  destruct (C150_hold s h H) as (_ & LH & HH). destruct (nth_error (ss_media s) k) as [m0|] eqn:H0; [|apply nth_error_None in H0; assert (k < List.length (ss_media h))%nat by (apply nth_error_Some; congruence); lia].
  destruct (HH k m0 H0) as (d & D1 & D2 & _ & D3). rewrite Hm in D1. injection D1 as ->. rewrite D2. now destruct d.
Qed.
Print Assumptions C150_silence.

(** C150: the version of the session goes up by one, so the other side knows
    that the offer is new *)
Theorem C150_version : forall s, 
  (forall h, hold_offer s = Ret h \/ resume_offer s = Ret h ->
     (forall n, parse_uint u64_max (og_version (ss_origin s)) = Some n -> parse_uint u64_max (og_version (ss_origin h)) = Some (n + 1))
     /\ (parse_uint u64_max (og_version (ss_origin s)) = None -> og_version (ss_origin h) = og_version (ss_origin s)))
  /\ (hold_offer s = Panics <-> parse_uint u64_max (og_version (ss_origin s)) = Some u64_max)
  /\ (resume_offer s = Panics <-> parse_uint u64_max (og_version (ss_origin s)) = Some u64_max).
Proof.
  intros s. assert (P : forall f, new_offer f s = Panics <-> parse_uint u64_max (og_version (ss_origin s)) = Some u64_max).
  { intros f. unfold new_offer, next_version. destruct (parse_uint u64_max (og_version (ss_origin s))) as [n|]; [|split; discriminate]. destruct (n =? u64_max) eqn:E; [apply N.eqb_eq in E; subst; now split|]. apply N.eqb_neq in E. split; [discriminate|congruence]. }
  split; [|split; apply P]. intros h H. assert (V : next_version (og_version (ss_origin s)) = Ret (og_version (ss_origin h))) by (destruct H as [H|H]; now apply new_offer_spec in H). unfold next_version in V. split.
  - intros n E. rewrite E in V. pose proof (parse_uint_range _ _ _ E). destruct (n =? u64_max) eqn:K; [discriminate|]. apply N.eqb_neq in K. injection V as <-. apply parse_uint_print. lia.
  - intros E. rewrite E in V. now injection V as <-.
Qed.
Print Assumptions C150_version.

(** C150: the offer is read as it was made if no stream has more than 99 lines
    of attributes *)
Lemma filter_short : forall A (p : A -> bool) l, (List.length (filter p l) <= List.length l)%nat.
Proof. intros A p. induction l as [|a l IH]; [apply le_n|]. cbn [filter]. destruct (p a); cbn [List.length]; lia. Qed.
Lemma directed_sound : forall m d, sound_media m -> (one_if (md_mid m) + one_if (md_rtcp m) + cap_lines (md_caps m) + List.length (md_attrs m) <= 99)%nat -> sound_media (directed m d).
Proof.
  intros m d S L. destruct S as (S1 & S2 & S3 & S4 & S5 & S6 & S7 & S8 & S9 & S10 & S11 & S12 & S13 & S14 & S15 & S16 & S17 & S18). unfold sound_media, directed. cbn [md_type md_port md_count md_proto md_fmt md_title md_conn md_bw md_key md_attrs md_mid md_rtcp md_caps].
  do 12 (split; [assumption|]). split; [|split; [|split; [exact S15|split; [exact S16|split; [exact S17|]]]]].
  - apply Forall_app. split; [rewrite Forall_forall in *; intros a Ha; apply filter_In in Ha as (Ha & _); now apply S13|]. constructor; [|constructor]. split; [|split; [|apply opt_none]]; cbn [fst]; destruct d; known.
  - intros a Ha K. apply in_app_or in Ha as [Ha|[<-|[]]]; [apply filter_In in Ha as (Ha & _); now apply (S14 a)|]. cbn [fst] in K. apply (dir_names d). do 5 right. exact K.
  - rewrite app_length. assert (X : (List.length (filter (fun a => negb (directs a)) (md_attrs m)) <= List.length (md_attrs m))%nat) by apply filter_short. change (List.length [(dir_text d, None : option str)]) with 1%nat. lia.
Qed.
Theorem C150_wire : forall s h, sound_session s -> at_most 50 (bd_zones (ss_body s)) -> hold_offer s = Ret h \/ resume_offer s = Ret h ->
  (forall m, In m (ss_media s) -> (one_if (md_mid m) + one_if (md_rtcp m) + cap_lines (md_caps m) + List.length (md_attrs m) <= 99)%nat) ->
  sdp_parse (sdp_print h) = Some h.
Proof.
  intros s h S Z H L. assert (K : exists f, new_offer f s = Ret h) by (destruct H as [H|H]; [now exists hold_dir|now exists resume_dir]). destruct K as (f & K). apply new_offer_spec in K as (M & V & N & B & G & C & O & NV).
  apply C148_roundtrip; [|now rewrite B]. destruct S as (S1 & S2 & S3 & S). split; [now rewrite V|]. split.
  - rewrite O. destruct S2 as (O1 & O2 & O3 & O4 & O5 & O6). split; [exact O1|]. split; [exact O2|]. split; [|split; [exact O4|split; [exact O5|exact O6]]]. cbn [og_version with_version]. unfold next_version in NV. destruct (parse_uint u64_max (og_version (ss_origin s))) as [n|] eqn:P.
    + pose proof (parse_uint_range _ _ _ P) as R. destruct (n =? u64_max) eqn:E; [discriminate|]. apply N.eqb_neq in E. injection NV as <-. destruct (digits_like (n + 1)) as (D1 & D2). split; [exact D1|]. split; [exact D2|]. split; [|apply plain_digits].
      assert (X : blen (print_N (n + 1)) <= N.of_nat 20) by (apply print_N_blen; [change (10 ^ N.of_nat 20) with 100000000000000000000; unfold u64_max in *; lia|lia]). lia.
    + injection NV as <-. exact O3.
  - split; [now rewrite N|]. rewrite B, G, C. destruct S as (A1 & A2 & A3 & A4 & A5 & A6 & A7 & A8 & A9 & A10 & A11 & A12 & A13 & A14 & A15 & A16 & A17 & A18 & A19 & A20 & A21 & A22 & A23 & A24 & A25). do 22 (split; [assumption|]). rewrite M. split; [unfold at_most in *; now rewrite map_length|]. split.
    + rewrite Forall_forall in *. intros x Hx. apply in_map_iff in Hx as (m & <- & Hm). apply directed_sound; [now apply A24|now apply L].
    + destruct A25 as [A25|A25]; [now left|right]. rewrite Forall_forall in *. intros x Hx. apply in_map_iff in Hx as (m & <- & Hm). exact (A25 m Hm).
Qed.
Print Assumptions C150_wire.

(** ** A call with two streams on hold *)
Definition call_offer : session := offer_of [] [stream (lit "audio") 5000 [lit "0"] [lit "ptime:20"; lit "sendrecv"]; stream (lit "video") 5002 [lit "96"] [lit "recvonly"; lit "rtpmap:96 H264/90000"]].
Example C150_hypotheses_met : exists h r, hold_offer call_offer = Ret h /\ resume_offer h = Ret r
  /\ map media_dir (ss_media h) = [SendOnly; Inactive] /\ map media_dir (ss_media r) = [SendRecv; RecvOnly] /\ og_version (ss_origin r) = lit "3"
  /\ exists a, generate_answer as_is h default_options = Ret (Some a) /\ map media_dir (ss_media a) = [RecvOnly; Inactive].
Proof. do 2 eexists. split; [vm_compute; reflexivity|]. split; [vm_compute; reflexivity|]. split; [reflexivity|]. split; [reflexivity|]. split; [reflexivity|]. eexists. split; [vm_compute; reflexivity|reflexivity]. Qed.

(** C150, refuted: hold and resume turn a stream that only sends into one that
    also receives, and a stream that was switched off into one that receives *)
Theorem C150_restore_refuted : exists s h r, hold_offer s = Ret h /\ resume_offer h = Ret r
  /\ map media_dir (ss_media s) = [SendOnly; Inactive] /\ map media_dir (ss_media r) = [SendRecv; RecvOnly].
Proof. exists (offer_of [] [stream (lit "audio") 5000 [lit "0"] [lit "sendonly"]; stream (lit "audio") 5002 [lit "0"] [lit "inactive"]]). do 2 eexists. split; [vm_compute; reflexivity|]. split; [vm_compute; reflexivity|]. now split. Qed.
Print Assumptions C150_restore_refuted.

(** C150, refuted: a direction for the whole session is not seen: to hold a
    session that is switched off makes it send *)
Theorem C150_session_refuted : exists s h m, hold_offer s = Ret h /\ bd_attrs (ss_body s) = [(lit "inactive", None)] /\ md_attrs m = [] /\ ss_media s = [m] /\ map media_dir (ss_media h) = [SendOnly].
Proof. exists (offer_of [lit "inactive"] [stream (lit "audio") 5000 [lit "0"] []]). do 2 eexists. split; [vm_compute; reflexivity|]. split; [reflexivity|]. split; [|split; reflexivity]. reflexivity. Qed.
Print Assumptions C150_session_refuted.

(** ** C151 *)
Lemma ws_lower_c : forall c, is_ws (lower_c c) = is_ws c.
Proof. intros c. unfold lower_c, is_upper. destruct (in_range 65 90 c) eqn:E; [|reflexivity]. unfold is_ws, in_range in *. lia. Qed.
Lemma ws_lower : forall s cur, split_ws_aux (lower cur) (lower s) = map lower (split_ws_aux cur s).
Proof.
  induction s as [|c s IH]; intros cur.
  - change (lower []) with (@nil N). cbn [split_ws_aux]. destruct cur as [|x cur]; [reflexivity|]. cbn [map lower]. f_equal. change (lower_c x :: lower cur) with (lower (x :: cur)). unfold lower. now rewrite map_rev.
  - change (lower (c :: s)) with (lower_c c :: lower s). cbn [split_ws_aux]. rewrite ws_lower_c. destruct (is_ws c).
    + destruct cur as [|x cur]; [apply (IH [])|]. change (lower (x :: cur)) with (lower_c x :: lower cur). cbv iota beta. cbn [map]. f_equal; [|apply (IH [])]. change (lower_c x :: lower cur) with (lower (x :: cur)). unfold lower. now rewrite map_rev.
    + exact (IH (c :: cur)).
Qed.
Lemma low_lower : forall a b, lower_c a = lower_c b -> low_c a = low_c b.
Proof. intros a b H. unfold low_c. destruct (a =? 8490) eqn:A, (b =? 8490) eqn:B; [reflexivity| | |exact H]; exfalso; unfold lower_c, is_upper in H; destruct (in_range 65 90 a) eqn:A1, (in_range 65 90 b) eqn:B1; unfold in_range in *; lia. Qed.
Lemma lows : forall a b, lower a = lower b -> map low_c a = map low_c b.
Proof. induction a as [|x a IH]; intros [|y b] H; try discriminate; [reflexivity|]. cbn in H. injection H as H1 H2. cbn [map]. f_equal; [now apply low_lower|now apply IH]. Qed.
Lemma ptype_qos : forall a b, lower a = lower b -> is_qos (ptype a) = is_qos (ptype b).
Proof.
  intros a b H. assert (K : forall s, is_qos (ptype s) = str_eqb (map low_c s) (lit "qos")).
  { intros s. unfold ptype, is_qos. destruct (str_eqb (map low_c s) (lit "qos")) eqn:E; [reflexivity|]. destruct (str_eqb s (lit "qos")) eqn:F; [|reflexivity]. apply str_eqb_spec in F. subst s. discriminate E. }
  rewrite !K. now rewrite (lows a b H).
Qed.
(** C151: capitals do not matter in the values of the attributes *)
Definition same_curr (a b : option curr) : Prop :=
  match a, b with Some x, Some y => is_qos (cu_type x) = is_qos (cu_type y) /\ cu_status x = cu_status y /\ cu_dir x = cu_dir y | None, None => True | _, _ => False end.
Definition same_des (a b : option des) : Prop :=
  match a, b with Some x, Some y => is_qos (de_type x) = is_qos (de_type y) /\ de_strength x = de_strength y /\ de_status x = de_status y /\ de_dir x = de_dir y | None, None => True | _, _ => False end.
Theorem C151_case : forall v w, lower v = lower w -> same_curr (p_curr v) (p_curr w) /\ same_des (p_des v) (p_des w).
Proof.
  intros v w H. assert (E : map lower (split_ws v) = map lower (split_ws w)) by (unfold split_ws; rewrite <- !(ws_lower _ []), H; reflexivity). unfold p_curr, p_des.
  assert (S1 : forall a b, lower a = lower b -> status_parse a = status_parse b) by (intros a b K; unfold status_parse; now rewrite (lows a b K)).
  assert (S2 : forall a b, lower a = lower b -> pdir_parse a = pdir_parse b) by (intros a b K; unfold pdir_parse; now rewrite (lows a b K)).
  assert (S3 : forall a b, lower a = lower b -> strength_parse a = strength_parse b) by (intros a b K; unfold strength_parse; now rewrite (lows a b K)).
  destruct (split_ws v) as [|a [|b [|c [|d [|e l]]]]], (split_ws w) as [|a' [|b' [|c' [|d' [|e' l']]]]]; cbn [map] in E; try discriminate E; try (split; exact I); injection E; intros.
  - split; [|exact I]. rewrite (S1 b b') by assumption. destruct (status_parse b') as [x|]; [|exact I]. cbn [bindo]. rewrite (S2 c c') by assumption. destruct (pdir_parse c') as [y|]; [|exact I]. cbn. split; [now apply ptype_qos|now split].
  - split; [exact I|]. rewrite (S3 b b') by assumption. destruct (strength_parse b') as [x|]; [|exact I]. cbn [bindo]. rewrite (S1 c c') by assumption. destruct (status_parse c') as [y|]; [|exact I]. cbn [bindo]. rewrite (S2 d d') by assumption. destruct (pdir_parse d') as [z|]; [|exact I]. cbn. split; [now apply ptype_qos|now repeat split].
Qed.
Print Assumptions C151_case.

(** C151: a stream may start if and only if every mandatory precondition is met
    by the current status of its kind *)
Lemma meets_covers : forall c d, meets c d = true <-> covers c d.
Proof. unfold covers. intros [] []; cbn; intuition congruence. Qed.
Lemma status_eqb_eq : forall a b, status_eqb a b = true <-> a = b.
Proof. intros [] []; cbn; split; congruence. Qed.
Definition about (c : curr) (d : des) : Prop := cu_type c = de_type d /\ cu_status c = de_status d.
Theorem C151_met : forall s k m, nth_error (ss_media s) k = Some m ->
  (forall c c', In c (currents m) -> In c' (currents m) -> cu_type c = cu_type c' -> cu_status c = cu_status c' -> c = c') ->
  (preconditions_met s k = true <-> forall d, In d (desired m) -> de_strength d = Mandatory -> exists c, In c (currents m) /\ about c d /\ covers (cu_dir c) (de_dir d)).
Proof.
  intros s k m Hm U. unfold preconditions_met. rewrite Hm. fold (currents m) (desired m). rewrite forallb_forall. split.
  - intros H d Hd Sd. specialize (H d Hd). rewrite Sd in H. destruct (find _ (currents m)) as [c|] eqn:F; [|discriminate]. apply find_some in F as (F1 & F2). apply andb_true_iff in F2 as (F2 & F3). apply str_eqb_spec in F2. apply status_eqb_eq in F3. exists c. split; [exact F1|]. split; [now split|now apply meets_covers].
  - intros H d Hd. destruct (de_strength d) eqn:Sd; try reflexivity. destruct (H d Hd Sd) as (c & C1 & (C2 & C3) & C4). destruct (find _ (currents m)) as [c'|] eqn:F.
    + apply find_some in F as (F1 & F2). apply andb_true_iff in F2 as (F2 & F3). apply str_eqb_spec in F2. apply status_eqb_eq in F3. rewrite (U c' c F1 C1); [now apply meets_covers|congruence|congruence].
    + pose proof (List.find_none _ _ F c C1) as X. cbn beta in X. rewrite C2, str_eqb_refl in X. cbn [andb] in X. assert (Y : status_eqb (cu_status c) (de_status d) = true) by now apply status_eqb_eq. congruence.
Qed.
Print Assumptions C151_met.

(** C151: the answer to a stream repeats its preconditions from the other side *)
Lemma curr_back : forall s d, p_curr (curr_text (mkCurr (lit "qos") s d)) = Some (mkCurr (lit "qos") s d).
Proof. intros [] []; vm_compute; reflexivity. Qed.
Lemma des_back : forall t s d, p_des (des_text (mkDes (lit "qos") t s d)) = Some (mkDes (lit "qos") t s d).
Proof. intros [] [] []; vm_compute; reflexivity. Qed.
Lemma read_map : forall A B name (p : str -> option A) (f : B -> str) (g : B -> A) l, (forall b, In b l -> p (f b) = Some (g b)) -> read_all name p (map (fun b => (name, Some (f b))) l) = map g l.
Proof. intros A B name p f g. induction l as [|b l IH]; intros H; [reflexivity|]. cbn [map read_all]. rewrite str_eqb_refl, (H b) by now left. f_equal. apply IH. intros x Hx. apply H. now right. Qed.
Lemma accept_pre : forall A name (p : str -> option A) o m port com, In name [lit "curr"; lit "des"; lit "conf"] -> read_all name p (md_attrs (accept o m port com)) = read_all name p (preconditions o m).
Proof.
  intros A name p o m port com H. unfold accept. cbn [md_attrs]. rewrite read_app, read_none.
  - cbn [app read_all]. reflexivity.
  - intros a Ha K. apply codec_valued in Ha as [(q & _ & ->)|(q & v & _ & _ & ->)]; cbn [fst] in K; subst name; cbn in H; repeat destruct H as [H|H]; try discriminate H; contradiction.
Qed.
Lemma other_only : forall A name name' (p : str -> option A) B (f : B -> str) l, str_eqb name' name = false -> read_all name p (map (fun b => (name', Some (f b))) l) = [].
Proof. intros A name name' p B f l H. apply read_none. intros a Ha. apply in_map_iff in Ha as (b & <- & _). cbn [fst]. now apply str_eqb_neq. Qed.
Definition quality {A} (type : A -> str) (l : list A) : list A := filter (fun a => str_eqb (type a) (lit "qos")) l.
Lemma forall2_map : forall A B (R : A -> B -> Prop) (f : A -> B) l, (forall a, In a l -> R a (f a)) -> Forall2 R l (map f l).
Proof. intros A B R f. induction l as [|a l IH]; intros H; constructor; [apply H; now left|apply IH; intros x Hx; apply H; now right]. Qed.
Theorem C151_answer : forall ords offer o a k m x, any_order ords -> keeps_unique ords -> generate_answer ords offer o = Ret (Some a) ->
  nth_error (ss_media offer) k = Some m -> nth_error (ss_media a) k = Some x -> taken o k m ->
  Forall2 (current_reply o) (quality cu_type (currents m)) (currents x)
  /\ Forall2 (desired_reply o) (quality de_type (desired m)) (desired x)
  /\ Forall2 confirm_reply (quality cu_type (confirms m)) (confirms x).
Proof.
  intros ords offer o a k m x O U G Hm Hx T. destruct (answer_spec _ _ _ _ O U G) as (_ & _ & S). destruct (S k m Hm) as (y & Y & [(_ & cs & C & E)|(T' & _)]); [|contradiction]. rewrite Hx in Y. injection Y as <-. subst x.
  assert (QC : forall c l, In c (quality cu_type l) -> cu_type c = lit "qos") by (intros c l H; apply filter_In in H as (_ & H); now apply str_eqb_spec).
  assert (QD : forall c l, In c (quality de_type l) -> de_type c = lit "qos") by (intros c l H; apply filter_In in H as (_ & H); now apply str_eqb_spec).
  unfold currents, desired, confirms. rewrite !accept_pre by (cbn; tauto). unfold preconditions. rewrite !read_app.
  change (fun c => is_qos (cu_type c)) with (fun c => str_eqb (cu_type c) (lit "qos")). change (fun d => is_qos (de_type d)) with (fun d => str_eqb (de_type d) (lit "qos")). fold (quality cu_type (read_all (lit "curr") p_curr (md_attrs m))) (quality de_type (read_all (lit "des") p_des (md_attrs m))) (quality cu_type (read_all (lit "conf") p_curr (md_attrs m))).
  split; [|split].
  - rewrite (other_only _ (lit "curr") (lit "des")), (other_only _ (lit "curr") (lit "conf")) by reflexivity. rewrite !app_nil_r.
    rewrite (read_map _ _ (lit "curr") p_curr (fun c => curr_text (answer_curr o c)) (answer_curr o)) by (intros c Hc; unfold answer_curr; rewrite (QC c _ Hc); apply curr_back).
    apply forall2_map. intros c Hc. unfold current_reply, answer_curr. cbn [cu_type cu_status cu_dir]. split; [now apply (QC c) in Hc|]. split; [now destruct (cu_status c)|]. destruct (cu_status c); cbn [status_invert]; unfold or_none; try reflexivity. now destruct (cu_dir c).
  - rewrite (other_only _ (lit "des") (lit "curr")), (other_only _ (lit "des") (lit "conf")) by reflexivity. rewrite !app_nil_r, app_nil_l.
    rewrite (read_map _ _ (lit "des") p_des (fun c => des_text (answer_des o c)) (answer_des o)) by (intros c Hc; unfold answer_des; rewrite (QD c _ Hc); apply des_back).
    apply forall2_map. intros c Hc. unfold desired_reply, answer_des. cbn [de_type de_status de_dir de_strength]. split; [now apply (QD c) in Hc|]. split; [now destruct (de_status c)|]. split; [now destruct (de_dir c)|]. destruct (de_strength c), (ao_upgrade o); intuition congruence.
  - rewrite (other_only _ (lit "conf") (lit "curr")), (other_only _ (lit "conf") (lit "des")) by reflexivity. rewrite !app_nil_l.
    rewrite (read_map _ _ (lit "conf") p_curr (fun c => curr_text (answer_conf c)) answer_conf) by (intros c Hc; unfold answer_conf; rewrite (QC c _ Hc); apply curr_back).
    apply forall2_map. intros c Hc. unfold confirm_reply, answer_conf. cbn [cu_type cu_status cu_dir]. split; [now apply (QC c) in Hc|]. split; [now destruct (cu_status c)|now destruct (cu_dir c)].
Qed.
Print Assumptions C151_answer.

Definition quality_offer : session := offer_of [] [stream (lit "audio") 5000 [lit "0"] [lit "curr:QoS local none"; lit "curr:qos remote sendrecv"; lit "des:qos mandatory remote send"; lit "conf:qos remote recv"]].
Example C151_hypotheses_met :
  preconditions_met quality_offer 0 = true
  /\ exists a x, generate_answer as_is quality_offer default_options = Ret (Some a) /\ ss_media a = [x]
     /\ currents x = [mkCurr (lit "qos") Remote PNone; mkCurr (lit "qos") Local PNone] /\ desired x = [mkDes (lit "qos") Mandatory Local PRecv] /\ confirms x = [mkCurr (lit "qos") Local PSend]
     /\ preconditions_met a 0 = false.
Proof. split; [vm_compute; reflexivity|]. do 2 eexists. split; [vm_compute; reflexivity|]. split; [reflexivity|]. split; [vm_compute; reflexivity|]. split; [vm_compute; reflexivity|]. split; vm_compute; reflexivity. Qed.

(** C151, refuted: of two lines about the same status only the first counts, so
    a precondition that a later line meets holds the call up *)
Theorem C151_met_refuted : exists s m, ss_media s = [m] /\ preconditions_met s 0 = false
  /\ forall d, In d (desired m) -> exists c, In c (currents m) /\ about c d /\ covers (cu_dir c) (de_dir d).
Proof.
  exists (offer_of [] [stream (lit "audio") 5000 [lit "0"] [lit "curr:qos local none"; lit "curr:qos local sendrecv"; lit "des:qos mandatory local sendrecv"]]). eexists. split; [reflexivity|]. split; [vm_compute; reflexivity|].
  intros d Hd. exists (mkCurr (lit "qos") Local PBoth). assert (E : d = mkDes (lit "qos") Mandatory Local PBoth) by (vm_compute in Hd; destruct Hd as [<-|[]]; reflexivity). subst d. split; [vm_compute; tauto|]. split; [now split|]. now split.
Qed.
Print Assumptions C151_met_refuted.
