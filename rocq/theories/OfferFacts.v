(** What the values of the attributes of an answer read as. *)
From Coq Require Import Arith NArith Bool String List Lia ZifyBool ZifyN ZifyNat.
Import ListNotations.
From Verif Require Import Base BaseFacts NumFacts TypedFacts Msg SdpCore SdpCoreSpec SdpCoreProofs SdpCoreSound SdpCoreWrite OfferAnswer OfferSpec OfferProofs.
Open Scope N_scope.
Open Scope list_scope.

Definition sound_rtp (r : rtpmap) : Prop :=
  rt_pt r <= 127 /\ text_ok 64 (rt_name r) /\ ~ In 47 (rt_name r) /\ 1 <= rt_rate r <= 1000000000
  /\ match rt_params r with Some p => text_ok 16 p /\ ~ In 47 p | None => True end.
Lemma mem_not : forall c s, mem c s = false <-> ~ In c s.
Proof. exact mem_false. Qed.
Lemma rtp_sound : forall v r, p_rtpmap v = Some r -> sound_rtp r.
Proof.
  intros v r H. unfold p_rtpmap in H. undo H. undo H. destruct (split_on 47 (snd x)) as [|nm [|rate rest]] eqn:S; try discriminate.
  assert (P : forall y, In y (nm :: rate :: rest) -> ~ In 47 y) by (intros y Hy; apply mem_not; apply (split_on_nomem_parts 47 (snd x)); now rewrite S).
  unguard H. undo H. unguard H. repeat match goal with K : sd_text _ _ = true |- _ => apply text_iff in K end. unfold SD_PAYLOAD, SD_CLOCK in *. unfold sound_rtp.
  destruct rest as [|p rest].
  - injection H as <-. cbn. split; [lia|]. split; [assumption|]. split; [apply P; now left|]. split; [lia|exact I].
  - unguard H. injection H as <-. cbn. split; [lia|]. split; [assumption|]. split; [apply P; now left|]. split; [lia|]. split; [now apply text_iff|]. apply P. cbn. tauto.
Qed.
Lemma digits_not : forall n c, c < 48 \/ 57 < c -> ~ In c (print_N n).
Proof. intros n c H K. apply print_N_digits in K. lia. Qed.
Lemma rtp_back : forall r, sound_rtp r -> p_rtpmap (rtp_text r) = Some r.
Proof.
  intros r (A & B & C & D & E). unfold p_rtpmap, rtp_text. rewrite split_once_word by (apply mem_not, digits_not; lia). cbn [bindo fst snd].
  rewrite parse_uint_print by (unfold u8_max; lia). cbn [bindo].
  assert (S : split_on 47 (rt_name r ++ 47 :: print_N (rt_rate r) ++ match rt_params r with Some p => 47 :: p | None => [] end) = rt_name r :: print_N (rt_rate r) :: match rt_params r with Some p => [p] | None => [] end).
  { rewrite split_on_app by now apply mem_not. f_equal. destruct (rt_params r) as [p|].
    - rewrite split_on_app by (apply mem_not, digits_not; lia). f_equal. apply split_on_nomem. now apply mem_not.
    - rewrite app_nil_r. apply split_on_nomem, mem_not, digits_not. lia. }
  rewrite S. rewrite guard_true by (apply andb_true_iff; split; [unfold SD_PAYLOAD; lia|now apply text_iff]). cbn [bindo]. rewrite parse_uint_print by (unfold u32_max; lia). cbn [bindo]. rewrite guard_true by (unfold SD_CLOCK; lia). cbn [bindo].
  destruct r as [n nm rt [p|]]; cbn [rt_params rt_pt rt_name rt_rate] in *; [|reflexivity]. rewrite guard_true by (apply text_iff; exact (proj1 E)). reflexivity.
Qed.
Lemma offers_sound : forall m f r, offers m f r -> sound_rtp r /\ key r = f.
Proof.
  intros m f r [(a & v & b & _ & P & K & _)|(_ & _ & n & name & H & ->)]; [split; [now apply (rtp_sound v)|exact K]|].
  unfold well_known in H. cbn [In] in H. repeat destruct H as [H|H]; try contradiction; apply pair_equal_spec in H as (<- & H); apply pair_equal_spec in H as (<- & <-); (split; [|reflexivity]);
  (split; [cbn; lia|]; split; [apply text_iff; vm_compute; reflexivity|]; split; [cbn; intros K; repeat destruct K as [K|K]; try discriminate K; contradiction|]; split; [cbn; lia|exact I]).
Qed.

(** ** The attributes of an accepted stream *)
Lemma codec_reads : forall m com, (forall p, In p com -> sound_rtp (snd p)) -> read_all (lit "rtpmap") p_rtpmap (codec_attrs m com) = map snd com.
Proof.
  intros m. induction com as [|p com IH]; intros H; [reflexivity|]. unfold codec_attrs. cbn [flat_map]. fold (codec_attrs m com). rewrite read_app, IH by (intros q Hq; apply H; now right). change (map snd (p :: com)) with ([snd p] ++ map snd com). f_equal.
  cbn [read_all]. change (str_eqb (lit "rtpmap") (lit "rtpmap")) with true. cbv iota. rewrite rtp_back by (apply H; now left). f_equal. apply read_none. intros a Ha. apply in_map_iff in Ha as (v & <- & _). discriminate.
Qed.
Lemma pre_names : forall o m a, In a (preconditions o m) -> (fst a = lit "curr" \/ fst a = lit "des" \/ fst a = lit "conf") /\ snd a <> None.
Proof.
  intros o m a H. unfold preconditions in H. apply in_app_or in H as [H|H]; [|apply in_app_or in H as [H|H]]; apply in_map_iff in H as (c & <- & _); (split; [cbn; tauto|discriminate]).
Qed.
Lemma dir_back : forall d, dir_parse (dir_text d) = Some d.
Proof. now intros []. Qed.
Lemma dir_names : forall d, ~ In (dir_text d) [lit "rtpmap"; lit "fmtp"; lit "curr"; lit "des"; lit "conf"; lit "mid"; lit "rtcp"; lit "sqn"; lit "cdsc"; lit "cpar"; lit "cparmin"; lit "cparmax"].
Proof. intros d H. cbn [In] in H. destruct d; repeat destruct H as [H|H]; try contradiction; vm_compute in H; discriminate. Qed.
Lemma codec_valued : forall m com a, In a (codec_attrs m com) ->
  (exists p, In p com /\ a = (lit "rtpmap", Some (rtp_text (snd p)))) \/ (exists p v, In p com /\ fmtp_of m (fst p) = Some v /\ a = (lit "fmtp", Some v)).
Proof.
  intros m com a H. unfold codec_attrs in H. apply in_flat_map in H as (p & Hp & H). destruct H as [<-|H]; [left; now exists p|]. right. apply in_map_iff in H as (v & <- & Hv). exists p, v. split; [exact Hp|]. split; [|reflexivity]. unfold opt_list in Hv. destruct (fmtp_of m (fst p)); cbn in Hv; [destruct Hv as [->|[]]; reflexivity|destruct Hv].
Qed.
Lemma find_dir_app : forall a b, (forall x, In x a -> snd x <> None) -> find_dir (a ++ b) = find_dir b.
Proof. induction a as [|(n, [v|]) a IH]; intros b H; [reflexivity|apply IH; intros x Hx; apply H; now right|]. exfalso. apply (H (n, None)); [now left|reflexivity]. Qed.
Lemma accept_dir : forall o m port com, media_dir (accept o m port com) = wanted o m.
Proof.
  intros o m port com. unfold media_dir at 1, accept. cbn [md_attrs]. rewrite find_dir_app.
  - cbn [find_dir]. rewrite dir_back. unfold wanted. destruct (ao_override o); [reflexivity|]. now destruct (media_dir m).
  - intros a H. apply codec_valued in H as [(p & _ & ->)|(p & v & _ & _ & ->)]; discriminate.
Qed.
Lemma accept_reads : forall o m port com, (forall p, In p com -> sound_rtp (snd p)) -> read_all (lit "rtpmap") p_rtpmap (md_attrs (accept o m port com)) = map snd com.
Proof.
  intros o m port com H. unfold accept. cbn [md_attrs]. rewrite read_app, codec_reads by exact H. rewrite read_none; [apply app_nil_r|]. intros a [<-|Ha].
  - cbn [fst]. intros K. apply (dir_names (match ao_override o with Some d => d | None => mirror (media_dir m) end)). rewrite K. now left.
  - apply pre_names in Ha as ([K|[K|K]] & _); rewrite K; discriminate.
Qed.
Lemma accept_offers : forall o m port com f r, (forall p, In p com -> sound_rtp (snd p) /\ key (snd p) = fst p) -> NoDup (map fst com) -> offers (accept o m port com) f r <-> In (f, r) com.
Proof.
  intros o m port com f r H ND. unfold offers. rewrite mapped_iff, unmapped_iff, accept_reads by (intros p Hp; now apply H). change (md_fmt (accept o m port com)) with (map fst com). split.
  - intros [(a & b & E & K & L)|(N & I & _)].
    + assert (X : In r (map snd com)) by (rewrite E; apply in_or_app; right; now left). apply in_map_iff in X as ((g, q) & Q & Hq). cbn in Q. subst q. destruct (H _ Hq) as (_ & KK). cbn [fst snd] in KK. rewrite K in KK. now subst g.
    + exfalso. apply in_map_iff in I as ((g, q) & Q & Hq). cbn in Q. subst g. apply (N q); [apply in_map_iff; now exists (f, q)|]. apply (H _ Hq).
  - intros Hr. left. apply in_split in Hr as (a & b & ->). exists (map snd a), (map snd b). rewrite map_app. split; [reflexivity|]. split; [apply (H (f, r)); apply in_or_app; right; now left|].
    intros y Hy K. apply in_map_iff in Hy as ((g, q) & Q & Hq). cbn in Q. subst q. rewrite map_app in ND. cbn [map fst] in ND. apply NoDup_remove_2 in ND. apply ND. apply in_or_app. right. apply in_map_iff. exists (g, y). split; [|exact Hq].
    cbn. destruct (H (g, y)) as (_ & KK); [apply in_or_app; right; now right|]. cbn [fst snd] in KK. congruence.
Qed.
Lemma fmtp_first : forall m f v, fmtp_of m f = Some v <-> first_fmtp m f v.
Proof.
  intros m f v. unfold fmtp_of, first_fmtp. set (p := fun v0 : str => _). 
  assert (P : forall w y, p w = Some y <-> y = w /\ exists q, p_fmtp w = Some (f, q)).
  { intros w y. unfold p. destruct (p_fmtp w) as [(g, q)|]; cbn [bindo fst]; [|split; [discriminate|intros (_ & q & K); discriminate]]. destruct (str_eqb g f) eqn:E; cbn [guard bindo].
    - apply str_eqb_spec in E. subst g. split; [intros [= ->]; split; [reflexivity|now exists q]|intros (-> & _); reflexivity].
    - apply str_eqb_neq in E. split; [discriminate|]. intros (_ & q' & [= K _]). contradiction. }
  split.
  - intros H. destruct (read_all (lit "fmtp") p (md_attrs m)) as [|y l] eqn:E; [discriminate|]. cbn in H. injection H as ->.
    assert (G : forall l, read_all (lit "fmtp") p l <> [] -> forall y r, read_all (lit "fmtp") p l = y :: r -> exists a w b, l = a ++ (lit "fmtp", Some w) :: b /\ p w = Some y /\ read_all (lit "fmtp") p a = []).
    { clear. induction l as [|(n, [w|]) l IH]; intros N y r E; cbn [read_all] in *; [discriminate| |].
      - destruct (str_eqb n (lit "fmtp")) eqn:S.
        + apply str_eqb_spec in S. subst n. destruct (p w) as [z|] eqn:P.
          * injection E as -> <-. exists [], w, l. now repeat split.
          * destruct (IH N y r E) as (a & w' & b & -> & Q1 & Q2). exists ((lit "fmtp", Some w) :: a), w', b. split; [reflexivity|]. split; [exact Q1|]. cbn [read_all]. change (str_eqb (lit "fmtp") (lit "fmtp")) with true. cbv iota. now rewrite P.
        + destruct (IH N y r E) as (a & w' & b & -> & Q1 & Q2). exists ((n, Some w) :: a), w', b. split; [reflexivity|]. split; [exact Q1|]. cbn [read_all]. now rewrite S.
      - destruct (IH N y r E) as (a & w' & b & -> & Q1 & Q2). exists ((n, None) :: a), w', b. now repeat split. }
    destruct (G _ ltac:(now rewrite E) v l E) as (a & w & b & Q1 & Q2 & Q3). apply P in Q2 as (-> & q & Q2). exists a, b, q. split; [exact Q1|]. split; [exact Q2|]. intros u q' Hu K. assert (X : In u (read_all (lit "fmtp") p a)) by (apply read_in; exists u; split; [exact Hu|]; apply P; split; [reflexivity|now exists q']). rewrite Q3 in X. destruct X.
  - intros (a & b & q & -> & Q1 & Q2). rewrite read_app. cbn [read_all]. change (str_eqb (lit "fmtp") (lit "fmtp")) with true. cbv iota. assert (X : p v = Some v) by (apply P; split; [reflexivity|now exists q]). rewrite X.
    destruct (read_all (lit "fmtp") p a) as [|y l] eqn:E; [reflexivity|]. exfalso. assert (Y : In y (read_all (lit "fmtp") p a)) by (rewrite E; now left). apply read_in in Y as (w & Y1 & Y2). apply P in Y2 as (-> & q' & Y2). now apply (Q2 w q').
Qed.
Lemma accept_answers : forall ords k o m port cs, any_order ords -> keeps_unique ords -> supported o m = Some cs -> (exists f r, common o m f r) -> answers o m (accept o m port (chosen (ords k) cs m)).
Proof.
  intros ords k o m port cs O U S (f0 & r0 & C0). pose proof (chosen_iff ords k o m cs O S) as CI. pose proof (chosen_nodup ords k cs m U) as ND. set (com := chosen (ords k) cs m) in *.
  assert (FI : forall f, In f (map fst com) <-> exists r, common o m f r).
  { intros f. rewrite in_map_iff. split; [intros ((g, r) & E & H); cbn in E; subst g; exists r; now apply CI|intros (r & H); exists (f, r); split; [reflexivity|now apply CI]]. }
  unfold answers. change (md_fmt (accept o m port com)) with (map fst com). split; [intros E; assert (X : In f0 (map fst com)) by (apply FI; now exists r0); rewrite E in X; destruct X|]. split; [exact ND|]. split; [exact FI|]. split; [|split; [|split; [apply accept_dir|reflexivity]]].
  - intros f r. rewrite accept_offers; [apply CI| |exact ND]. intros (g, q) H. cbn [fst snd]. apply CI in H as (H & _). now apply (offers_sound m).
  - intros v. unfold accept. cbn [md_attrs]. split.
    + intros H. apply in_app_or in H as [H|[H|H]].
      * apply codec_valued in H as [(p & _ & H)|(p & w & Hp & F & H)]; [discriminate|]. apply pair_equal_spec in H as (_ & [= ->]). exists (fst p). split; [now apply in_map|now apply fmtp_first].
      * discriminate.
      * apply pre_names in H as ([K|[K|K]] & _); discriminate.
    + intros (f & Hf & F). apply in_or_app. left. apply in_map_iff in Hf as (p & <- & Hp). apply in_flat_map. exists p. split; [exact Hp|]. right. apply in_map_iff. exists v. split; [reflexivity|]. apply fmtp_first in F. rewrite F. now left.
Qed.
Lemma answer_spec : forall ords offer o a, any_order ords -> keeps_unique ords -> generate_answer ords offer o = Ret (Some a) ->
  answer_loop ords o 0 (ao_port o) (ss_media offer) = Ret (ss_media a) /\ List.length (ss_media a) = List.length (ss_media offer)
  /\ forall k m, nth_error (ss_media offer) k = Some m -> exists x, nth_error (ss_media a) k = Some x /\
       ((taken o k m /\ exists cs, supported o m = Some cs /\ x = accept o m (ao_port o + 2 * trues (firstn k (flags ords o 0 (ss_media offer)))) (chosen (ords k) cs m)) \/ (~ taken o k m /\ x = rejected m)).
Proof.
  intros ords offer o a O U H. unfold generate_answer in H. destruct (20 <? llen (ss_media offer)); [discriminate|]. destruct (answer_loop ords o 0 (ao_port o) (ss_media offer)) as [ms|] eqn:L; [|discriminate]. injection H as <-. cbn [ss_media]. split; [reflexivity|]. destruct (loop_spec _ _ _ _ _ _ L) as (A & B). split; [exact A|].
  intros k m Hm. destruct (B k m Hm) as (x & X1 & X2). exists x. split; [exact X1|]. cbn [plus] in X2. destruct (flag ords o k m) eqn:F.
  - left. assert (T : taken o k m) by (now apply (flag_taken ords)). split; [exact T|]. pose proof (negotiate_spec ords k o m (ao_port o + 2 * trues (firstn k (flags ords o 0 (ss_media offer)))) O) as N. rewrite X2 in N. exact (proj2 N).
  - right. split; [|exact X2]. intros T. apply (flag_taken ords o k m O) in T. congruence.
Qed.
Lemma flags_nth : forall ords o ms k i m, nth_error ms i = Some m -> nth_error (flags ords o k ms) i = Some (flag ords o (k + i) m).
Proof. intros ords o. induction ms as [|m ms IH]; intros k [|i] m0 H; try discriminate; cbn [flags nth_error] in *; [injection H as ->; now rewrite Nat.add_0_r|]. rewrite (IH (S k) i m0 H). now rewrite Nat.add_succ_r. Qed.
Lemma flags_len : forall ords o ms k, List.length (flags ords o k ms) = List.length ms.
Proof. intros ords o. induction ms as [|m ms IH]; intros k; [reflexivity|]. cbn. now rewrite IH. Qed.
Lemma trues_app : forall a b, trues (a ++ b) = trues a + trues b.
Proof. intros a b. unfold trues. rewrite filter_app, app_length. lia. Qed.
Lemma trues_step : forall l i, nth_error l i = Some true -> trues (firstn (S i) l) = trues (firstn i l) + 1.
Proof. induction l as [|b l IH]; intros [|i] H; try discriminate; cbn [nth_error] in H; [injection H as ->; reflexivity|]. change (firstn (S (S i)) (b :: l)) with (b :: firstn (S i) l). change (firstn (S i) (b :: l)) with (b :: firstn i l). rewrite !trues_cons, (IH i H). lia. Qed.
Lemma trues_mono : forall l i j, (i <= j)%nat -> trues (firstn i l) <= trues (firstn j l).
Proof. induction l as [|b l IH]; intros [|i] [|j] H; try lia; cbn [firstn]; try (change (trues []) with 0; lia). rewrite !trues_cons. specialize (IH i j). lia. Qed.
Lemma trues_all : forall l i, trues (firstn i l) <= trues l.
Proof. intros l i. rewrite <- (firstn_skipn i l) at 2. rewrite trues_app. lia. Qed.
