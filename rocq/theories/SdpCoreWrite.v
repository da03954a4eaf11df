(** What [SdpSession::parse] gives is sound. *)
From Coq Require Import Arith NArith Bool String List Lia ZifyBool ZifyN ZifyNat.
Import ListNotations.
From Verif Require Import Base BaseFacts NumFacts TypedFacts SdpCore SdpCoreSpec SdpCoreProofs SdpCoreRead SdpCoreSound.
Open Scope N_scope.
Open Scope list_scope.

Lemma bindo_some : forall A B (o : option A) (f : A -> option B) b, bindo o f = Some b -> exists a, o = Some a /\ f a = Some b.
Proof. intros A B [a|] f b H; [|discriminate]. now exists a. Qed.
Lemma guard_some : forall b u, guard b = Some u -> b = true.
Proof. now intros [] u. Qed.
Ltac undo H := let a := fresh "x" in let E := fresh "E" in apply bindo_some in H as (a & E & H).
Ltac unguard H := let a := fresh "x" in let E := fresh "G" in apply bindo_some in H as (a & E & H); apply guard_some in E; clear a; repeat match goal with K : _ && _ = true |- _ => apply andb_true_iff in K as (? & ?) end.
Lemma sized_some : forall A mx (l l' : list A), sized mx l = Some l' -> l' = l /\ llen l <= mx.
Proof. intros A mx l l' H. unfold sized in H. unguard H. injection H as <-. split; [reflexivity|lia]. Qed.
Lemma wordy : forall mx w, wordlike w -> sd_text mx w = true -> word_ok mx w.
Proof. intros mx w (A & B) C. apply text_iff in C. now split. Qed.
Lemma wordys : forall mx ws, (forall w, In w ws -> wordlike w) -> forallb (sd_text mx) ws = true -> Forall (word_ok mx) ws.
Proof. intros mx ws A B. apply Forall_forall. rewrite forallb_forall in B. intros w Hw. apply wordy; [now apply A|now apply B]. Qed.
Lemma origin_sound : forall v o, p_origin v = Some o -> sound_origin o.
Proof.
  intros v o H. unfold p_origin in H. pose proof (fun w Hw => proj1 (ws_part v w Hw)) as W. destruct (split_ws v) as [|a [|b [|c [|d [|e [|f [|]]]]]]]; try discriminate. unguard H. injection H as <-.
  cbn [In] in W. unfold sound_origin. cbn [og_user og_id og_version og_net og_type og_addr]. split; [|split; [|split; [|split; [|split]]]]; (apply wordy; [apply W; tauto|assumption]).
Qed.
Lemma conn_sound : forall v o, p_conn v = Some o -> sound_conn o.
Proof.
  intros v o H. unfold p_conn in H. pose proof (fun w Hw => proj1 (ws_part v w Hw)) as W. destruct (split_ws v) as [|a [|b [|c [|]]]]; try discriminate. unguard H. injection H as <-.
  cbn [In] in W. unfold sound_conn. cbn [cn_net cn_type cn_addr]. split; [|split]; (apply wordy; [apply W; tauto|assumption]).
Qed.
Lemma bw_sound : forall v b, p_bw v = Some b -> sound_bw b.
Proof.
  intros v b H. unfold p_bw in H. pose proof (split_on_nomem_parts 58 v) as W. destruct (split_on 58 v) as [|a [|c [|]]]; try discriminate. unguard H. undo H. unguard H. injection H as <-. unfold sound_bw. cbn [bw_type bw_value]. split; [|split].
  - now apply text_iff.
  - apply mem_false. apply W. now left.
  - unfold SD_BW_VALUE in *. lia.
Qed.
Lemma timing_sound : forall v t, p_timing v = Some t -> sound_timing t.
Proof. intros v t H. unfold p_timing in H. destruct (split_ws v) as [|a [|b [|]]]; try discriminate. undo H. undo H. injection H as <-. split; cbn [fst snd]; eapply parse_uint_range; eassumption. Qed.
Lemma most_of : forall A k (l : list A), llen l <= N.of_nat k -> at_most k l.
Proof. intros A k l H. unfold at_most, llen in *. lia. Qed.
Lemma repeat_sound : forall v r, p_repeat v = Some r -> sound_repeat r.
Proof.
  intros v r H. unfold p_repeat in H. pose proof (fun w Hw => proj1 (ws_part v w Hw)) as W. destruct (split_ws v) as [|a [|b [|o os]]]; try discriminate. unguard H. injection H as <-. unfold sound_repeat. cbn [rp_interval rp_duration rp_offsets].
  split; [|split; [|split; [|split]]].
  - apply wordy; [apply W; now left|assumption].
  - apply wordy; [apply W; right; now left|assumption].
  - discriminate.
  - apply most_of. unfold SD_OFFSETS in *. lia.
  - apply wordys; [|assumption]. intros w Hw. apply W. right. now right.
Qed.
Lemma zone_list_sound : forall n ws zs, (List.length ws <= n)%nat -> (forall w, In w ws -> wordlike w) -> p_zone_list ws = Some zs -> Forall sound_zone zs.
Proof.
  induction n as [|n IH]; intros ws zs L W H.
  - destruct ws; [|cbn in L; lia]. injection H as <-. constructor.
  - destruct ws as [|a [|b r]]; [injection H as <-; constructor|discriminate|]. cbn [p_zone_list] in H. undo H. unguard H. undo H. injection H as <-. constructor.
    + split; cbn [fst snd]; [eapply parse_uint_range; eassumption|]. apply wordy; [apply W; right; now left|assumption].
    + apply (IH r); [cbn [List.length] in L; lia| |assumption]. intros w Hw. apply W. right. now right.
Qed.
Lemma zones_sound : forall v zs, p_zones v = Some zs -> Forall sound_zone zs.
Proof. intros v zs H. unfold p_zones in H. undo H. unguard H. injection H as <-. eapply zone_list_sound; [apply Nat.le_refl| |eassumption]. intros w Hw. now apply (ws_part v). Qed.
Lemma pair_sound : forall mn mv v p, p_pair mn mv v = Some p -> text_ok mn (fst p) /\ ~ In 58 (fst p) /\ opt_ok (text_ok mv) (snd p).
Proof.
  intros mn mv v p H. unfold p_pair in H. destruct (split_once 58 v) as [(a, b)|] eqn:S.
  - unguard H. injection H as <-. cbn [fst snd]. apply split_once_some in S as (_ & S). split; [now apply text_iff|]. split; [now apply mem_false|]. intros x [= <-]. now apply text_iff.
  - unguard H. injection H as <-. cbn [fst snd]. apply split_once_none in S. split; [now apply text_iff|]. split; [now apply mem_false|]. discriminate.
Qed.
Lemma key_sound : forall v k, p_key v = Some k -> sound_key k.
Proof. intros v k H. now apply pair_sound in H. Qed.
Lemma attr_sound : forall v k, p_attr v = Some k -> sound_attr k.
Proof. intros v k H. now apply pair_sound in H. Qed.

(** ** The session lines *)
Definition body_fine (b : body) : Prop :=
  opt_ok (text_ok 2048) (bd_info b) /\ opt_ok (text_ok 2048) (bd_uri b)
  /\ (at_most 10 (bd_emails b) /\ Forall (text_ok 320) (bd_emails b)) /\ (at_most 10 (bd_phones b) /\ Forall (text_ok 32) (bd_phones b))
  /\ opt_ok sound_conn (bd_conn b) /\ (at_most 20 (bd_bw b) /\ Forall sound_bw (bd_bw b))
  /\ (at_most 10 (bd_timing b) /\ Forall sound_timing (bd_timing b))
  /\ (at_most 10 (bd_repeats b) /\ Forall sound_repeat (bd_repeats b)) /\ Forall sound_zone (bd_zones b) /\ opt_ok sound_key (bd_key b)
  /\ (at_most 100 (bd_attrs b) /\ Forall sound_attr (bd_attrs b)).
Lemma opt_some : forall A (P : A -> Prop) a, P a -> opt_ok P (Some a).
Proof. intros A P a H x [= <-]. exact H. Qed.
Lemma sized_snoc : forall A (P : A -> Prop) k mx (l l' : list A) x, sized mx (l ++ [x]) = Some l' -> mx = N.of_nat k -> Forall P l -> P x -> at_most k l' /\ Forall P l'.
Proof.
  intros A P k mx l l' x H -> F X. apply sized_some in H as (-> & H). split; [now apply most_of|]. apply Forall_app. split; [exact F|]. constructor; [exact X|constructor].
Qed.
Lemma body_line_fine : forall after c v b r, body_fine b -> body_line after c v b = Some r -> body_fine (snd r).
Proof.
  intros after c v b r B H. unfold body_line in H. pose proof B as (B1 & B2 & (B3 & B3') & (B4 & B4') & B5 & (B6 & B6') & (B7 & B7') & (B8 & B8') & B9 & B10 & (B11 & B11')).
  destruct (c =? 105); [unguard H; injection H as <-; cbn [snd]; destruct B as (_ & B); split; [apply opt_some, text_iff; assumption|exact B]|].
  destruct (c =? 117); [unguard H; injection H as <-; cbn [snd]; destruct B as (? & _ & B); split; [assumption|]; split; [apply opt_some, text_iff; assumption|exact B]|].
  destruct (c =? 101); [unguard H; undo H; injection H as <-; cbn [snd]; destruct B as (? & ? & _ & B); split; [assumption|]; split; [assumption|]; split; [eapply sized_snoc; [eassumption|reflexivity|assumption|apply text_iff; assumption]|exact B]|].
  destruct (c =? 112); [unguard H; undo H; injection H as <-; cbn [snd]; destruct B as (? & ? & ? & _ & B); do 3 (split; [assumption|]); split; [eapply sized_snoc; [eassumption|reflexivity|assumption|apply text_iff; assumption]|exact B]|].
  destruct (c =? 99); [undo H; injection H as <-; cbn [snd]; destruct B as (? & ? & ? & ? & _ & B); do 4 (split; [assumption|]); split; [apply opt_some; eapply conn_sound; eassumption|exact B]|].
  destruct (c =? 98); [undo H; undo H; injection H as <-; cbn [snd]; destruct B as (? & ? & ? & ? & ? & _ & B); do 5 (split; [assumption|]); split; [eapply sized_snoc; [eassumption|reflexivity|assumption|eapply bw_sound; eassumption]|exact B]|].
  destruct (c =? 116); [undo H; undo H; injection H as <-; cbn [snd]; destruct B as (? & ? & ? & ? & ? & ? & _ & B); do 6 (split; [assumption|]); split; [eapply sized_snoc; [eassumption|reflexivity|assumption|eapply timing_sound; eassumption]|exact B]|].
  destruct (c =? 114); [unguard H; undo H; undo H; injection H as <-; cbn [snd]; destruct B as (? & ? & ? & ? & ? & ? & ? & _ & B); do 7 (split; [assumption|]); split; [eapply sized_snoc; [eassumption|reflexivity|assumption|eapply repeat_sound; eassumption]|exact B]|].
  destruct (c =? 122); [undo H; injection H as <-; cbn [snd]; destruct B as (? & ? & ? & ? & ? & ? & ? & ? & _ & B); do 8 (split; [assumption|]); split; [apply Forall_app; split; [assumption|eapply zones_sound; eassumption]|exact B]|].
  destruct (c =? 107); [undo H; injection H as <-; cbn [snd]; destruct B as (? & ? & ? & ? & ? & ? & ? & ? & ? & _ & B); do 9 (split; [assumption|]); split; [apply opt_some; eapply key_sound; eassumption|exact B]|].
  destruct (c =? 97); [undo H; undo H; injection H as <-; cbn [snd]; destruct B as (? & ? & ? & ? & ? & ? & ? & ? & ? & ? & B); do 10 (split; [assumption|]); eapply sized_snoc; [eassumption|reflexivity|assumption|eapply attr_sound; eassumption]|].
  injection H as <-. exact B.
Qed.
Lemma loop_cases : forall after l r b x, body_loop after (l :: r) b = Some x -> exists c v, l = c :: 61 :: v.
Proof.
  intros after l r b x H. destruct l as [|c [|e v]]; try discriminate. destruct (N.eq_dec e 61) as [->|NE]; [now exists c, v|]. exfalso. cbn [body_loop] in H.
  destruct e as [|p]; [discriminate|]. repeat (destruct p as [p|p|]; try discriminate). now apply NE.
Qed.
Lemma body_loop_fine : forall ls after b r, body_fine b -> body_loop after ls b = Some r -> body_fine (fst r).
Proof.
  induction ls as [|l ls IH]; intros after b r B H; [injection H as <-; exact B|]. destruct (loop_cases _ _ _ _ _ H) as (c & v & ->). cbn [body_loop] in H. destruct (c =? 109); [injection H as <-; exact B|]. undo H. apply body_line_fine in E; [|exact B]. now apply IH in H.
Qed.

(** ** The media *)
Definition media_fine (m : media) : Prop :=
  (word_ok 32 (md_type m) /\ md_port m <= 65535 /\ opt_ok (fun c => c <= 65535) (md_count m) /\ word_ok 64 (md_proto m)
   /\ md_fmt m <> [] /\ at_most 128 (md_fmt m) /\ Forall (word_ok 16) (md_fmt m))
  /\ opt_ok (text_ok 2048) (md_title m) /\ opt_ok sound_conn (md_conn m) /\ (at_most 20 (md_bw m) /\ Forall sound_bw (md_bw m)) /\ opt_ok sound_key (md_key m)
  /\ (at_most 100 (md_attrs m) /\ Forall sound_attr (md_attrs m)).
Lemma opt_none : forall A (P : A -> Prop), opt_ok P None.
Proof. discriminate. Qed.
Lemma media_fine_start : forall v m, p_media v = Some m -> media_fine m.
Proof.
  intros v m H. unfold p_media in H. pose proof (fun w Hw => proj1 (ws_part v w Hw)) as W. destruct (split_ws v) as [|a [|p [|pr [|f fs]]]]; try discriminate. unguard H. undo H. unguard H. injection H as <-.
  assert (K : fst x <= 65535 /\ opt_ok (fun c => c <= 65535) (snd x)).
  { destruct (split_on 47 p) as [|y [|z r]]; try discriminate.
    - undo E. injection E as <-. apply parse_uint_range in E0. split; [exact E0|apply opt_none].
    - undo E. undo E. injection E as <-. apply parse_uint_range in E0. apply parse_uint_range in E1. split; [exact E0|now apply opt_some]. }
  unfold media_fine. cbn [md_type md_port md_count md_proto md_fmt md_title md_conn md_bw md_key md_attrs]. split.
  - split; [apply wordy; [apply W; now left|assumption]|]. split; [exact (proj1 K)|]. split; [exact (proj2 K)|]. split; [apply wordy; [apply W; right; right; now left|assumption]|]. split; [discriminate|]. split; [apply most_of; unfold SD_FORMATS in *; lia|]. apply wordys; [|assumption]. intros w Hw. apply W. right. right. now right.
  - split; [apply opt_none|]. split; [apply opt_none|]. split; [split; [unfold at_most; cbn; lia|constructor]|]. split; [apply opt_none|]. split; [unfold at_most; cbn; lia|constructor].
Qed.
Lemma media_line_fine : forall c v m m', media_fine m -> media_line c v m = Some m' -> media_fine m'.
Proof.
  intros c v m m' B H. unfold media_line in H. pose proof B as (B1 & B2 & B3 & (B4 & B4') & B5 & (B6 & B6')).
  destruct (c =? 105); [unguard H; injection H as <-; destruct B as (? & _ & B); split; [assumption|]; split; [apply opt_some, text_iff; assumption|exact B]|].
  destruct (c =? 99); [undo H; injection H as <-; destruct B as (? & ? & _ & B); do 2 (split; [assumption|]); split; [apply opt_some; eapply conn_sound; eassumption|exact B]|].
  destruct (c =? 98); [undo H; undo H; injection H as <-; destruct B as (? & ? & ? & _ & B); do 3 (split; [assumption|]); split; [eapply sized_snoc; [eassumption|reflexivity|assumption|eapply bw_sound; eassumption]|exact B]|].
  destruct (c =? 107); [undo H; injection H as <-; destruct B as (? & ? & ? & ? & _ & B); do 4 (split; [assumption|]); split; [apply opt_some; eapply key_sound; eassumption|exact B]|].
  destruct (c =? 97); [undo H; undo H; injection H as <-; destruct B as (? & ? & ? & ? & ? & B); do 5 (split; [assumption|]); eapply sized_snoc; [eassumption|reflexivity|assumption|eapply attr_sound; eassumption]|].
  discriminate.
Qed.
Lemma mloop_cases : forall l r m x, media_loop (l :: r) m = Some x -> exists c v, l = c :: 61 :: v.
Proof.
  intros l r b x H. destruct l as [|c [|e v]]; try discriminate. destruct (N.eq_dec e 61) as [->|NE]; [now exists c, v|]. exfalso. cbn [media_loop] in H.
  destruct e as [|p]; [discriminate|]. repeat (destruct p as [p|p|]; try discriminate). now apply NE.
Qed.
Lemma media_loop_fine : forall ls m ms, media_fine m -> media_loop ls m = Some ms -> Forall media_fine ms.
Proof.
  induction ls as [|l ls IH]; intros m ms B H; [injection H as <-; constructor; [exact B|constructor]|]. destruct (mloop_cases _ _ _ _ H) as (c & v & ->). cbn [media_loop] in H. destruct (c =? 109).
  - undo H. undo H. injection H as <-. constructor; [exact B|]. apply media_fine_start in E. now apply IH in E0.
  - undo H. apply media_line_fine in E; [|exact B]. now apply IH in H.
Qed.
Lemma media_list_fine : forall ls ms, media_list ls = Some ms -> Forall media_fine ms /\ at_most 50 ms.
Proof.
  intros ls ms H. destruct ls as [|l ls]; [injection H as <-; split; [constructor|unfold at_most; cbn; lia]|]. unfold media_list in H. destruct l as [|c [|e v]]; [discriminate|destruct c as [|p]; [discriminate|]; repeat (destruct p as [p|p|]; try discriminate)|].
  assert (X : (m <- p_media v ;; ms0 <- media_loop ls m ;; sized SD_MEDIAS ms0) = Some ms).
  { destruct c as [|p]; [discriminate|]. repeat (destruct p as [p|p|]; try discriminate). destruct e as [|p]; [discriminate|]. repeat (destruct p as [p|p|]; try discriminate). exact H. }
  clear H. undo X. undo X. apply sized_some in X as (-> & X). split; [|now apply most_of]. apply media_fine_start in E. now apply media_loop_fine in E0.
Qed.

(** ** The fields of their own *)
Lemma semantics_sound : forall a, word_ok 128 a -> word_ok 128 (semantics a) /\ semantics (semantics a) = semantics a.
Proof.
  intros a H. unfold semantics at 1 3 4. cbv zeta. destruct (_ || _) eqn:E.
  - assert (K : flat_map up_c a = lit "LS" \/ flat_map up_c a = lit "FID" \/ flat_map up_c a = lit "SRF").
    { apply orb_true_iff in E as [E|E]; [apply orb_true_iff in E as [E|E]|]; apply str_eqb_spec in E; tauto. }
    assert (W : forall w, w = lit "LS" \/ w = lit "FID" \/ w = lit "SRF" -> word_ok 128 w /\ semantics w = w).
    { intros w [-> | [-> | ->]]; (split; [|reflexivity]); (apply wordy; [split; [discriminate|]; intros c Hc; cbn in Hc; repeat destruct Hc as [<-|Hc]; try reflexivity; contradiction|vm_compute; reflexivity]). }
    apply W. exact K.
  - split; [exact H|]. unfold semantics. cbv zeta. now rewrite E.
Qed.
Lemma group_sound : forall v g, p_group v = Some g -> sound_group g.
Proof.
  intros v g H. unfold p_group in H. pose proof (fun w Hw => proj1 (ws_part v w Hw)) as W. destruct (split_ws v) as [|a [|m ms]]; try discriminate. unguard H. injection H as <-. unfold sound_group. cbn [fst snd].
  assert (A : word_ok 128 a) by (apply wordy; [apply W; now left|assumption]). apply semantics_sound in A as (A1 & A2). split; [exact A1|]. split; [exact A2|]. split; [discriminate|]. split; [apply most_of; unfold SD_MIDS in *; lia|]. apply wordys; [|assumption]. intros w Hw. apply W. now right.
Qed.
Lemma cdsc_sound : forall v d, p_cdsc v = Some d -> sound_cdsc d.
Proof.
  intros v d H. unfold p_cdsc in H. pose proof (fun w Hw => proj1 (ws_part v w Hw)) as W. destruct (split_ws v) as [|a [|b [|c [|f fs]]]]; try discriminate. undo H. unguard H. injection H as <-. apply parse_uint_range in E. unfold sound_cdsc. cbn [cd_num cd_media cd_transport cd_formats].
  split; [unfold u8_max in E; lia|]. split; [apply wordy; [apply W; right; now left|assumption]|]. split; [apply wordy; [apply W; right; right; now left|assumption]|]. split; [discriminate|]. split; [apply most_of; unfold SD_FORMATS in *; lia|]. apply wordys; [|assumption]. intros w Hw. apply W. right. right. now right.
Qed.
Lemma value_bound : forall s acc, all_digits s = true -> fold_left (fun acc c => acc * 10 + (c - 48)) s acc < (acc + 1) * 10 ^ llen s.
Proof.
  induction s as [|c s IH]; intros acc H; cbn [fold_left]; [cbn; lia|]. unfold all_digits in *. cbn [forallb] in H. apply andb_true_iff in H as (A & B). rewrite llen_cons. specialize (IH (acc * 10 + (c - 48)) B). replace (1 + llen s) with (N.succ (llen s)) by lia. rewrite N.pow_succ_r'. unfold is_digit, in_range in A. apply andb_true_iff in A as (A1 & A2). assert (P : 0 < 10 ^ llen s) by (apply N.neq_0_lt_0, N.pow_nonzero; discriminate). nia.
Qed.
Lemma digits_blen : forall s, llen s <= blen s.
Proof. induction s as [|c s IH]; [cbn; lia|]. rewrite llen_cons. cbn [blen]. pose proof (len_pos c). lia. Qed.
Lemma print_shorter : forall mx s n, parse_uint mx s = Some n -> blen (print_N n) <= blen s.
Proof.
  intros mx s n H. unfold parse_uint in H. set (b := match s with c :: r => if c =? 43 then r else s | [] => s end) in H.
  assert (L : blen b <= blen s) by (unfold b; destruct s as [|c r]; [lia|]; destruct (c =? 43); [cbn [blen]; lia|lia]). destruct b as [|c r] eqn:B; [discriminate|]. destruct (all_digits (c :: r)) eqn:D; [|discriminate]. cbv zeta in H. destruct (_ <=? mx); [|discriminate].
  apply (f_equal (fun o => match o with Some x => x | None => 0 end)) in H. rewrite <- H. pose proof (value_bound (c :: r) 0 D) as V. change (fold_left _ (c :: r) 0) with (digits_value (c :: r)) in V.
  pose proof (digits_blen (c :: r)) as P. assert (Q : blen (print_N (digits_value (c :: r))) <= N.of_nat (List.length (c :: r))) by (apply print_N_blen; [unfold llen in V; lia|cbn; lia]). unfold llen in P. lia.
Qed.
Lemma word_part : forall mx v w, text_ok mx v -> In w (split_ws v) -> blen w <= mx -> word_ok mx w.
Proof. intros mx v w (_ & P) H L. destruct (ws_part v w H) as ((A & B) & C). split; [exact A|]. split; [exact B|]. split; [exact L|]. intros c Hc K. apply P; [now apply C|exact K]. Qed.
Lemma rtcp_sound : forall v r, text_ok 4096 v -> p_rtcp v = Some r -> sound_rtcp r.
Proof.
  intros v r T H. unfold p_rtcp in H. pose proof (word_part 4096 v) as W. pose proof (ws_shrinks v) as L. destruct (split_ws v) as [|a [|b [|c [|d [|]]]]]; try discriminate.
  - undo H. injection H as <-. apply parse_uint_range in E. split; [exact E|]. discriminate.
  - undo H. injection H as <-. pose proof (print_shorter _ _ _ E) as P. apply parse_uint_range in E. split; [exact E|]. cbn [rc_port rc_addr]. intros a' b' c' [= <- <- <-].
    specialize (L a [b; c; d] eq_refl). rewrite blen_words, !total_cons, !llen_cons in L. change (total []) with 0 in L. change (llen (@nil str)) with 0 in L. destruct T as (T1 & T2). cbn [In] in W.
    split; [apply W; [now split|tauto|lia]|]. split; [apply W; [now split|tauto|lia]|]. split; [apply W; [now split|tauto|lia]|]. lia.
Qed.
Lemma taken_groups : forall l r, take_groups l = Some r -> Forall sound_group (fst r) /\ (List.length (fst r) + List.length (snd r) <= List.length l)%nat /\ (forall a, In a (snd r) -> In a l) /\ clean [lit "group"] (snd r).
Proof.
  induction l as [|a l IH]; intros r H; cbn [take_groups] in H.
  - injection H as <-. split; [constructor|]. split; [cbn; lia|]. split; intros ? [].
  - undo H. destruct (IH x E) as (A & B & C & D). destruct (str_eqb (fst a) (lit "group")) eqn:S.
    + undo H. undo H. injection H as <-. cbn [fst snd List.length]. split; [constructor; [eapply group_sound; eassumption|exact A]|]. split; [lia|]. split; [intros y Hy; right; now apply C|exact D].
    + injection H as <-. cbn [fst snd List.length]. split; [exact A|]. split; [lia|]. split; [intros y [<-|Hy]; [now left|right; now apply C]|]. intros y [<-|Hy]; [|now apply D]. intros [K|[]]. apply str_eqb_neq in S. congruence.
Qed.
Lemma taken_mid : forall l r, Forall sound_attr l -> take_mid l = Some r -> opt_ok (text_ok 4096) (fst r) /\ (one_if (fst r) + List.length (snd r) <= List.length l)%nat /\ (forall a, In a (snd r) -> In a l) /\ clean [lit "mid"] (snd r).
Proof.
  induction l as [|a l IH]; intros r F H; cbn [take_mid] in H.
  - injection H as <-. split; [apply opt_none|]. split; [cbn; lia|]. split; intros ? [].
  - inversion F as [|? ? F1 F2]; subst. undo H. destruct (IH x F2 E) as (A & B & C & D). destruct (str_eqb (fst a) (lit "mid")) eqn:S.
    + undo H. injection H as <-. cbn [fst snd List.length]. destruct F1 as (_ & _ & F1). split; [destruct (fst x); [exact A|apply opt_some; now apply F1]|]. split; [destruct (fst x); cbn [one_if] in *; lia|]. split; [intros y Hy; right; now apply C|exact D].
    + injection H as <-. cbn [fst snd List.length]. split; [exact A|]. split; [lia|]. split; [intros y [<-|Hy]; [now left|right; now apply C]|]. intros y [<-|Hy]; [|now apply D]. intros [K|[]]. apply str_eqb_neq in S. congruence.
Qed.
Lemma taken_rtcp : forall l r, Forall sound_attr l -> take_rtcp l = Some r -> opt_ok sound_rtcp (fst r) /\ (one_if (fst r) + List.length (snd r) <= List.length l)%nat /\ (forall a, In a (snd r) -> In a l) /\ clean [lit "rtcp"] (snd r).
Proof.
  induction l as [|a l IH]; intros r F H; cbn [take_rtcp] in H.
  - injection H as <-. split; [apply opt_none|]. split; [cbn; lia|]. split; intros ? [].
  - inversion F as [|? ? F1 F2]; subst. undo H. destruct (IH x F2 E) as (A & B & C & D). destruct (str_eqb (fst a) (lit "rtcp")) eqn:S.
    + undo H. undo H. injection H as <-. cbn [fst snd List.length]. destruct F1 as (_ & _ & F1). split; [destruct (fst x); [exact A|apply opt_some; eapply rtcp_sound; [|eassumption]; now apply F1]|]. split; [destruct (fst x); cbn [one_if] in *; lia|]. split; [intros y Hy; right; now apply C|exact D].
    + injection H as <-. cbn [fst snd List.length]. split; [exact A|]. split; [lia|]. split; [intros y [<-|Hy]; [now left|right; now apply C]|]. intros y [<-|Hy]; [|now apply D]. intros [K|[]]. apply str_eqb_neq in S. congruence.
Qed.
Lemma taken_caps : forall l q ds ps rest, Forall sound_attr l -> take_caps l = Some (q, ds, ps, rest) ->
  opt_ok (fun n => n <= 255) q /\ Forall sound_cdsc ds /\ Forall (fun p => text_ok 4096 (snd p)) ps /\ (one_if q + List.length ds + List.length ps + List.length rest <= List.length l)%nat
  /\ (forall a, In a rest -> In a l) /\ clean cap_names rest.
Proof.
  induction l as [|a l IH]; intros q ds ps rest F H; cbn [take_caps] in H.
  - injection H as <- <- <- <-. split; [apply opt_none|]. split; [constructor|]. split; [constructor|]. split; [cbn; lia|]. split; intros ? [].
  - inversion F as [|? ? F1 F2]; subst. apply bindo_some in H as ((((q', ds'), ps'), rest') & E & H). destruct (IH _ _ _ _ F2 E) as (A1 & A2 & A3 & A4 & A5 & A6). clear IH. destruct F1 as (_ & _ & F1).
    destruct (str_eqb (fst a) (lit "sqn")) eqn:S1; [|destruct (str_eqb (fst a) (lit "cdsc")) eqn:S2; [|destruct (cpar_kind (fst a)) as [k|] eqn:S3]].
    + undo H. undo H. injection H as <- <- <- <-. split; [destruct q'; [exact A1|apply opt_some; now apply parse_uint_range in E1]|]. split; [exact A2|]. split; [exact A3|]. split; [destruct q'; cbn [one_if List.length] in *; lia|]. split; [intros y Hy; right; now apply A5|exact A6].
    + undo H. undo H. injection H as <- <- <- <-. split; [exact A1|]. split; [constructor; [eapply cdsc_sound; eassumption|exact A2]|]. split; [exact A3|]. split; [cbn [List.length]; lia|]. split; [intros y Hy; right; now apply A5|exact A6].
    + undo H. injection H as <- <- <- <-. split; [exact A1|]. split; [exact A2|]. split; [constructor; [cbn [snd]; now apply F1|exact A3]|]. split; [cbn [List.length]; lia|]. split; [intros y Hy; right; now apply A5|exact A6].
    + injection H as <- <- <- <-. split; [exact A1|]. split; [exact A2|]. split; [exact A3|]. split; [cbn [List.length]; lia|]. split; [intros y [<-|Hy]; [now left|right; now apply A5]|]. intros y [<-|Hy]; [|now apply A6].
      unfold cpar_kind in S3. destruct (str_eqb (fst a) (lit "cpar")) eqn:S4; [discriminate|]. destruct (str_eqb (fst a) (lit "cparmin")) eqn:S5; [discriminate|]. destruct (str_eqb (fst a) (lit "cparmax")) eqn:S6; [discriminate|]. apply str_eqb_neq in S1, S2, S4, S5, S6.
      unfold cap_names. cbn [In]. intros K. repeat destruct K as [K|K]; try contradiction; symmetry in K; contradiction.
Qed.
Lemma found_caps : forall l r, Forall sound_attr l -> find_caps l = Some r ->
  opt_ok sound_caps (fst r) /\ (cap_lines (fst r) + List.length (snd r) <= List.length l)%nat /\ (forall a, In a (snd r) -> In a l) /\ clean cap_names (snd r).
Proof.
  intros l r F H. unfold find_caps in H. apply bindo_some in H as ((((q, ds), ps), rest) & E & H). destruct (taken_caps _ _ _ _ _ F E) as (A1 & A2 & A3 & A4 & A5 & A6). unguard H. destruct q as [n|].
  - injection H as <-. cbn [fst snd]. split; [|split; [cbn [cap_lines one_if cs_descs cs_params] in *; lia|split; assumption]]. apply opt_some. split; [now apply A1|]. cbn [cs_descs cs_params]. split; [apply most_of; unfold SD_CDSCS in *; lia|]. split; [exact A2|]. split; [apply most_of; unfold SD_CPARS in *; lia|exact A3].
  - unguard H. injection H as <-. cbn [fst snd]. split; [apply opt_none|]. split; [cbn [cap_lines one_if] in *; lia|split; assumption].
Qed.
Lemma attrs_sub : forall l l' : list attribute, Forall sound_attr l -> (forall a, In a l' -> In a l) -> Forall sound_attr l'.
Proof. intros l l' F H. rewrite Forall_forall in *. intros a Ha. now apply F, H. Qed.
Lemma finished_media : forall m m', media_fine m -> finish_media m = Some m' -> sound_media m' /\ md_conn m' = md_conn m.
Proof.
  intros m m' ((B1 & B2 & B3 & B4 & B5 & B6 & B7) & C1 & C2 & (C3 & C3') & C4 & (C5 & C5')) H. unfold finish_media in H. undo H. undo H. undo H. injection H as <-.
  destruct (taken_mid _ _ C5' E) as (M1 & M2 & M3 & M4). assert (F1 := attrs_sub _ _ C5' M3). destruct (found_caps _ _ F1 E0) as (K1 & K2 & K3 & K4). assert (F2 := attrs_sub _ _ F1 K3). destruct (taken_rtcp _ _ F2 E1) as (R1 & R2 & R3 & R4). split; [|reflexivity].
  unfold sound_media. cbn [md_type md_port md_count md_proto md_fmt md_title md_conn md_bw md_key md_attrs md_mid md_rtcp md_caps].
  do 12 (split; [assumption|]). split; [exact (attrs_sub _ _ F2 R3)|]. split.
  { intros a Ha [K|[K|K]]; [apply (M4 a); [now apply K3, R3|now left]|apply (R4 a Ha); now left|apply (K4 a); [now apply R3|exact K]]. }
  split; [exact M1|]. split; [exact R1|]. split; [exact K1|]. unfold at_most in C5. lia.
Qed.
Lemma finished_all : forall ms ms', Forall media_fine ms -> finish_all ms = Some ms' -> Forall sound_media ms' /\ List.length ms' = List.length ms.
Proof.
  induction ms as [|m ms IH]; intros ms' F H; cbn [finish_all] in H; [injection H as <-; now split|]. inversion F as [|? ? F1 F2]; subst. undo H. undo H. injection H as <-. destruct (IH _ F2 E0) as (A & B). destruct (finished_media _ _ F1 E) as (C & _). split; [now constructor|]. cbn [List.length]. now rewrite B.
Qed.
Lemma parse_lines : forall t s, sdp_parse t = Some s -> exists v o n ls, sd_lines t = (118 :: 61 :: v) :: (111 :: 61 :: o) :: (115 :: 61 :: n) :: ls.
Proof.
  intros t s H. unfold sdp_parse in H. destruct (sd_lines t) as [|[|a [|a' v]] [|[|b [|b' o]] [|[|c [|c' n]] ls]]]; try discriminate; try (destruct a as [|p]; [discriminate|]; repeat (destruct p as [p|p|]; try discriminate)); try (destruct a' as [|p]; [discriminate|]; repeat (destruct p as [p|p|]; try discriminate)).
  all: try (destruct b as [|p]; [discriminate|]; repeat (destruct p as [p|p|]; try discriminate)); try (destruct b' as [|p]; [discriminate|]; repeat (destruct p as [p|p|]; try discriminate)).
  all: try (destruct c as [|p]; [discriminate|]; repeat (destruct p as [p|p|]; try discriminate)); try (destruct c' as [|p]; [discriminate|]; repeat (destruct p as [p|p|]; try discriminate)).
  now exists v, o, n, ls.
Qed.
Lemma parsed_sound : forall t s, sdp_parse t = Some s -> sound_session s.
Proof.
  intros t s H. destruct (parse_lines t s H) as (v & o & n & ls & L). unfold sdp_parse in H. rewrite L in H. cbv beta iota in H. undo H. undo H. unguard H. undo H. undo H. undo H. unguard H. undo H. undo H. unguard H. injection H as <-.
  assert (B : body_fine (fst x1)).
  { apply (body_loop_fine ls false empty_body); [|exact E1]. unfold body_fine, empty_body. cbn [bd_info bd_uri bd_emails bd_phones bd_conn bd_bw bd_timing bd_repeats bd_zones bd_key bd_attrs].
    assert (Z : forall A k, at_most k (@nil A)) by (intros; unfold at_most; cbn; lia).
    do 2 (split; [apply opt_none|]). do 2 (split; [split; [apply Z|constructor]|]). split; [apply opt_none|]. do 3 (split; [split; [apply Z|constructor]|]). split; [constructor|]. split; [apply opt_none|]. split; [apply Z|constructor]. }
  destruct B as (B1 & B2 & (B3 & B3') & (B4 & B4') & B5 & (B6 & B6') & (B7 & B7') & (B8 & B8') & B9 & B10 & (B11 & B11')).
  destruct (taken_groups _ _ E3) as (G1 & G2 & G3 & G4). assert (F1 := attrs_sub _ _ B11' G3). destruct (found_caps _ _ F1 E4) as (K1 & K2 & K3 & K4). destruct (media_list_fine _ _ E2) as (M1 & M2). destruct (finished_all _ _ M1 E5) as (M3 & M4).
  unfold sound_session. cbn [ss_version ss_origin ss_name ss_body ss_groups ss_caps ss_media]. unfold with_attrs. cbn [bd_info bd_uri bd_emails bd_phones bd_conn bd_bw bd_timing bd_repeats bd_zones bd_key bd_attrs].
  split; [now apply parse_uint_range in E|]. split; [now apply origin_sound in E0|]. split; [now apply text_iff|]. do 9 (split; [assumption|]).
  split; [intros K; rewrite K in *; discriminate|]. do 6 (split; [assumption|]). split; [exact (attrs_sub _ _ F1 K3)|]. split.
  { intros a Ha [K|K]; [apply (G4 a); [now apply K3|now left]|now apply (K4 a Ha)]. }
  split; [apply most_of; unfold SD_GROUPS in *; lia|]. split; [exact G1|]. split; [exact K1|]. split; [unfold at_most in B11; lia|]. split; [unfold at_most in *; lia|]. split; [exact M3|].
  match goal with K : is_some _ || _ = true |- _ => apply orb_true_iff in K as [K|K] end; [left; intros Q; rewrite Q in *; discriminate|right]. apply Forall_forall. rewrite forallb_forall in *. intros m Hm Q. match goal with K : forall x, In x _ -> is_some _ = true |- _ => apply K in Hm end. rewrite Q in Hm. discriminate.
Qed.
