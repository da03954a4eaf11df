(** What [SdpSession::parse] gives can be written and read again. *)
From Coq Require Import Arith NArith Bool String List Lia ZifyBool ZifyN ZifyNat.
Import ListNotations.
From Verif Require Import Base BaseFacts NumFacts TypedFacts SdpCore SdpCoreSpec SdpCoreProofs SdpCoreRead.
Open Scope N_scope.
Open Scope list_scope.

(** ** The attribute lines of the fields are sound *)
Definition plain (x : str) : Prop := forall c, In c x -> is_control c = true -> c = 9.
Lemma plain_spaced : forall ws w, plain w -> (forall x, In x ws -> plain x) -> plain (w ++ spaced ws).
Proof.
  intros ws w A B c Hc K. apply in_app_or in Hc as [Hc|Hc]; [now apply A|]. unfold spaced in Hc. apply in_flat_map in Hc as (x & Hx & [<-|Hc]); [discriminate|]. now apply (B x Hx).
Qed.
Lemma plain_word : forall mx w, word_ok mx w -> plain w.
Proof. intros mx w (_ & _ & _ & H). exact H. Qed.
Lemma plain_digits : forall n, plain (print_N n).
Proof. intros n c Hc K. apply print_N_digits in Hc. unfold is_control in K. apply orb_true_iff in K as [K|K]; apply N.ltb_lt in K || apply andb_true_iff in K as (K1 & K2); lia. Qed.
Lemma total_bound : forall k ws, Forall (word_ok k) ws -> total ws <= k * llen ws.
Proof.
  intros k ws H. induction H as [|w ws (_ & _ & L & _) H IH]; [cbn; lia|]. cbn [total fold_right]. change (fold_right (fun w n => blen w + n) 0 ws) with (total ws). rewrite llen_cons. lia.
Qed.
Lemma blen_words : forall w ws, blen (w ++ spaced ws) = blen w + total ws + llen ws.
Proof. intros w ws. rewrite blen_spaced. cbn [total fold_right]. change (fold_right (fun w n => blen w + n) 0 ws) with (total ws). lia. Qed.
Lemma total_cons : forall w ws, total (w :: ws) = blen w + total ws.
Proof. reflexivity. Qed.
Lemma attr_of : forall n v, text_ok 128 n -> ~ In 58 n -> text_ok 4096 v -> sound_attr (n, Some v).
Proof. intros n v A B C. split; [exact A|split; [exact B|]]. intros x [= <-]. exact C. Qed.
Ltac known := first [apply text_iff; vm_compute; reflexivity | intros K; cbn in K; repeat destruct K as [K|K]; try discriminate K; contradiction].
Lemma group_attr_sound : forall g, sound_group g -> sound_attr (group_attr g).
Proof.
  intros (a, ms) (A & _ & _ & D & E). cbn [fst snd] in *. apply attr_of; [known|known|]. cbn [fst snd]. split.
  - rewrite blen_words. apply most_llen in D. apply total_bound in E. destruct A as (_ & _ & L & _). change (N.of_nat 50) with 50 in D. nia.
  - apply plain_spaced; [now apply (plain_word 128)|]. intros x Hx. rewrite Forall_forall in E. apply (plain_word 64). now apply E.
Qed.
Lemma cdsc_attr_sound : forall d, sound_cdsc d -> sound_attr (lit "cdsc", Some (cdsc_text d)).
Proof.
  intros [n m t fs] (A & B & C & _ & D & E). cbn [cd_num cd_media cd_transport cd_formats] in *. apply attr_of; [known|known|]. unfold cdsc_text. cbn [cd_num cd_media cd_transport cd_formats]. split.
  - rewrite blen_words, !total_cons, !llen_cons. apply most_llen in D. apply total_bound in E. destruct B as (_ & _ & B & _). destruct C as (_ & _ & C & _). change (N.of_nat 128) with 128 in D.
    assert (P : blen (print_N n) <= N.of_nat 3) by (apply print_N_blen; [change (10 ^ N.of_nat 3) with 1000; lia|lia]). change (N.of_nat 3) with 3 in P. nia.
  - apply plain_spaced; [apply plain_digits|]. intros x [<-|[<-|Hx]]; [now apply (plain_word 32)|now apply (plain_word 64)|]. rewrite Forall_forall in E. apply (plain_word 16). now apply E.
Qed.
Lemma caps_attrs_sound : forall c, opt_ok sound_caps c -> Forall sound_attr (caps_attrs c) /\ List.length (caps_attrs c) = cap_lines c.
Proof.
  intros [c|] H; [|split; [constructor|reflexivity]]. destruct (H c eq_refl) as (A & _ & C & _ & D). cbn [caps_attrs cap_lines]. split.
  - constructor.
    + apply attr_of; [known|known|]. split; [|apply plain_digits].
      assert (P : blen (print_N (cs_sqn c)) <= N.of_nat 3) by (apply print_N_blen; [change (10 ^ N.of_nat 3) with 1000; lia|lia]). change (N.of_nat 3) with 3 in P. lia.
    + apply Forall_app. rewrite !Forall_map. split; eapply Forall_impl; [|exact C| |exact D].
      * intros d Hd. now apply cdsc_attr_sound.
      * intros (k, v) Hd. cbn [fst snd] in *. apply attr_of; [destruct k; known|destruct k; known|exact Hd].
  - cbn [List.length]. rewrite app_length, !map_length. reflexivity.
Qed.
Lemma rtcp_attr_sound : forall r, sound_rtcp r -> sound_attr (lit "rtcp", Some (rtcp_text r)).
Proof.
  intros [p [((a, b), c)|]] (A & B); cbn [rc_port rc_addr] in *; (apply attr_of; [known|known|]); unfold rtcp_text; cbn [rc_port rc_addr].
  - destruct (B a b c eq_refl) as (C & D & E & L). split.
    + rewrite blen_words, !total_cons, !llen_cons. change (total []) with 0. change (llen (@nil str)) with 0. lia.
    + apply plain_spaced; [apply plain_digits|]. intros x [<-|[<-|[<-|[]]]]; now apply (plain_word 4096).
  - rewrite app_nil_r. split; [|apply plain_digits].
    assert (P : blen (print_N p) <= N.of_nat 5) by (apply print_N_blen; [change (10 ^ N.of_nat 5) with 100000; lia|lia]). change (N.of_nat 5) with 5 in P. lia.
Qed.
Lemma media_attrs_fine : forall m, sound_media m -> attrs_fine m.
Proof.
  intros m S. unfold sound_media in S. decompose [and] S. clear S. match goal with H : opt_ok sound_caps _ |- _ => destruct (caps_attrs_sound _ H) as (A & B) end. unfold attrs_fine, media_attrs. split.
  - rewrite !Forall_app, !Forall_map. split; [|split; [|split; [exact A|assumption]]].
    + destruct (md_mid m) as [v|]; constructor; [|constructor]. apply attr_of; [known|known|]. match goal with H : opt_ok (text_ok 4096) (Some v) |- _ => now apply H end.
    + destruct (md_rtcp m) as [v|]; constructor; [|constructor]. apply rtcp_attr_sound. match goal with H : opt_ok sound_rtcp (Some v) |- _ => now apply H end.
  - rewrite !app_length, !map_length, B. destruct (md_mid m), (md_rtcp m); cbn [opt_list List.length one_if] in *; lia.
Qed.

(** ** Every line is on one line *)
Definition fine_line (l : str) : Prop := l <> [] /\ line_safe l.
Lemma fine_key : forall c v, line_safe v -> c <> 10 -> c <> 13 -> fine_line (c :: 61 :: v).
Proof. intros c v H A B. split; [discriminate|]. apply safe_cons; [exact A|exact B|]. now apply safe_cons. Qed.
Lemma safe_words : forall w ws, wordlike w -> (forall x, In x ws -> wordlike x) -> line_safe (w ++ spaced ws).
Proof. intros w ws A B. apply safe_app; [now apply safe_word|]. apply safe_spaced. intros x Hx. apply safe_word. now apply B. Qed.
Lemma fine_conn : forall c, sound_conn c -> fine_line (l_conn c).
Proof. intros c (A & B & C). apply (fine_key 99); try discriminate. apply safe_words; [now apply (word_like 16)|]. intros x [<-|[<-|[]]]; eapply word_like; eassumption. Qed.
Lemma fine_bw : forall b, sound_bw b -> fine_line (l_bw b).
Proof. intros b (A & _). apply (fine_key 98); try discriminate. apply safe_app; [now apply (safe_text 32)|]. apply safe_app; [now split|]. apply safe_word, digits_like. Qed.
Lemma fine_timing : forall t, fine_line (l_timing t).
Proof. intros t. apply (fine_key 116); try discriminate. apply safe_words; [apply digits_like|]. intros x [<-|[]]; apply digits_like. Qed.
Lemma fine_repeat : forall r, sound_repeat r -> fine_line (l_repeat r).
Proof. intros r (A & B & _ & _ & C). apply (fine_key 114); try discriminate. apply safe_words; [now apply (word_like 16)|]. intros x [<-|Hx]; [now apply (word_like 16)|now apply (forall_like 16 (rp_offsets r))]. Qed.
Lemma fine_pair : forall mn mv p, text_ok mn (fst p) -> opt_ok (text_ok mv) (snd p) -> line_safe (pair_text p).
Proof.
  intros mn mv p A B. unfold pair_text. apply safe_app; [now apply (safe_text mn)|]. destruct (snd p) as [v|]; [|now split]. apply safe_cons; [discriminate|discriminate|]. apply (safe_text mv). now apply B.
Qed.
Lemma fine_attr : forall a, sound_attr a -> fine_line (l_attr a).
Proof. intros a (A & _ & B). apply (fine_key 97); try discriminate. now apply (fine_pair 128 4096). Qed.
Lemma fine_ekey : forall a, sound_key a -> fine_line (l_key a).
Proof. intros a (A & _ & B). apply (fine_key 107); try discriminate. now apply (fine_pair 64 1024). Qed.
Lemma fine_zones : forall zs, Forall sound_zone zs -> Forall fine_line (l_zones zs).
Proof.
  intros zs S. unfold l_zones. destruct (flat_map (fun z => [print_N (fst z); snd z]) zs) as [|w ws] eqn:F; constructor; [|constructor]. apply (fine_key 122); try discriminate.
  assert (L : forall x, In x (w :: ws) -> wordlike x).
  { rewrite <- F. intros x Hx. apply in_flat_map in Hx as (z & Hz & Hx). rewrite Forall_forall in S. apply S in Hz as (_ & Hz). destruct Hx as [<-|[<-|[]]]; [apply digits_like|now apply (word_like 16)]. }
  apply safe_words; [apply L; now left|intros x Hx; apply L; now right].
Qed.
Lemma forall_opt : forall A (P Q : A -> Prop) o, opt_ok P o -> (forall a, P a -> Q a) -> Forall Q (opt_list o).
Proof. intros A P Q [a|] H K; constructor; [|constructor]. apply K. now apply H. Qed.
Lemma fine_media : forall m, sound_media m -> Forall fine_line (media_lines m).
Proof.
  intros m S. pose proof (media_attrs_fine m S) as (AF & _). unfold sound_media in S. decompose [and] S. clear S. unfold media_lines. constructor.
  - apply (fine_key 109); try discriminate. apply safe_words; [now apply (word_like 32)|]. intros x [<-|[<-|Hx]]; [|now apply (word_like 64)|now apply (forall_like 16 (md_fmt m))].
    split; [intros K; apply app_eq_nil in K as (K & _); now apply print_N_nonempty in K|]. intros c Hc. apply in_app_or in Hc as [Hc|Hc]; [now apply (digits_like (md_port m))|].
    destruct (md_count m) as [k|]; [|destruct Hc]. destruct Hc as [<-|Hc]; [reflexivity|now apply (digits_like k)].
  - rewrite !Forall_app, !Forall_map. repeat apply conj.
    + eapply forall_opt; [eassumption|]. intros a Ha. apply (fine_key 105); try discriminate. now apply (safe_text 2048).
    + eapply forall_opt; [eassumption|exact fine_conn].
    + eapply Forall_impl; [exact fine_bw|eassumption].
    + eapply forall_opt; [eassumption|exact fine_ekey].
    + eapply Forall_impl; [exact fine_attr|exact AF].
Qed.
Definition session_attrs (s : session) : list attribute := bd_attrs (ss_body s) ++ caps_attrs (ss_caps s) ++ map group_attr (ss_groups s).
Lemma session_attrs_fine : forall s, sound_session s -> Forall sound_attr (session_attrs s) /\ at_most 100 (session_attrs s).
Proof.
  intros s S. unfold sound_session in S. decompose [and] S. clear S. unfold session_attrs, at_most. match goal with H : opt_ok sound_caps _ |- _ => destruct (caps_attrs_sound _ H) as (A & B) end. split.
  - rewrite !Forall_app, Forall_map. split; [assumption|split; [exact A|]]. eapply Forall_impl; [exact group_attr_sound|assumption].
  - rewrite !app_length, map_length, B. lia.
Qed.
Lemma fine_session : forall s, sound_session s -> Forall fine_line (session_lines s).
Proof.
  intros s S. destruct (session_attrs_fine s S) as (AF & _). unfold session_attrs in AF. unfold sound_session in S. decompose [and] S. clear S. unfold session_lines. constructor; [|constructor; [|constructor]].
  - apply (fine_key 118); try discriminate. apply safe_word, digits_like.
  - match goal with H : sound_origin _ |- _ => destruct H as (A & B & C & D & E & F) end. apply (fine_key 111); try discriminate. apply safe_words; [now apply (word_like 255)|]. intros x [<-|[<-|[<-|[<-|[<-|[]]]]]]; eapply word_like; eassumption.
  - apply (fine_key 115); try discriminate. now apply (safe_text 1024).
  - apply Forall_app. split.
    + unfold body_lines. rewrite !Forall_app, !Forall_map. repeat apply conj.
      * eapply forall_opt; [eassumption|]. intros a Ha. apply (fine_key 105); try discriminate. now apply (safe_text 2048).
      * eapply forall_opt; [eassumption|]. intros a Ha. apply (fine_key 117); try discriminate. now apply (safe_text 2048).
      * eapply Forall_impl; [|eassumption]. intros a Ha. apply (fine_key 101); try discriminate. now apply (safe_text 320).
      * eapply Forall_impl; [|eassumption]. intros a Ha. apply (fine_key 112); try discriminate. now apply (safe_text 32).
      * eapply forall_opt; [eassumption|exact fine_conn].
      * eapply Forall_impl; [exact fine_bw|assumption].
      * apply Forall_forall. intros t _. apply fine_timing.
      * eapply Forall_impl; [exact fine_repeat|assumption].
      * now apply fine_zones.
      * eapply forall_opt; [eassumption|exact fine_ekey].
      * eapply Forall_impl; [exact fine_attr|exact AF].
    + apply Forall_forall. intros l Hl. apply in_flat_map in Hl as (m & Hm & Hl). match goal with H : Forall sound_media _ |- _ => rewrite Forall_forall in H; apply H in Hm end. apply fine_media in Hm. rewrite Forall_forall in Hm. now apply Hm.
Qed.

(** ** The round trip, for the lines *)
Lemma lines_back : forall s t, sound_session s -> at_most 50 (bd_zones (ss_body s)) -> sd_lines t = session_lines s -> sdp_parse t = Some s.
Proof.
  intros s t S Z E. unfold sdp_parse. rewrite E. destruct (session_attrs_fine s S) as (AF & AL). pose proof S as S0. unfold sound_session in S. decompose [and] S. clear S. unfold session_lines.
  change (lit "v=" ++ print_N (ss_version s)) with (118 :: 61 :: print_N (ss_version s)). change (l_origin (ss_origin s)) with (111 :: 61 :: skipn 2 (l_origin (ss_origin s))). change (lit "s=" ++ ss_name s) with (115 :: 61 :: ss_name s).
  cbv beta iota. rewrite parse_uint_print by assumption. cbn [bindo]. rewrite origin_back by assumption. cbn [bindo]. change SD_SESSION_NAME with 1024. rewrite (proj2 (text_iff 1024 (ss_name s))) by assumption. cbn [guard bindo].
  change (bd_attrs (ss_body s) ++ caps_attrs (ss_caps s) ++ map group_attr (ss_groups s)) with (session_attrs s).
  destruct (body_run (ss_body s) (session_attrs s) (flat_map media_lines (ss_media s))) as (after & EB); try assumption. rewrite EB.
  assert (EM : body_loop after (flat_map media_lines (ss_media s)) (with_attrs (ss_body s) (session_attrs s)) = Some (with_attrs (ss_body s) (session_attrs s), flat_map media_lines (ss_media s))) by (destruct (ss_media s); reflexivity).
  rewrite EM. cbn [bindo fst snd]. assert (MA : Forall attrs_fine (ss_media s)) by (eapply Forall_impl; [exact media_attrs_fine|assumption]).
  rewrite media_list_run by assumption. cbn [bindo]. change (bd_attrs (with_attrs (ss_body s) (session_attrs s))) with (session_attrs s).
  assert (CL : clean (lit "group" :: cap_names) (bd_attrs (ss_body s))) by assumption.
  assert (EG : take_groups (session_attrs s) = Some (ss_groups s, bd_attrs (ss_body s) ++ caps_attrs (ss_caps s))).
  { unfold session_attrs. rewrite app_assoc, groups_clean.
    - rewrite groups_back by assumption. cbn [bindo fst snd]. now rewrite app_nil_r.
    - apply clean_app; [apply (clean_sub _ _ _ CL); intros x [<-|[]]; now left|]. apply clean_caps. no_names. }
  rewrite EG. cbn [bindo fst snd]. match goal with H : at_most 20 (ss_groups s) |- _ => apply most_llen in H end. rewrite guard_true by (unfold SD_GROUPS; lia). cbn [bindo].
  rewrite caps_after; [|assumption|apply (clean_sub _ _ _ CL); intros x Hx; now right]. cbn [bindo fst snd]. rewrite finish_all_back by assumption. cbn [bindo].
  rewrite guard_true.
  - cbn [bindo]. destruct s as [? ? ? [] ? ? ?]. reflexivity.
  - change (bd_timing (with_attrs (ss_body s) (session_attrs s))) with (bd_timing (ss_body s)). change (bd_conn (with_attrs (ss_body s) (session_attrs s))) with (bd_conn (ss_body s)). apply andb_true_iff. split.
    + destruct (bd_timing (ss_body s)); [congruence|]. unfold llen. cbn [List.length]. lia.
    + match goal with H : _ \/ _ |- _ => destruct H as [CN|CN] end; [destruct (bd_conn (ss_body s)); [reflexivity|congruence]|]. apply orb_true_iff. right. apply forallb_forall. intros m Hm. rewrite Forall_forall in CN. apply CN in Hm. destruct (md_conn m); [reflexivity|congruence].
Qed.
