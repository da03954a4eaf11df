(** Reading back what was written, for session descriptions. *)
From Coq Require Import Arith NArith Bool String List Lia ZifyBool ZifyN ZifyNat.
Import ListNotations.
From Verif Require Import Base BaseFacts NumFacts TypedFacts SdpCore SdpCoreSpec.
Open Scope N_scope.
Open Scope list_scope.

(** ** Words and texts *)
Lemma text_iff : forall mx s, sd_text mx s = true <-> text_ok mx s.
Proof.
  intros mx s. unfold sd_text, text_ok. rewrite andb_true_iff, N.leb_le, forallb_forall. split; intros (A & B); (split; [exact A|]); intros c Hc.
  - intros K. specialize (B c Hc). rewrite K in B. cbn [negb orb] in B. now apply N.eqb_eq.
  - specialize (B c Hc). destruct (is_control c); [|reflexivity]. rewrite (B eq_refl). reflexivity.
Qed.
Definition wordlike (s : str) : Prop := s <> [] /\ forall c, In c s -> is_ws c = false.
Lemma word_like : forall mx s, word_ok mx s -> wordlike s.
Proof. intros mx s (A & B & _). now split. Qed.
Lemma word_text : forall mx s, word_ok mx s -> sd_text mx s = true.
Proof. intros mx s (_ & _ & H). now apply text_iff. Qed.
Lemma word_free : forall w, wordlike w -> forallb (fun c => negb (is_ws c)) w = true.
Proof. intros w [_ H]. apply forallb_forall. intros c Hc. now rewrite (H c Hc). Qed.
Lemma ws_aux_word : forall w cur r, forallb (fun c => negb (is_ws c)) w = true -> split_ws_aux cur (w ++ r) = split_ws_aux (rev w ++ cur) r.
Proof.
  induction w as [|c w IH]; intros cur r H; [reflexivity|]. cbn [forallb] in H. apply andb_true_iff in H. destruct H as [Hc Hw].
  apply negb_true_iff in Hc. cbn [app split_ws_aux]. rewrite Hc, IH by assumption. cbn [rev]. now rewrite <- app_assoc.
Qed.
Lemma rev_full : forall w : str, w <> [] -> exists c l, rev w = c :: l.
Proof. intros w H. destruct (rev w) as [|c l] eqn:E; [|now exists c, l]. exfalso. apply H. rewrite <- (rev_involutive w), E. reflexivity. Qed.
Lemma ws_spaced : forall ws w, wordlike w -> (forall x, In x ws -> wordlike x) -> split_ws (w ++ spaced ws) = w :: ws.
Proof.
  unfold split_ws, spaced. induction ws as [|x ws IH]; intros w Hw H.
  - cbn [flat_map]. rewrite ws_aux_word by now apply word_free. cbn [split_ws_aux]. rewrite app_nil_r.
    destruct (rev_full w (proj1 Hw)) as (c & l & E). rewrite E, <- E, rev_involutive. reflexivity.
  - cbn [flat_map]. rewrite ws_aux_word by now apply word_free. cbn [split_ws_aux app]. change (is_ws 32) with true. cbv iota. rewrite app_nil_r.
    destruct (rev_full w (proj1 Hw)) as (c & l & E). rewrite E, <- E, rev_involutive. f_equal. apply IH; [apply H; now left|]. intros y Hy. apply H. now right.
Qed.
Lemma ws_aux_nonempty : forall s cur w, In w (split_ws_aux cur s) -> w <> [].
Proof.
  assert (R : forall (x : N) l, rev (x :: l) <> []) by (intros x l H; apply (f_equal (@List.length N)) in H; rewrite rev_length in H; discriminate).
  induction s as [|c s IH]; intros cur w H; cbn [split_ws_aux] in H.
  - destruct cur as [|x cur]; [destruct H|]. destruct H as [<-|[]]. apply R.
  - destruct (is_ws c); [|now apply IH in H]. destruct cur as [|x cur]; [now apply IH in H|]. destruct H as [<-|H]; [apply R|now apply IH in H].
Qed.
Lemma ws_aux_sub : forall s cur w, In w (split_ws_aux cur s) -> (forall c, In c cur -> is_ws c = false) -> forall c, In c w -> is_ws c = false /\ (In c cur \/ In c s).
Proof.
  induction s as [|x s IH]; intros cur w H F c Hc; cbn [split_ws_aux] in H.
  - destruct cur as [|y cur]; [destruct H|]. destruct H as [<-|[]]. apply in_rev in Hc. split; [now apply F|now left].
  - destruct (is_ws x) eqn:X.
    + assert (K : In w (split_ws_aux [] s) -> is_ws c = false /\ (In c cur \/ In c (x :: s))).
      { intros K. destruct (IH [] w K (fun c (f : In c []) => match f with end) c Hc) as (A & [[]|B]). split; [exact A|]. right. now right. }
      destruct cur as [|y cur]; [now apply K|]. destruct H as [<-|H]; [|now apply K]. apply in_rev in Hc. split; [now apply F|now left].
    + apply (IH (x :: cur) w) in Hc; [|exact H|intros d [<-|Hd]; [exact X|now apply F]]. destruct Hc as (A & [[<-|B]|B]); (split; [exact A|]); [right; now left|now left|right; now right].
Qed.
Lemma ws_part : forall s w, In w (split_ws s) -> wordlike w /\ forall c, In c w -> In c s.
Proof.
  intros s w H. split; [split; [now apply (ws_aux_nonempty s [])|]|]; intros c Hc; destruct (ws_aux_sub s [] w H (fun c (f : In c []) => match f with end) c Hc) as (A & [[]|B]); assumption.
Qed.
Definition total (ws : list str) : N := fold_right (fun w n => blen w + n) 0 ws.
Lemma blen_rev : forall s, blen (rev s) = blen s.
Proof. induction s as [|c s IH]; [reflexivity|]. cbn [rev]. rewrite blen_app, IH. cbn [blen]. lia. Qed.
Lemma len_pos : forall c, 1 <= len_utf8 c.
Proof. intros c. unfold len_utf8. repeat destruct (_ <? _); lia. Qed.
(** words need at least one blank between them *)
Lemma ws_total : forall s cur, total (split_ws_aux cur s) + (llen (split_ws_aux cur s) - 1) <= blen s + blen cur.
Proof.
  induction s as [|c s IH]; intros cur; cbn [split_ws_aux].
  - destruct cur as [|x cur]; [cbn; lia|]. cbn [total fold_right]. rewrite blen_rev. unfold llen. cbn [List.length blen]. lia.
  - pose proof (len_pos c) as P. destruct (is_ws c).
    + destruct cur as [|x cur].
      * specialize (IH []). cbn [blen] in *. lia.
      * specialize (IH []). cbn [total fold_right]. change (fold_right (fun w n => blen w + n) 0 (split_ws_aux [] s)) with (total (split_ws_aux [] s)). rewrite blen_rev. unfold llen in *. cbn [List.length blen] in *. lia.
    + specialize (IH (c :: cur)). cbn [blen] in *. lia.
Qed.
Lemma blen_spaced : forall ws w, blen (w ++ spaced ws) = total (w :: ws) + llen ws.
Proof.
  intros ws. induction ws as [|x ws IH]; intros w; unfold spaced in *; cbn [flat_map].
  - rewrite app_nil_r. cbn. lia.
  - rewrite blen_app. change ((32 :: x) ++ flat_map (fun w0 => 32 :: w0) ws) with (32 :: (x ++ flat_map (fun w0 => 32 :: w0) ws)). cbn [blen]. rewrite IH. change (len_utf8 32) with 1. cbn [total fold_right]. unfold llen. cbn [List.length]. lia.
Qed.
Lemma ws_shrinks : forall v w ws, split_ws v = w :: ws -> blen (w ++ spaced ws) <= blen v.
Proof. intros v w ws E. rewrite blen_spaced. change (total (w :: ws) + llen ws <= blen v). assert (H : total (w :: ws) + (llen (w :: ws) - 1) <= blen v + 0) by (rewrite <- E; exact (ws_total v [])). assert (L : llen (w :: ws) = llen ws + 1) by (unfold llen; cbn [List.length]; lia). rewrite L in H. generalize dependent (total (w :: ws)). generalize (llen ws). intros. lia. Qed.

(** ** Texts on one line *)
Definition line_safe (s : str) : Prop := mem 10 s = false /\ mem 13 s = false.
Lemma safe_app : forall a b, line_safe a -> line_safe b -> line_safe (a ++ b).
Proof. intros a b (A & B) (C & D). split; rewrite mem_app; [now rewrite A, C|now rewrite B, D]. Qed.
Lemma safe_cons : forall c s, c <> 10 -> c <> 13 -> line_safe s -> line_safe (c :: s).
Proof. intros c s A B (C & D). split; unfold mem in *; cbn [existsb]; [rewrite C|rewrite D]; rewrite orb_false_r; apply N.eqb_neq; congruence. Qed.
Lemma safe_text : forall mx s, text_ok mx s -> line_safe s.
Proof. intros mx s (_ & H). split; apply mem_false; intros K; apply H in K; try reflexivity; discriminate. Qed.
Lemma safe_word : forall s, wordlike s -> line_safe s.
Proof. intros s (_ & H). split; apply mem_false; intros K; apply H in K; discriminate. Qed.
Lemma safe_spaced : forall ws, (forall x, In x ws -> line_safe x) -> line_safe (spaced ws).
Proof.
  induction ws as [|x ws IH]; intros H; [now split|]. unfold spaced. cbn [flat_map]. change (line_safe ((32 :: x) ++ spaced ws)).
  apply safe_app; [apply safe_cons; [discriminate|discriminate|apply H; now left]|]. apply IH. intros y Hy. apply H. now right.
Qed.
Lemma digits_like : forall n, wordlike (print_N n).
Proof. intros n. split; [apply print_N_nonempty|]. intros c Hc. pose proof (print_N_word n) as W. rewrite forallb_forall in W. apply W in Hc. now apply negb_true_iff. Qed.
Lemma trim_safe : forall s, mem 13 s = false -> trim_end_by (N.eqb 13) s = s.
Proof.
  induction s as [|c s IH]; intros H; [reflexivity|]. unfold mem in *. cbn [existsb] in H. apply orb_false_elim in H as (A & B). cbn [trim_end_by]. rewrite (IH B). destruct s; [now rewrite A|reflexivity].
Qed.
(** ** Lines *)
Lemma trim_cr : forall s, mem 13 s = false -> trim_end_by (N.eqb 13) (s ++ [13]) = s.
Proof.
  induction s as [|c s IH]; intros H; [reflexivity|]. unfold mem in *. cbn [existsb] in H. apply orb_false_elim in H as (A & B). cbn [app trim_end_by]. rewrite (IH B). destruct s; [now rewrite A|reflexivity].
Qed.
Lemma lines_ended : forall ls es, Forall2 (fun l e => l <> [] /\ line_safe l /\ (e = [10] \/ e = [13; 10])) ls es ->
  sd_lines (concat (map (fun p => fst p ++ snd p) (combine ls es))) = ls.
Proof.
  intros ls es H. unfold sd_lines. induction H as [|l e ls es (A & (B & C) & D) H IH]; [reflexivity|]. cbn [combine map concat fst snd].
  set (rest := concat _) in *. destruct D as [-> | ->].
  - rewrite <- app_assoc. cbn [app]. rewrite split_on_app by exact B. cbn [map filter]. rewrite trim_safe by exact C. destruct l as [|c l]; [congruence|]. cbn [str_eqb negb]. f_equal. exact IH.
  - rewrite <- app_assoc. change ([13; 10] ++ rest) with ([13] ++ 10 :: rest). rewrite app_assoc. rewrite split_on_app by (rewrite mem_app, B; reflexivity). cbn [map filter]. rewrite trim_cr by exact C.
    destruct l as [|c l]; [congruence|]. cbn [str_eqb negb]. f_equal. exact IH.
Qed.
Lemma lines_print : forall ls, Forall (fun l => l <> [] /\ line_safe l) ls -> sd_lines (flat_map (fun l => l ++ [10]) ls) = ls.
Proof.
  intros ls H. assert (E : flat_map (fun l => l ++ [10]) ls = concat (map (fun p => fst p ++ snd p) (combine ls (map (fun _ => [10]) ls)))).
  { clear H. induction ls as [|l ls IH]; [reflexivity|]. cbn [flat_map map combine concat fst snd]. now rewrite IH. }
  rewrite E. apply lines_ended. induction H as [|l ls (A & B) H IH]; constructor; [repeat split; auto|]. 1: apply B. 1: apply B. apply IH.
  clear. induction ls as [|l ls IH]; [reflexivity|]. cbn [flat_map map combine concat fst snd]. now rewrite IH.
Qed.

(** ** Each kind of line *)
Lemma guard_true : forall b, b = true -> guard b = Some tt.
Proof. now intros b ->. Qed.
Ltac words := repeat match goal with H : word_ok ?mx ?s |- context [sd_text ?m ?s] => change (sd_text m s) with (sd_text mx s); rewrite (word_text mx s H) end.
Lemma origin_back : forall o, sound_origin o -> p_origin (skipn 2 (l_origin o)) = Some o.
Proof.
  intros [a b c d e f] (A & B & C & D & E & F). cbn [og_user og_id og_version og_net og_type og_addr] in *. unfold l_origin. cbn [og_user og_id og_version og_net og_type og_addr]. change (skipn 2 (lit "o=" ++ ?x)) with x.
  unfold p_origin. rewrite ws_spaced; [|now apply (word_like 255)|]. 
  - words. reflexivity.
  - intros x [<-|[<-|[<-|[<-|[<-|[]]]]]]; eapply word_like; eassumption.
Qed.
Lemma conn_back : forall c, sound_conn c -> p_conn (skipn 2 (l_conn c)) = Some c.
Proof.
  intros [a b c] (A & B & C). cbn [cn_net cn_type cn_addr] in *. unfold l_conn. cbn [cn_net cn_type cn_addr]. change (skipn 2 (lit "c=" ++ ?x)) with x.
  unfold p_conn. rewrite ws_spaced; [|now apply (word_like 16)|]. 
  - words. reflexivity.
  - intros x [<-|[<-|[]]]; eapply word_like; eassumption.
Qed.
Lemma bw_back : forall b, sound_bw b -> p_bw (skipn 2 (l_bw b)) = Some b.
Proof.
  intros [a n] (A & B & C). cbn [bw_type bw_value] in *. unfold l_bw. cbn [bw_type bw_value]. change (skipn 2 (lit "b=" ++ ?x)) with x. unfold p_bw. change (a ++ [58] ++ print_N n) with (a ++ 58 :: print_N n).
  rewrite split_on_app by now apply mem_false. rewrite split_on_nomem; [|apply mem_false; intros K; apply print_N_digits in K; lia].
  apply text_iff in A. change SD_BWTYPE with 32. rewrite A. cbn [guard bindo]. rewrite parse_uint_print by (unfold u64_max; lia). cbn [bindo]. rewrite guard_true by (unfold SD_BW_VALUE; lia). reflexivity.
Qed.
Lemma timing_back : forall t, sound_timing t -> p_timing (skipn 2 (l_timing t)) = Some t.
Proof.
  intros [a b] (A & B). cbn [fst snd] in *. unfold l_timing. cbn [fst snd]. change (skipn 2 (lit "t=" ++ ?x)) with x. unfold p_timing. rewrite ws_spaced; [|apply digits_like|intros x [<-|[]]; apply digits_like].
  rewrite !parse_uint_print by assumption. reflexivity.
Qed.
Lemma forall_text : forall mx l, Forall (word_ok mx) l -> forallb (sd_text mx) l = true.
Proof. intros mx l H. apply forallb_forall. rewrite Forall_forall in H. intros x Hx. apply word_text. now apply H. Qed.
Lemma forall_like : forall mx l x, Forall (word_ok mx) l -> In x l -> wordlike x.
Proof. intros mx l x H Hx. rewrite Forall_forall in H. apply (word_like mx). now apply H. Qed.
Lemma most_llen : forall A n (l : list A), at_most n l -> llen l <= N.of_nat n.
Proof. intros A n l H. unfold at_most, llen in *. lia. Qed.
Lemma repeat_back : forall r, sound_repeat r -> p_repeat (skipn 2 (l_repeat r)) = Some r.
Proof.
  intros [a b os] (A & B & C & D & E). cbn [rp_interval rp_duration rp_offsets] in *. unfold l_repeat. cbn [rp_interval rp_duration rp_offsets]. change (skipn 2 (lit "r=" ++ ?x)) with x. unfold p_repeat.
  rewrite ws_spaced; [|now apply (word_like 16)|intros x [<-|Hx]; [now apply (word_like 16)|now apply (forall_like 16 os)]]. destruct os as [|o os]; [congruence|].
  apply forall_text in E. apply most_llen in D. change SD_FORMAT with 16. rewrite E. words. replace (llen (o :: os) <=? SD_OFFSETS) with true by (unfold SD_OFFSETS; lia). reflexivity.
Qed.
Lemma zone_words : forall zs, Forall sound_zone zs -> p_zone_list (flat_map (fun z => [print_N (fst z); snd z]) zs) = Some zs.
Proof.
  induction zs as [|(n, w) zs IH]; intros H; [reflexivity|]. inversion H as [|? ? (A & B) C]; subst. cbn [fst snd] in *. cbn [flat_map app fst snd p_zone_list]. rewrite parse_uint_print by exact A. cbn [bindo]. words. cbn [guard bindo].
  rewrite (IH C). reflexivity.
Qed.
Lemma zones_back : forall zs l, Forall sound_zone zs -> at_most 50 zs -> l_zones zs = [l] -> p_zones (skipn 2 l) = Some zs.
Proof.
  intros zs l S B E. unfold l_zones in E. destruct (flat_map (fun z => [print_N (fst z); snd z]) zs) as [|w ws] eqn:F; [discriminate|]. apply (f_equal (hd [])) in E. cbn [hd] in E. subst l. change (skipn 2 (lit "z=" ++ ?x)) with x. unfold p_zones.
  assert (L : forall x, In x (w :: ws) -> wordlike x).
  { rewrite <- F. intros x Hx. apply in_flat_map in Hx as (z & Hz & Hx). rewrite Forall_forall in S. apply S in Hz as (_ & Hz). destruct Hx as [<-|[<-|[]]]; [apply digits_like|now apply (word_like 16)]. }
  rewrite ws_spaced by (first [apply L; now left|intros x Hx; apply L; now right]). rewrite <- F, zone_words by exact S. cbn [bindo]. apply most_llen in B. rewrite guard_true by (unfold SD_ZONES; lia). reflexivity.
Qed.
Lemma pair_back : forall mn mv p, text_ok mn (fst p) -> ~ In 58 (fst p) -> opt_ok (text_ok mv) (snd p) -> p_pair mn mv (pair_text p) = Some p.
Proof.
  intros mn mv (a, v) A B C. cbn [fst snd] in *. unfold p_pair, pair_text. cbn [fst snd]. apply text_iff in A. apply mem_false in B. destruct v as [v|].
  - rewrite split_once_app by exact B. rewrite A. specialize (C v eq_refl). apply text_iff in C. rewrite C. reflexivity.
  - rewrite app_nil_r. replace (split_once 58 a) with (@None (str * str)) by (symmetry; now apply split_once_none). rewrite A. reflexivity.
Qed.
Lemma key_back : forall k, sound_key k -> p_key (skipn 2 (l_key k)) = Some k.
Proof. intros k (A & B & C). unfold l_key. change (skipn 2 (lit "k=" ++ ?x)) with x. now apply pair_back. Qed.
Lemma attr_back : forall a, sound_attr a -> p_attr (skipn 2 (l_attr a)) = Some a.
Proof. intros k (A & B & C). unfold l_attr. change (skipn 2 (lit "a=" ++ ?x)) with x. now apply pair_back. Qed.
Lemma media_back : forall m, word_ok 32 (md_type m) -> md_port m <= 65535 -> opt_ok (fun c => c <= 65535) (md_count m) -> word_ok 64 (md_proto m) ->
  md_fmt m <> [] -> at_most 128 (md_fmt m) -> Forall (word_ok 16) (md_fmt m) ->
  p_media (skipn 2 (hd [] (media_lines m))) = Some (mkMedia (md_type m) (md_port m) (md_count m) (md_proto m) (md_fmt m) None None [] None [] None None None).
Proof.
  intros m A B C D E F G. unfold media_lines. cbn [hd]. change (skipn 2 (lit "m=" ++ ?x)) with x. set (p := print_N (md_port m) ++ _). unfold p_media.
  assert (P : wordlike p).
  { unfold p. split; [intros K; apply app_eq_nil in K as (K & _); now apply print_N_nonempty in K|]. intros c Hc. apply in_app_or in Hc as [Hc|Hc]; [now apply (digits_like (md_port m))|].
    destruct (md_count m) as [k|]; [|destruct Hc]. destruct Hc as [<-|Hc]; [reflexivity|now apply (digits_like k)]. }
  rewrite ws_spaced; [|now apply (word_like 32)|intros x [<-|[<-|Hx]]; [exact P|now apply (word_like 64)|now apply (forall_like 16 (md_fmt m))]].
  destruct (md_fmt m) as [|f fs] eqn:FE; [congruence|]. words. cbn [guard bindo].
  assert (Q : match split_on 47 p with [x] => n <- parse_uint u16_max x ;; Some (n, None) | x :: y :: _ => n <- parse_uint u16_max x ;; c <- parse_uint u16_max y ;; Some (n, Some c) | [] => None end = Some (md_port m, md_count m)).
  { assert (N47 : forall n, mem 47 (print_N n) = false) by (intros n; apply mem_false; intros K; apply print_N_digits in K; lia). unfold p. destruct (md_count m) as [k|].
    - rewrite split_on_app by apply N47. rewrite split_on_nomem by apply N47. rewrite !parse_uint_print by (unfold u16_max; try lia; now apply (C k)). reflexivity.
    - rewrite app_nil_r, split_on_nomem by apply N47. rewrite parse_uint_print by (unfold u16_max; lia). reflexivity. }
  rewrite Q. cbn [bindo fst snd]. apply forall_text in G. apply most_llen in F. change SD_FORMAT with 16. rewrite G. replace (llen (f :: fs) <=? SD_FORMATS) with true by (unfold SD_FORMATS; lia). reflexivity.
Qed.
