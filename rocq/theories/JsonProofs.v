(** The base64 and JSON readers agree with the standards. *)
From Coq Require Import ZArith NArith Bool String List Lia ZifyBool ZifyN ZifyNat.
Import ListNotations.
From Verif Require Import Base BaseFacts NumFacts Text TextFacts Json Identity IdentitySpec.
Open Scope N_scope.
Open Scope list_scope.

(** ** Base64url *)
Lemma sym_val : forall v, v < 64 -> b64_val (b64_sym v) = Some v.
Proof.
  intros v H. unfold b64_sym, b64_val, is_upper, is_lower, is_digit, in_range.
  destruct (v <? 26) eqn:E1; [replace ((65 <=? v + 65) && (v + 65 <=? 90)) with true by lia; f_equal; lia|].
  destruct (v <? 52) eqn:E2; [replace ((65 <=? v + 71) && (v + 71 <=? 90)) with false by lia; replace ((97 <=? v + 71) && (v + 71 <=? 122)) with true by lia; f_equal; lia|].
  destruct (v <? 62) eqn:E3.
  { replace ((65 <=? v - 4) && (v - 4 <=? 90)) with false by lia. replace ((97 <=? v - 4) && (v - 4 <=? 122)) with false by lia.
    replace ((48 <=? v - 4) && (v - 4 <=? 57)) with true by lia. f_equal; lia. }
  destruct (v =? 62) eqn:E4; [apply N.eqb_eq in E4; now subst|]. assert (v = 63) by lia. now subst.
Qed.
Lemma val_sym : forall c v, b64_val c = Some v -> v < 64 /\ c = b64_sym v.
Proof.
  intros c v. unfold b64_val, b64_sym, is_upper, is_lower, is_digit, in_range.
  destruct ((65 <=? c) && (c <=? 90)) eqn:E1; [intros [= <-]; replace (c - 65 <? 26) with true by lia; lia|].
  destruct ((97 <=? c) && (c <=? 122)) eqn:E2; [intros [= <-]; replace (c - 71 <? 26) with false by lia; replace (c - 71 <? 52) with true by lia; lia|].
  destruct ((48 <=? c) && (c <=? 57)) eqn:E3; [intros [= <-]; replace (c + 4 <? 26) with false by lia; replace (c + 4 <? 52) with false by lia; replace (c + 4 <? 62) with true by lia; lia|].
  destruct (c =? 45) eqn:E4; [intros [= <-]; cbn; lia|].
  destruct (c =? 95) eqn:E5; [intros [= <-]; cbn; lia|]. discriminate.
Qed.
Lemma b64_sym_nth : forall v, v < 64 -> nth (N.to_nat v) alphabet 0 = b64_sym v.
Proof.
  assert (H : forallb (fun k => nth k alphabet 0 =? b64_sym (N.of_nat k)) (seq 0 64) = true) by (vm_compute; reflexivity).
  intros v Hv. rewrite forallb_forall in H. specialize (H (N.to_nat v)). rewrite in_seq, N2Nat.id in H. apply N.eqb_eq. apply H. lia.
Qed.
Lemma b64_enc_ind : forall P : list N -> Prop,
  P [] -> (forall x, P [x]) -> (forall x y, P [x; y]) -> (forall x y z r, P r -> P (x :: y :: z :: r)) -> forall b, P b.
Proof.
  intros P H0 H1 H2 H3. fix IH 1. intros [|x [|y [|z r]]]; [assumption|apply H1|apply H2|apply H3, IH].
Qed.
Lemma four_ind : forall P : list N -> Prop,
  P [] -> (forall x, P [x]) -> (forall x y, P [x; y]) -> (forall x y z, P [x; y; z]) -> (forall x y z w r, P r -> P (x :: y :: z :: w :: r)) -> forall b, P b.
Proof.
  intros P H0 H1 H2 H3 H4. fix IH 1. intros [|x [|y [|z [|w r]]]]; [assumption|apply H1|apply H2|apply H3|apply H4, IH].
Qed.
Ltac euc := zify; Z.to_euclidean_division_equations; lia.
Lemma b64_round : forall b, is_bytes b = true -> b64_dec (b64_enc b) = Some b.
Proof.
  intros b. induction b using b64_enc_ind; intros H; cbn [is_bytes forallb] in H.
  - reflexivity.
  - cbn [b64_enc b64_dec]. rewrite !sym_val by (clear - H; euc).
    replace ((x mod 4 * 16) mod 16 =? 0) with true by (clear; symmetry; apply N.eqb_eq; euc). do 2 f_equal. clear. euc.
  - cbn [b64_enc b64_dec]. rewrite !sym_val by (clear - H; euc).
    replace ((y mod 16 * 4) mod 4 =? 0) with true by (clear; symmetry; apply N.eqb_eq; euc).
    replace (x / 4 * 4 + (x mod 4 * 16 + y / 16) / 16) with x by (clear - H; euc).
    replace ((x mod 4 * 16 + y / 16) mod 16 * 16 + y mod 16 * 4 / 4) with y by (clear - H; euc). reflexivity.
  - cbn [b64_enc b64_dec]. rewrite !sym_val by (clear - H; euc).
    rewrite IHb by (apply andb_prop in H as [_ H]; apply andb_prop in H as [_ H]; apply andb_prop in H as [_ H]; exact H).
    replace (x / 4 * 4 + (x mod 4 * 16 + y / 16) / 16) with x by (clear - H; euc).
    replace ((x mod 4 * 16 + y / 16) mod 16 * 16 + (y mod 16 * 4 + z / 64) / 4) with y by (clear - H; euc).
    replace ((y mod 16 * 4 + z / 64) mod 4 * 64 + z mod 64) with z by (clear - H; euc). reflexivity.
Qed.
Lemma b64_dec_enc : forall s b, b64_dec s = Some b -> s = b64_enc b /\ is_bytes b = true.
Proof.
  intros s. induction s as [|x|x y|x y z|x y z w s IHs] using four_ind; intros b0 H; cbn [b64_dec] in H.
  - injection H as <-. now split.
  - discriminate.
  - destruct (b64_val x) as [v0|] eqn:E0; [|discriminate]. destruct (b64_val y) as [v1|] eqn:E1; [|discriminate].
    destruct (v1 mod 16 =? 0) eqn:E; [|discriminate]. injection H as <-. apply val_sym in E0 as [L0 ->]. apply val_sym in E1 as [L1 ->]. cbn [b64_enc].
    split; [|unfold is_bytes; cbn [forallb]; clear - L0 L1; rewrite andb_true_r; apply N.ltb_lt; euc].
    replace ((v0 * 4 + v1 / 16) / 4) with v0 by (clear - L0 L1; euc). replace ((v0 * 4 + v1 / 16) mod 4 * 16) with v1 by (clear - L0 L1 E; euc). reflexivity.
  - destruct (b64_val x) as [v0|] eqn:E0; [|discriminate]. destruct (b64_val y) as [v1|] eqn:E1; [|discriminate]. destruct (b64_val z) as [v2|] eqn:E2; [|discriminate].
    destruct (v2 mod 4 =? 0) eqn:E; [|discriminate]. injection H as <-. apply val_sym in E0 as [L0 ->]. apply val_sym in E1 as [L1 ->]. apply val_sym in E2 as [L2 ->]. cbn [b64_enc].
    split; [|unfold is_bytes; cbn [forallb]; clear - L0 L1 L2; rewrite andb_true_r; apply andb_true_intro; split; apply N.ltb_lt; euc].
    replace ((v0 * 4 + v1 / 16) / 4) with v0 by (clear - L0 L1; euc).
    replace ((v0 * 4 + v1 / 16) mod 4 * 16 + (v1 mod 16 * 16 + v2 / 4) / 16) with v1 by (clear - L0 L1 L2 E; euc).
    replace ((v1 mod 16 * 16 + v2 / 4) mod 16 * 4) with v2 by (clear - L0 L1 L2 E; euc). reflexivity.
  - destruct (b64_val x) as [v0|] eqn:E0; [|discriminate]. destruct (b64_val y) as [v1|] eqn:E1; [|discriminate]. destruct (b64_val z) as [v2|] eqn:E2; [|discriminate].
    destruct (b64_val w) as [v3|] eqn:E3; [|discriminate]. destruct (b64_dec s) as [t|] eqn:Es; [|discriminate]. destruct (IHs t eq_refl) as [-> Hb].
    injection H as <-. apply val_sym in E0 as [L0 ->]. apply val_sym in E1 as [L1 ->]. apply val_sym in E2 as [L2 ->]. apply val_sym in E3 as [L3 ->]. cbn [b64_enc].
    split; [|unfold is_bytes; cbn [forallb]; fold (is_bytes t); rewrite Hb; clear - L0 L1 L2 L3; rewrite andb_true_r; apply andb_true_intro; split; [apply N.ltb_lt; euc|apply andb_true_intro; split; apply N.ltb_lt; euc]].
    replace ((v0 * 4 + v1 / 16) / 4) with v0 by (clear - L0 L1; euc).
    replace ((v0 * 4 + v1 / 16) mod 4 * 16 + (v1 mod 16 * 16 + v2 / 4) / 16) with v1 by (clear - L0 L1 L2; euc).
    replace ((v1 mod 16 * 16 + v2 / 4) mod 16 * 4 + (v2 mod 4 * 64 + v3) / 64) with v2 by (clear - L1 L2 L3; euc).
    replace ((v2 mod 4 * 64 + v3) mod 64) with v3 by (clear - L2 L3; euc). reflexivity.
Qed.
(** the same in bits *)
Lemma bits_length : forall k n, length (bits k n) = k.
Proof. induction k as [|k IH]; intros n; [reflexivity|]. cbn [bits length]. now rewrite IH. Qed.
Definition pairs_ok (f : N -> N -> bool) : bool := forallb (fun x => forallb (fun y => f (N.of_nat x) (N.of_nat y)) (seq 0 64)) (seq 0 64).
Lemma pairs_all : forall f, pairs_ok f = true -> forall x y, x < 64 -> y < 64 -> f x y = true.
Proof.
  intros f H x y Hx Hy. unfold pairs_ok in H. rewrite forallb_forall in H. specialize (H (N.to_nat x)). rewrite in_seq in H. specialize (H ltac:(lia)).
  rewrite forallb_forall in H. specialize (H (N.to_nat y)). rewrite in_seq, !N2Nat.id in H. apply H. lia.
Qed.
Fixpoint beqs (a b : list bool) : bool := match a, b with [], [] => true | x :: a', y :: b' => Bool.eqb x y && beqs a' b' | _, _ => false end.
Lemma beqs_eq : forall a b, beqs a b = true -> a = b.
Proof. induction a as [|x a IH]; intros [|y b] H; cbn in H; try discriminate; [reflexivity|]. apply andb_prop in H as [H1 H2]. apply eqb_prop in H1. apply IH in H2. congruence. Qed.
Lemma bits_first : forall x y, x < 64 -> y < 64 -> bits 8 (x * 4 + y / 16) = bits 6 x ++ firstn 2 (bits 6 y).
Proof. intros x y Hx Hy. apply beqs_eq. revert x y Hx Hy. apply pairs_all. vm_compute. reflexivity. Qed.
Lemma bits_second : forall x y, x < 64 -> y < 64 -> bits 8 (x mod 16 * 16 + y / 4) = skipn 2 (bits 6 x) ++ firstn 4 (bits 6 y).
Proof. intros x y Hx Hy. apply beqs_eq. revert x y Hx Hy. apply pairs_all. vm_compute. reflexivity. Qed.
Lemma bits_third : forall x y, x < 64 -> y < 64 -> bits 8 (x mod 4 * 64 + y) = skipn 4 (bits 6 x) ++ bits 6 y.
Proof. intros x y Hx Hy. apply beqs_eq. revert x y Hx Hy. apply pairs_all. vm_compute. reflexivity. Qed.

Lemma app_split_at : forall A (a b c d : list A), a ++ b = c ++ d -> length a = length c -> a = c /\ b = d.
Proof.
  induction a as [|x a IH]; intros b [|y c] d H L; cbn in *; try lia; [now split|]. injection H as -> H. apply IH in H as [-> ->]; [now split|lia].
Qed.
Lemma bits8_inj : forall x y, x < 256 -> y < 256 -> bits 8 x = bits 8 y -> x = y.
Proof.
  intros x y Hx Hy H. cbn [bits] in H. injection H as H7 H6 H5 H4 H3 H2 H1 H0. apply N.bits_inj. intros n.
  assert (Hn : n < 8 \/ 8 <= n) by lia. destruct Hn as [Hn|Hn].
  - assert (In n [0;1;2;3;4;5;6;7]) as Hi by (cbn; lia). cbn in Hi. cbn in *. intuition (subst; assumption).
  - destruct (N.eq_dec x 0) as [->|Nx]; destruct (N.eq_dec y 0) as [->|Ny]; rewrite ?N.bits_0; try reflexivity;
      rewrite ?(N.bits_above_log2 x n), ?(N.bits_above_log2 y n); try reflexivity;
      apply N.lt_le_trans with 8; try assumption; apply N.log2_lt_pow2; cbn; lia.
Qed.
Lemma zero_low4 : forall v, v < 64 -> skipn 2 (bits 6 v) = repeat false 4 <-> v mod 16 = 0.
Proof.
  assert (H : forallb (fun v => Bool.eqb (beqs (skipn 2 (bits 6 (N.of_nat v))) (repeat false 4)) (N.of_nat v mod 16 =? 0)) (seq 0 64) = true) by (vm_compute; reflexivity).
  intros v Hv. rewrite forallb_forall in H. specialize (H (N.to_nat v)). rewrite in_seq, N2Nat.id in H. specialize (H ltac:(lia)). apply eqb_prop in H. split; intros K.
  - rewrite K in H. cbn in H. symmetry in H. now apply N.eqb_eq.
  - rewrite K in H. cbn in H. now apply beqs_eq.
Qed.
Lemma zero_low2 : forall v, v < 64 -> skipn 4 (bits 6 v) = repeat false 2 <-> v mod 4 = 0.
Proof.
  assert (H : forallb (fun v => Bool.eqb (beqs (skipn 4 (bits 6 (N.of_nat v))) (repeat false 2)) (N.of_nat v mod 4 =? 0)) (seq 0 64) = true) by (vm_compute; reflexivity).
  intros v Hv. rewrite forallb_forall in H. specialize (H (N.to_nat v)). rewrite in_seq, N2Nat.id in H. specialize (H ltac:(lia)). apply eqb_prop in H. split; intros K.
  - rewrite K in H. cbn in H. symmetry in H. now apply N.eqb_eq.
  - rewrite K in H. cbn in H. now apply beqs_eq.
Qed.
Lemma bits_take : forall k n m, (m <= k)%nat -> firstn m (bits k n) ++ skipn m (bits k n) = bits k n.
Proof. intros. apply firstn_skipn. Qed.
Lemma b64_sound : forall s b, b64_dec s = Some b -> base64url s b.
Proof.
  intros s. induction s as [|x|x y|x y z|x y z w s IHs] using four_ind; intros b0 H; cbn [b64_dec] in H.
  - injection H as <-. exists [], 0%nat. now repeat split; [constructor|lia].
  - discriminate.
  - destruct (b64_val x) as [v0|] eqn:E0; [|discriminate]. destruct (b64_val y) as [v1|] eqn:E1; [|discriminate].
    destruct (v1 mod 16 =? 0) eqn:E; [|discriminate]. injection H as <-. apply val_sym in E0 as [L0 ->]. apply val_sym in E1 as [L1 ->]. apply N.eqb_eq in E.
    exists [v0; v1], 4%nat. split; [now repeat constructor|]. split; [cbn [map]; now rewrite !b64_sym_nth|]. split; [lia|].
    cbn [flat_map]. rewrite !app_nil_r, bits_first, <- app_assoc by assumption. apply zero_low4 in E; [|assumption]. rewrite <- E, firstn_skipn. reflexivity.
  - destruct (b64_val x) as [v0|] eqn:E0; [|discriminate]. destruct (b64_val y) as [v1|] eqn:E1; [|discriminate]. destruct (b64_val z) as [v2|] eqn:E2; [|discriminate].
    destruct (v2 mod 4 =? 0) eqn:E; [|discriminate]. injection H as <-. apply val_sym in E0 as [L0 ->]. apply val_sym in E1 as [L1 ->]. apply val_sym in E2 as [L2 ->]. apply N.eqb_eq in E.
    exists [v0; v1; v2], 2%nat. split; [now repeat constructor|]. split; [cbn [map]; now rewrite !b64_sym_nth|]. split; [lia|].
    cbn [flat_map]. rewrite !app_nil_r, bits_first, bits_second by assumption. apply zero_low2 in E; [|assumption]. rewrite <- E, <- !app_assoc, firstn_skipn.
    rewrite (app_assoc (firstn 2 _)), firstn_skipn. reflexivity.
  - destruct (b64_val x) as [v0|] eqn:E0; [|discriminate]. destruct (b64_val y) as [v1|] eqn:E1; [|discriminate]. destruct (b64_val z) as [v2|] eqn:E2; [|discriminate].
    destruct (b64_val w) as [v3|] eqn:E3; [|discriminate]. destruct (b64_dec s) as [t|] eqn:Es; [|discriminate]. destruct (IHs t eq_refl) as (vs & k & Hv & -> & Hk & Hb).
    injection H as <-. apply val_sym in E0 as [L0 ->]. apply val_sym in E1 as [L1 ->]. apply val_sym in E2 as [L2 ->]. apply val_sym in E3 as [L3 ->].
    exists (v0 :: v1 :: v2 :: v3 :: vs), k. split; [now repeat constructor|]. split; [cbn [map]; now rewrite !b64_sym_nth|]. split; [assumption|].
    cbn [flat_map]. rewrite Hb, bits_first, bits_second, bits_third by assumption. rewrite <- !app_assoc.
    rewrite (app_assoc (firstn 2 _)), firstn_skipn, (app_assoc (firstn 4 _)), firstn_skipn. reflexivity.
Qed.
Lemma flat_bits_length : forall k l, length (flat_map (bits k) l) = (k * length l)%nat.
Proof. intros k l. induction l as [|x l IH]; [cbn; lia|]. cbn [flat_map length]. rewrite app_length, bits_length, IH. lia. Qed.
Lemma b64_complete : forall s b, is_bytes b = true -> base64url s b -> b64_dec s = Some b.
Proof.
  intros s b Hb (vs & k & Hv & -> & Hk & E). revert b Hb E. induction vs as [|x|x y|x y z|x y z w vs IH] using four_ind; intros b Hb E;
    pose proof (f_equal (@length bool) E) as L; rewrite app_length, repeat_length, !flat_bits_length in L; cbn [length] in L.
  - destruct b as [|? b]; [reflexivity|cbn [length] in L; lia].
  - destruct b as [|? b]; cbn [length] in L; lia.
  - destruct b as [|p [|? b]]; cbn [length] in L; try lia. assert (k = 4)%nat as -> by lia.
    rewrite !Forall_cons_iff in Hv. destruct Hv as (L0 & L1 & _). cbn [is_bytes forallb] in Hb. cbn [flat_map] in E. rewrite !app_nil_r in E.
    rewrite <- (firstn_skipn 2 (bits 6 y)), app_assoc, <- bits_first in E by assumption. apply app_split_at in E as [E1 E2]; [|now rewrite !bits_length].
    cbn [map b64_dec]. rewrite !b64_sym_nth, !sym_val by assumption. apply zero_low4 in E2; [|assumption]. rewrite E2. cbn [N.eqb].
    apply bits8_inj in E1; [now rewrite E1| |lia]. clear - L0 L1. euc.
  - destruct b as [|p [|q [|? b]]]; cbn [length] in L; try lia. assert (k = 2)%nat as -> by lia.
    rewrite !Forall_cons_iff in Hv. destruct Hv as (L0 & L1 & L2 & _). cbn [is_bytes forallb] in Hb. cbn [flat_map] in E. rewrite !app_nil_r in E.
    rewrite <- (firstn_skipn 2 (bits 6 y)), <- (firstn_skipn 4 (bits 6 z)), <- !app_assoc in E. rewrite (app_assoc (bits 6 x)), <- bits_first in E by assumption.
    rewrite (app_assoc (skipn 2 _)), <- bits_second in E by assumption.
    apply app_split_at in E as [E1 E]; [|now rewrite !bits_length]. apply app_split_at in E as [E2 E]; [|now rewrite !bits_length].
    cbn [map b64_dec]. rewrite !b64_sym_nth, !sym_val by assumption. apply zero_low2 in E; [|assumption]. rewrite E. cbn [N.eqb].
    apply bits8_inj in E1; [rewrite E1| |lia]; [|clear - L0 L1; euc]. apply bits8_inj in E2; [now rewrite E2| |lia]. clear - L1 L2. euc.
  - destruct b as [|p [|q [|o b]]]; cbn [length] in L; try lia.
    rewrite !Forall_cons_iff in Hv. destruct Hv as (L0 & L1 & L2 & L3 & Hv). cbn [is_bytes forallb] in Hb. cbn [flat_map] in E.
    rewrite <- (firstn_skipn 2 (bits 6 y)), <- (firstn_skipn 4 (bits 6 z)), <- !app_assoc in E. rewrite (app_assoc (bits 6 x)), <- bits_first in E by assumption.
    rewrite (app_assoc (skipn 2 _)), <- bits_second in E by assumption. rewrite (app_assoc (skipn 4 _)), <- bits_third in E by assumption.
    apply app_split_at in E as [E1 E]; [|now rewrite !bits_length]. apply app_split_at in E as [E2 E]; [|now rewrite !bits_length]. apply app_split_at in E as [E3 E]; [|now rewrite !bits_length].
    cbn [map b64_dec]. rewrite !b64_sym_nth, !sym_val by assumption.
    apply andb_prop in Hb as [B1 Hb]. apply andb_prop in Hb as [B2 Hb]. apply andb_prop in Hb as [B3 Hb].
    rewrite (IH Hv b Hb E). apply bits8_inj in E1; [rewrite E1| |lia]; [|clear - L0 L1; euc]. apply bits8_inj in E2; [rewrite E2| |lia]; [|clear - L1 L2; euc].
    apply bits8_inj in E3; [now rewrite E3| |lia]. clear - L2 L3. euc.
Qed.

(** ** The JSON grammar *)
Scheme jtext_mut := Minimality for jtext Sort Prop
  with jlist_mut := Minimality for jlist Sort Prop
  with jpairs_mut := Minimality for jpairs Sort Prop.
Combined Scheme jgrammar_ind from jtext_mut, jlist_mut, jpairs_mut.

Lemma is_jws_in : forall c, is_jws c = true <-> In c [32; 9; 10; 13].
Proof. intros c. unfold is_jws. cbn [In]. lia. Qed.
Lemma skip_ws_spec : forall b, exists w, b = w ++ skip_ws b /\ blanks w /\ match skip_ws b with [] => True | c :: _ => is_jws c = false end.
Proof.
  induction b as [|c b (w & E & W & H)]; [exists []; repeat split; constructor|]. unfold skip_ws in *. cbn [drop_while]. destruct (is_jws c) eqn:Ec.
  - exists (c :: w). rewrite <- app_comm_cons, <- E. split; [reflexivity|]. split; [constructor; [now apply is_jws_in|assumption]|assumption].
  - exists []. split; [reflexivity|]. split; [constructor|assumption].
Qed.
Lemma skip_ws_app : forall w b, blanks w -> skip_ws (w ++ b) = skip_ws b.
Proof. intros w b H. induction H as [|c w Hc H IH]; [reflexivity|]. unfold skip_ws. cbn [app drop_while]. apply is_jws_in in Hc. rewrite Hc. exact IH. Qed.
Lemma skip_ws_cons : forall c b, is_jws c = false -> skip_ws (c :: b) = c :: b.
Proof. intros c b H. unfold skip_ws. cbn [drop_while]. now rewrite H. Qed.
Lemma skip_ws_idem : forall b, skip_ws (skip_ws b) = skip_ws b.
Proof. intros b. destruct (skip_ws_spec b) as (w & _ & _ & H). destruct (skip_ws b) as [|c r]; [reflexivity|]. now apply skip_ws_cons. Qed.

Lemma span_all : forall p a b, forallb p a = true -> match b with [] => True | c :: _ => p c = false end -> span p (a ++ b) = (a, b).
Proof.
  intros p a b H Hb. induction a as [|c a IH].
  - cbn [app]. destruct b as [|c b]; [reflexivity|]. cbn [span]. now rewrite Hb.
  - cbn [forallb] in H. apply andb_prop in H as [H1 H2]. cbn [app span]. rewrite H1, IH by assumption. reflexivity.
Qed.
Lemma span_rest : forall p s, match snd (span p s) with [] => True | c :: _ => p c = false end.
Proof. intros p s. induction s as [|c s IH]; [exact I|]. cbn [span]. destruct (p c) eqn:E; [|cbn; assumption]. destruct (span p s) as [a b]. exact IH. Qed.

(** *** Strings *)
Lemma esc_char_in : forall e d, esc_char e = Some d <-> In (e, d) [(34, 34); (92, 92); (47, 47); (98, 8); (102, 12); (110, 10); (114, 13); (116, 9)].
Proof.
  intros e d. unfold esc_char. split.
  - repeat match goal with |- context [if ?a =? ?b then _ else _] => let E := fresh in destruct (a =? b) eqn:E; [apply N.eqb_eq in E; subst e; intros [= <-]; cbn; tauto|clear E] end. discriminate.
  - cbn [In]. intros H. repeat (destruct H as [[= <- <-]|H]; [reflexivity|]). contradiction.
Qed.
Lemma esc_not_u : forall d, esc_char 117 = Some d -> False. Proof. intros d H. discriminate. Qed.
Lemma jstring_complete : forall u t, jchars u t -> forall r, jstring (t ++ 34 :: r) = Some (u, r).
Proof.
  intros u t H. induction H as [|c u t H1 H2 H3 H IH|e d u t He H IH|h0 h1 h2 h3 a0 a1 a2 a3 u t E0 E1 E2 E3 H IH]; intros r.
  - reflexivity.
  - cbn [app jstring]. apply N.eqb_neq in H2, H3. rewrite H2, H3, IH. replace (c <? 32) with false by lia. reflexivity.
  - cbn [app jstring]. cbn [N.eqb Pos.eqb]. apply esc_char_in in He. destruct (e =? 117) eqn:E; [apply N.eqb_eq in E; subst; discriminate|]. rewrite He, IH. reflexivity.
  - cbn [app jstring]. cbn [N.eqb Pos.eqb]. rewrite E0, E1, E2, E3, IH. do 4 f_equal. lia.
Qed.
Lemma jstring_sound : forall n b u r, (length b <= n)%nat -> jstring b = Some (u, r) -> exists t, b = t ++ 34 :: r /\ jchars u t.
Proof.
  induction n as [|n IH]; intros b u r L H; [destruct b; [discriminate|cbn in L; lia]|].
  destruct b as [|c b]; [discriminate|]. cbn [jstring] in H. cbn [length] in L.
  destruct (c =? 34) eqn:E1; [apply N.eqb_eq in E1; subst; injection H as <- <-; exists []; split; [reflexivity|constructor]|].
  destruct (c =? 92) eqn:E2.
  - apply N.eqb_eq in E2. subst c. destruct b as [|e b]; [discriminate|]. cbn [length] in L. destruct (e =? 117) eqn:E3.
    + apply N.eqb_eq in E3. subst e. destruct b as [|h0 [|h1 [|h2 [|h3 b]]]]; try discriminate. cbn [length] in L.
      destruct (hex_val h0) as [a0|] eqn:X0; [|discriminate]. destruct (hex_val h1) as [a1|] eqn:X1; [|discriminate].
      destruct (hex_val h2) as [a2|] eqn:X2; [|discriminate]. destruct (hex_val h3) as [a3|] eqn:X3; [|discriminate].
      destruct (jstring b) as [[u' q]|] eqn:Ej; [|discriminate]. injection H as <- <-. apply IH in Ej as (t & -> & Ht); [|lia].
      exists (92 :: 117 :: h0 :: h1 :: h2 :: h3 :: t). split; [reflexivity|].
      replace (((a0 * 16 + a1) * 16 + a2) * 16 + a3) with (a0 * 4096 + a1 * 256 + a2 * 16 + a3) by lia. now constructor.
    + destruct (esc_char e) as [d|] eqn:Ee; [|discriminate]. destruct (jstring b) as [[u' q]|] eqn:Ej; [|discriminate]. injection H as <- <-.
      apply IH in Ej as (t & -> & Ht); [|lia]. exists (92 :: e :: t). split; [reflexivity|]. constructor; [now apply esc_char_in|assumption].
  - destruct (c <? 32) eqn:E3; [discriminate|]. destruct (jstring b) as [[u' q]|] eqn:Ej; [|discriminate]. injection H as <- <-.
    apply IH in Ej as (t & -> & Ht); [|lia]. exists (c :: t). split; [reflexivity|]. constructor; try assumption; lia.
Qed.

(** *** Numbers *)
Definition follows (b : list N) : Prop := match b with [] => True | c :: _ => is_digit c = false /\ c <> 46 /\ c <> 101 /\ c <> 69 end.
Lemma digits_forallb : forall d, digits d -> forallb is_digit d = true.
Proof. intros d [_ H]. apply forallb_forall. intros c Hc. rewrite Forall_forall in H. apply H in Hc. unfold is_digit, in_range. lia. Qed.
Lemma forallb_digits : forall d, d <> [] -> forallb is_digit d = true -> digits d.
Proof. intros d H K. split; [assumption|]. rewrite Forall_forall. rewrite forallb_forall in K. intros c Hc. apply K in Hc. unfold is_digit, in_range in Hc. lia. Qed.
Lemma jfrac_complete : forall frac r, (frac = [] \/ exists f, frac = 46 :: f /\ digits f) -> match r with [] => True | c :: _ => is_digit c = false /\ c <> 46 end ->
  jfrac (frac ++ r) = Some (match frac with [] => false | _ => true end, r).
Proof.
  intros frac r [->|(f & -> & Hf)] H.
  - cbn [app]. destruct r as [|c r]; [reflexivity|]. destruct H as [_ H]. apply N.eqb_neq in H. cbn [jfrac]. now rewrite H.
  - cbn [app jfrac]. cbn [N.eqb Pos.eqb]. rewrite span_all; [|now apply digits_forallb|destruct r; [exact I|apply H]]. destruct Hf as [Hf _]. destruct f; [congruence|reflexivity].
Qed.
Lemma jexp_complete : forall expo r, (expo = [] \/ exists e sg x, expo = e :: sg ++ x /\ In e [101; 69] /\ In sg [[]; [43]; [45]] /\ digits x) -> follows r ->
  jexp (expo ++ r) = Some (match expo with [] => false | _ => true end, r).
Proof.
  intros expo r [->|(e & sg & x & -> & He & Hs & Hx)] H.
  - cbn [app]. destruct r as [|c r]; [reflexivity|]. destruct H as (_ & _ & H1 & H2). apply N.eqb_neq in H1, H2. cbn [jexp]. rewrite H1, H2. reflexivity.
  - cbn [app jexp]. replace ((e =? 101) || (e =? 69)) with true by (cbn [In] in He; lia).
    assert (Hr : match r with [] => True | c :: _ => is_digit c = false end) by (destruct r; [exact I|apply H]).
    assert (X : match (sg ++ x) ++ r with s :: r' => if (s =? 43) || (s =? 45) then r' else (sg ++ x) ++ r | [] => (sg ++ x) ++ r end = x ++ r).
    { pose proof (digits_forallb x Hx) as D. destruct Hx as [Nx _]. cbn [In] in Hs. destruct Hs as [<-|[<-|[<-|[]]]].
      - destruct x as [|d x]; [congruence|]. cbn [app]. cbn [forallb] in D. replace ((d =? 43) || (d =? 45)) with false by (unfold is_digit, in_range in D; lia). reflexivity.
      - reflexivity.
      - reflexivity. }
    cbv zeta. rewrite X. rewrite span_all; [|now apply digits_forallb|assumption]. destruct Hx as [Hx _]. destruct x; [congruence|reflexivity].
Qed.
Lemma jnum_complete : forall neg ds float t r, jnumber neg ds float t -> follows r -> jnum (t ++ r) = Some (JNum neg ds float, r).
Proof.
  intros neg ds float t r (frac & expo & -> & Hd & Hz & Hf & He & Hfl) Hr. unfold jnum.
  assert (Hh : exists d ds', ds = d :: ds' /\ is_digit d = true).
  { pose proof (digits_forallb ds Hd) as D. destruct Hd as [Hd _]. destruct ds as [|d ds']; [congruence|]. cbn [forallb] in D. apply andb_prop in D. exists d, ds'. split; [reflexivity|apply D]. }
  destruct Hh as (d & ds' & -> & Hd1).
  assert (X : (match ((if neg then [45] else []) ++ (d :: ds') ++ frac ++ expo) ++ r with c :: r0 => if c =? 45 then (true, r0) else (false, ((if neg then [45] else []) ++ (d :: ds') ++ frac ++ expo) ++ r) | [] => (false, ((if neg then [45] else []) ++ (d :: ds') ++ frac ++ expo) ++ r) end) = (neg, (d :: ds') ++ frac ++ expo ++ r)).
  { destruct neg; cbn [app].
    - cbn [N.eqb Pos.eqb]. now rewrite <- !app_assoc.
    - replace (d =? 45) with false by (unfold is_digit, in_range in Hd1; lia). now rewrite <- !app_assoc. }
  rewrite X. rewrite span_all; [|now apply digits_forallb|].
  - replace ((d =? 48) && negb (length ds' =? 0)%nat) with false.
    + rewrite jfrac_complete; [|assumption|].
      * rewrite jexp_complete by assumption. do 3 f_equal. destruct frac as [|? ?]; destruct expo as [|? ?]; cbn [orb]; destruct float; try reflexivity.
        -- symmetry. now apply Hfl.
        -- destruct Hfl as [Hfl _]. destruct (Hfl eq_refl). discriminate.
        -- destruct Hfl as [Hfl _]. destruct (Hfl eq_refl). discriminate.
        -- destruct Hfl as [Hfl _]. destruct (Hfl eq_refl). discriminate.
      * destruct He as [->|(e & sg & x & -> & Hi & _)]; cbn [app].
        -- destruct r; [exact I|]. split; apply Hr.
        -- cbn [In] in Hi. unfold is_digit, in_range. lia.
    + symmetry. destruct (d =? 48) eqn:Ed; [|reflexivity]. apply N.eqb_eq in Ed. specialize (Hz Ed). injection Hz as _ ->. reflexivity.
  - destruct Hf as [->|(f & -> & _)]; cbn [app]; [|reflexivity].
    destruct He as [->|(e & sg & x & -> & Hi & _)]; cbn [app].
    + destruct r; [exact I|apply Hr].
    + cbn [In] in Hi. unfold is_digit, in_range. lia.
Qed.
Lemma jfrac_sound : forall b f r, jfrac b = Some (f, r) -> exists frac, b = frac ++ r /\ (frac = [] \/ exists x, frac = 46 :: x /\ digits x) /\ (f = false <-> frac = []).
Proof.
  intros b f r H. unfold jfrac in H. destruct b as [|c b]; [injection H as <- <-; exists []; repeat split; now left|].
  destruct (c =? 46) eqn:E; [|injection H as <- <-; exists []; repeat split; now left]. apply N.eqb_eq in E. subst c.
  destruct (span_spec is_digit b) as [S1 S2]. destruct (span is_digit b) as [a q]. cbn [fst snd] in *. destruct a as [|d a]; [discriminate|]. injection H as <- <-.
  exists (46 :: d :: a). split; [now rewrite S1|]. split; [right; exists (d :: a); split; [reflexivity|now apply forallb_digits]|]. split; discriminate.
Qed.
Lemma jexp_sound : forall b f r, jexp b = Some (f, r) -> exists expo, b = expo ++ r /\ (expo = [] \/ exists e sg x, expo = e :: sg ++ x /\ In e [101; 69] /\ In sg [[]; [43]; [45]] /\ digits x) /\ (f = false <-> expo = []).
Proof.
  intros b f r H. unfold jexp in H. destruct b as [|c b]; [injection H as <- <-; exists []; repeat split; now left|].
  destruct ((c =? 101) || (c =? 69)) eqn:E; [|injection H as <- <-; exists []; repeat split; now left]. cbv zeta in H.
  set (r1 := match b with s :: r' => if (s =? 43) || (s =? 45) then r' else b | [] => b end) in H.
  assert (X : exists sg, b = sg ++ r1 /\ In sg [[]; [43]; [45]]).
  { unfold r1. destruct b as [|s b]; [exists []; split; [reflexivity|now left]|]. destruct ((s =? 43) || (s =? 45)) eqn:Es; [|exists []; split; [reflexivity|now left]].
    exists [s]. split; [reflexivity|]. cbn [In]. destruct (s =? 43) eqn:E43; [apply N.eqb_eq in E43; subst; tauto|]. cbn in Es. apply N.eqb_eq in Es. subst. tauto. }
  destruct X as (sg & Xb & Xs). destruct (span_spec is_digit r1) as [S1 S2]. destruct (span is_digit r1) as [a q]. cbn [fst snd] in *. destruct a as [|d a]; [discriminate|]. injection H as <- <-.
  exists (c :: sg ++ d :: a). split; [cbn [app]; rewrite <- app_assoc; now rewrite <- S1, <- Xb|]. split; [right; exists c, sg, (d :: a); repeat split; try assumption|].
  - cbn [In]. lia.
  - discriminate.
  - apply forallb_digits in S2; [apply S2|discriminate].
  - split; discriminate.
Qed.
Lemma jnum_sound : forall b v r, jnum b = Some (v, r) -> exists t, b = t ++ r /\ jtext v t.
Proof.
  intros b v r H. unfold jnum in H.
  assert (X : exists neg b1, (match b with c :: r0 => if c =? 45 then (true, r0) else (false, b) | [] => (false, b) end) = (neg, b1) /\ b = (if neg then [45] else []) ++ b1).
  { destruct b as [|c b]; [now exists false, []|]. destruct (c =? 45) eqn:E; [apply N.eqb_eq in E; subst; now exists true, b|now exists false, (c :: b)]. }
  destruct X as (neg & b1 & X & Hb). rewrite X in H.
  destruct (span_spec is_digit b1) as [S1 S2]. destruct (span is_digit b1) as [a q]. cbn [fst snd] in *. destruct a as [|d ds]; [discriminate|].
  destruct ((d =? 48) && negb (length ds =? 0)%nat) eqn:Ez; [discriminate|].
  destruct (jfrac q) as [[f1 r1]|] eqn:Ef; [|discriminate]. destruct (jexp r1) as [[f2 r2]|] eqn:Ee; [|discriminate]. injection H as <- <-.
  apply jfrac_sound in Ef as (frac & -> & F1 & F2). apply jexp_sound in Ee as (expo & -> & X1 & X2).
  exists ((if neg then [45] else []) ++ (d :: ds) ++ frac ++ expo). split; [rewrite Hb, S1, <- !app_assoc; reflexivity|]. constructor. exists frac, expo.
  split; [reflexivity|]. split; [apply forallb_digits; [discriminate|assumption]|]. split; [|split; [assumption|split; [assumption|]]].
  - cbn [hd]. intros ->. cbn in Ez. destruct ds; [reflexivity|discriminate].
  - rewrite orb_false_iff. tauto.
Qed.

(** *** Values *)
Lemma jval_eq : forall f b, jval (S f) b =
      match skip_ws b with
      | [] => None
      | c :: r =>
          if c =? 34 then match jstring r with Some (u, q) => Some (JStr u, q) | None => None end
          else if c =? 91 then
            match skip_ws r with
            | [] => None
            | d :: r1 => if d =? 93 then Some (JArr [], r1) else match jelems f r with Some (l, q) => Some (JArr l, q) | None => None end
            end
          else if c =? 123 then
            match skip_ws r with
            | [] => None
            | d :: r1 => if d =? 125 then Some (JObj [], r1) else match jmembers f r with Some (l, q) => Some (JObj l, q) | None => None end
            end
          else if c =? 110 then match strip_prefix (lit "ull") r with Some q => Some (JNull, q) | None => None end
          else if c =? 116 then match strip_prefix (lit "rue") r with Some q => Some (JBool true, q) | None => None end
          else if c =? 102 then match strip_prefix (lit "alse") r with Some q => Some (JBool false, q) | None => None end
          else jnum (c :: r)
      end.
Proof. reflexivity. Qed.
Lemma jelems_eq : forall f b, jelems (S f) b =
      match jval f b with
      | None => None
      | Some (v, r) =>
          match skip_ws r with
          | [] => None
          | d :: r1 =>
              if d =? 93 then Some ([v], r1)
              else if d =? 44 then match jelems f r1 with Some (l, q) => Some (v :: l, q) | None => None end
              else None
          end
      end.
Proof. reflexivity. Qed.
Lemma jmembers_eq : forall f b, jmembers (S f) b =
      match skip_ws b with
      | [] => None
      | c :: r =>
          if c =? 34 then
            match jstring r with
            | None => None
            | Some (k, r1) =>
                match skip_ws r1 with
                | [] => None
                | d :: r2 =>
                    if d =? 58 then
                      match jval f r2 with
                      | None => None
                      | Some (v, r3) =>
                          match skip_ws r3 with
                          | [] => None
                          | e :: r4 =>
                              if e =? 125 then Some ([(k, v)], r4)
                              else if e =? 44 then match jmembers f r4 with Some (l, q) => Some ((k, v) :: l, q) | None => None end
                              else None
                          end
                      end
                    else None
                end
            end
          else None
      end.
Proof. reflexivity. Qed.

Lemma skip_case : forall b c r, skip_ws b = c :: r -> exists w, b = w ++ c :: r /\ blanks w.
Proof. intros b c r H. destruct (skip_ws_spec b) as (w & E & W & _). rewrite H in E. now exists w. Qed.
Definition val_sound f := forall b v r, jval f b = Some (v, r) -> exists w t, b = w ++ t ++ r /\ blanks w /\ jtext v t.
Definition list_sound f := forall b l r, jelems f b = Some (l, r) -> exists t, b = t ++ 93 :: r /\ jlist l t.
Definition pair_sound f := forall b l r, jmembers f b = Some (l, r) -> exists t, b = t ++ 125 :: r /\ jpairs l t.
Lemma json_sound_all : forall f, val_sound f /\ list_sound f /\ pair_sound f.
Proof.
  induction f as [|f (IV & IL & IP)]; [repeat split; intros ? ? ? H; discriminate|]. split; [|split].
  - intros b v r H. rewrite jval_eq in H. destruct (skip_ws b) as [|c q] eqn:Es; [discriminate|]. apply skip_case in Es as (w & -> & W).
    destruct (c =? 34) eqn:E1.
    { apply N.eqb_eq in E1. subst c. destruct (jstring q) as [[u q']|] eqn:Ej; [|discriminate]. injection H as <- <-. apply (jstring_sound (length q)) in Ej as (t & -> & Ht); [|lia].
      exists w, (34 :: t ++ [34]). split; [cbn [app]; now rewrite <- app_assoc|]. split; [assumption|now constructor]. }
    destruct (c =? 91) eqn:E2.
    { apply N.eqb_eq in E2. subst c. destruct (skip_ws q) as [|d q1] eqn:Es; [discriminate|]. destruct (d =? 93) eqn:E3.
      - apply N.eqb_eq in E3. subst d. injection H as <- <-. apply skip_case in Es as (w2 & -> & W2). exists w, (91 :: w2 ++ [93]). split; [cbn [app]; now rewrite <- app_assoc|]. split; [assumption|now constructor].
      - destruct (jelems f q) as [[l q']|] eqn:El; [|discriminate]. injection H as <- <-. apply IL in El as (t & -> & Ht). exists w, (91 :: t ++ [93]). split; [cbn [app]; now rewrite <- app_assoc|]. split; [assumption|now constructor]. }
    destruct (c =? 123) eqn:E4.
    { apply N.eqb_eq in E4. subst c. destruct (skip_ws q) as [|d q1] eqn:Es; [discriminate|]. destruct (d =? 125) eqn:E3.
      - apply N.eqb_eq in E3. subst d. injection H as <- <-. apply skip_case in Es as (w2 & -> & W2). exists w, (123 :: w2 ++ [125]). split; [cbn [app]; now rewrite <- app_assoc|]. split; [assumption|now constructor].
      - destruct (jmembers f q) as [[l q']|] eqn:El; [|discriminate]. injection H as <- <-. apply IP in El as (t & -> & Ht). exists w, (123 :: t ++ [125]). split; [cbn [app]; now rewrite <- app_assoc|]. split; [assumption|now constructor]. }
    destruct (c =? 110) eqn:E5.
    { apply N.eqb_eq in E5. subst c. destruct (strip_prefix (lit "ull") q) as [q'|] eqn:Ep; [|discriminate]. injection H as <- <-. apply strip_prefix_some in Ep. subst q. exists w, (lit "null"). split; [reflexivity|]. split; [assumption|constructor]. }
    destruct (c =? 116) eqn:E6.
    { apply N.eqb_eq in E6. subst c. destruct (strip_prefix (lit "rue") q) as [q'|] eqn:Ep; [|discriminate]. injection H as <- <-. apply strip_prefix_some in Ep. subst q. exists w, (lit "true"). split; [reflexivity|]. split; [assumption|constructor]. }
    destruct (c =? 102) eqn:E7.
    { apply N.eqb_eq in E7. subst c. destruct (strip_prefix (lit "alse") q) as [q'|] eqn:Ep; [|discriminate]. injection H as <- <-. apply strip_prefix_some in Ep. subst q. exists w, (lit "false"). split; [reflexivity|]. split; [assumption|constructor]. }
    apply jnum_sound in H as (t & -> & Ht). now exists w, t.
  - intros b l r H. rewrite jelems_eq in H. destruct (jval f b) as [[v q]|] eqn:Ev; [|discriminate]. apply IV in Ev as (w & t & -> & W & Ht).
    destruct (skip_ws q) as [|d q1] eqn:Es; [discriminate|]. apply skip_case in Es as (w2 & -> & W2). destruct (d =? 93) eqn:E1.
    { apply N.eqb_eq in E1. subst d. injection H as <- <-. exists (w ++ t ++ w2). split; [now rewrite <- !app_assoc|now constructor]. }
    destruct (d =? 44) eqn:E2; [|discriminate]. apply N.eqb_eq in E2. subst d. destruct (jelems f q1) as [[l' q']|] eqn:El; [|discriminate]. injection H as <- <-.
    apply IL in El as (t' & -> & Ht'). exists (w ++ t ++ w2 ++ 44 :: t'). split; [rewrite <- !app_assoc; cbn [app]; reflexivity|now constructor].
  - intros b l r H. rewrite jmembers_eq in H. destruct (skip_ws b) as [|c q] eqn:Es; [discriminate|]. apply skip_case in Es as (w & -> & W).
    destruct (c =? 34) eqn:E1; [|discriminate]. apply N.eqb_eq in E1. subst c. destruct (jstring q) as [[k q1]|] eqn:Ej; [|discriminate].
    apply (jstring_sound (length q)) in Ej as (kt & -> & Hk); [|lia]. destruct (skip_ws q1) as [|d q2] eqn:Es; [discriminate|]. apply skip_case in Es as (w2 & -> & W2).
    destruct (d =? 58) eqn:E2; [|discriminate]. apply N.eqb_eq in E2. subst d. destruct (jval f q2) as [[v q3]|] eqn:Ev; [|discriminate]. apply IV in Ev as (w3 & t & -> & W3 & Ht).
    destruct (skip_ws q3) as [|e q4] eqn:Es; [discriminate|]. apply skip_case in Es as (w4 & -> & W4). destruct (e =? 125) eqn:E3.
    { apply N.eqb_eq in E3. subst e. injection H as <- <-. exists (w ++ 34 :: kt ++ 34 :: w2 ++ 58 :: w3 ++ t ++ w4). split; [|now constructor].
      repeat (rewrite <- ?app_assoc; cbn [app]). reflexivity. }
    destruct (e =? 44) eqn:E4; [|discriminate]. apply N.eqb_eq in E4. subst e. destruct (jmembers f q4) as [[l' q']|] eqn:El; [|discriminate]. injection H as <- <-.
    apply IP in El as (t' & -> & Ht'). exists (w ++ 34 :: kt ++ 34 :: w2 ++ 58 :: w3 ++ t ++ w4 ++ 44 :: t'). split; [|now constructor].
    repeat (rewrite <- ?app_assoc; cbn [app]). reflexivity.
Qed.

Lemma jtext_head : forall v t, jtext v t -> exists c t', t = c :: t' /\ is_jws c = false /\ c <> 93 /\ c <> 125.
Proof.
  intros v t H. destruct H as [| | |neg ds float t H|u t H|w W|l t H|w W|l t H]; try (eexists; eexists; split; [reflexivity|]; vm_compute; repeat split; congruence).
  destruct H as (frac & expo & -> & Hd & _). pose proof (digits_forallb ds Hd) as D. destruct Hd as [Hd _]. destruct ds as [|d ds]; [congruence|]. cbn [forallb] in D. apply andb_prop in D as [D _].
  destruct neg; cbn [app]; eexists; eexists; (split; [reflexivity|]); [vm_compute; repeat split; congruence|]. unfold is_digit, in_range in D. unfold is_jws. lia.
Qed.
Lemma jtext_pos : forall v t, jtext v t -> (1 <= length t)%nat.
Proof. intros v t H. destruct (jtext_head v t H) as (c & t' & -> & _). cbn. lia. Qed.
Lemma follows_ws : forall w r, blanks w -> follows r -> follows (w ++ r).
Proof. intros w r W H. destruct W as [|c w Hc W]; [assumption|]. cbn [app follows In] in *. unfold is_digit, in_range. lia. Qed.
Lemma jnum_head : forall neg ds float t, jnumber neg ds float t -> exists c t', t = c :: t' /\ (c = 45 \/ is_digit c = true).
Proof.
  intros neg ds float t (frac & expo & -> & Hd & _). pose proof (digits_forallb ds Hd) as D. destruct Hd as [Hd _]. destruct ds as [|d ds]; [congruence|]. cbn [forallb] in D. apply andb_prop in D as [D _].
  destruct neg; cbn [app]; eexists; eexists; (split; [reflexivity|]); [now left|now right].
Qed.
Definition val_complete v t := forall w r f, blanks w -> follows r -> (length t < f)%nat -> jval f (w ++ t ++ r) = Some (v, r).
Definition list_complete l t := (exists c q, skip_ws t = c :: q /\ c <> 93) /\ forall r f, (length t + 1 < f)%nat -> jelems f (t ++ 93 :: r) = Some (l, r).
Definition pair_complete l t := (exists c q, skip_ws t = c :: q /\ c <> 125) /\ forall r f, (length t + 1 < f)%nat -> jmembers f (t ++ 125 :: r) = Some (l, r).
Lemma skip_ws_more : forall t c q r, skip_ws t = c :: q -> skip_ws (t ++ r) = c :: q ++ r.
Proof.
  intros t c q r H. destruct (skip_ws_spec t) as (w & E & W & K). rewrite H in *. rewrite E, <- app_assoc, skip_ws_app by assumption. cbn [app]. now apply skip_ws_cons.
Qed.
Lemma follows_of : forall c r, In c [93; 125; 44; 34; 58] -> follows (c :: r).
Proof. intros c r H. cbn [In follows] in *. unfold is_digit, in_range. lia. Qed.
Lemma json_complete_all : (forall v t, jtext v t -> val_complete v t) /\ (forall l t, jlist l t -> list_complete l t) /\ (forall l t, jpairs l t -> pair_complete l t).
Proof.
  apply jgrammar_ind.
  - intros w r f W Hr L. destruct f as [|f]; [lia|]. rewrite jval_eq, skip_ws_app by assumption. reflexivity.
  - intros w r f W Hr L. destruct f as [|f]; [lia|]. rewrite jval_eq, skip_ws_app by assumption. reflexivity.
  - intros w r f W Hr L. destruct f as [|f]; [lia|]. rewrite jval_eq, skip_ws_app by assumption. reflexivity.
  - intros neg ds float t H w r f W Hr L. destruct f as [|f]; [lia|]. rewrite jval_eq, skip_ws_app by assumption.
    pose proof (jnum_complete _ _ _ _ r H Hr) as X. destruct (jnum_head _ _ _ _ H) as (c & t' & -> & Hc). cbn [app] in *. rewrite skip_ws_cons by (unfold is_jws; unfold is_digit, in_range in Hc; lia).
    replace (c =? 34) with false by (unfold is_digit, in_range in Hc; lia). replace (c =? 91) with false by (unfold is_digit, in_range in Hc; lia).
    replace (c =? 123) with false by (unfold is_digit, in_range in Hc; lia). replace (c =? 110) with false by (unfold is_digit, in_range in Hc; lia).
    replace (c =? 116) with false by (unfold is_digit, in_range in Hc; lia). replace (c =? 102) with false by (unfold is_digit, in_range in Hc; lia). exact X.
  - intros u t H w r f W Hr L. destruct f as [|f]; [lia|]. rewrite jval_eq, skip_ws_app by assumption. cbn [app]. rewrite skip_ws_cons by reflexivity. cbn [N.eqb Pos.eqb].
    rewrite <- app_assoc. cbn [app]. rewrite (jstring_complete u t H r). reflexivity.
  - intros w0 W0 w r f W Hr L. destruct f as [|f]; [lia|]. rewrite jval_eq, skip_ws_app by assumption. cbn [app]. rewrite skip_ws_cons by reflexivity. cbn [N.eqb Pos.eqb].
    rewrite <- app_assoc. cbn [app]. rewrite skip_ws_app, skip_ws_cons by (assumption || reflexivity). reflexivity.
  - intros l t _ [(c & q & Hq & Hc) H] w r f W Hr L. destruct f as [|f]; [lia|]. rewrite jval_eq, skip_ws_app by assumption. cbn [app]. rewrite skip_ws_cons by reflexivity. cbn [N.eqb Pos.eqb].
    rewrite <- app_assoc. cbn [app]. rewrite (skip_ws_more _ _ _ _ Hq). apply N.eqb_neq in Hc. rewrite Hc. rewrite H; [reflexivity|]. cbn [length] in L. rewrite app_length in L. cbn [length] in L. lia.
  - intros w0 W0 w r f W Hr L. destruct f as [|f]; [lia|]. rewrite jval_eq, skip_ws_app by assumption. cbn [app]. rewrite skip_ws_cons by reflexivity. cbn [N.eqb Pos.eqb].
    rewrite <- app_assoc. cbn [app]. rewrite skip_ws_app, skip_ws_cons by (assumption || reflexivity). reflexivity.
  - intros l t _ [(c & q & Hq & Hc) H] w r f W Hr L. destruct f as [|f]; [lia|]. rewrite jval_eq, skip_ws_app by assumption. cbn [app]. rewrite skip_ws_cons by reflexivity. cbn [N.eqb Pos.eqb].
    rewrite <- app_assoc. cbn [app]. rewrite (skip_ws_more _ _ _ _ Hq). apply N.eqb_neq in Hc. rewrite Hc. rewrite H; [reflexivity|]. cbn [length] in L. rewrite app_length in L. cbn [length] in L. lia.
  - intros v w1 t w2 W1 Ht Hv W2. destruct (jtext_head v t Ht) as (c & t' & -> & J1 & J2 & J3). split.
    + rewrite skip_ws_app by assumption. cbn [app]. rewrite skip_ws_cons by assumption. eauto.
    + intros r f L. destruct f as [|f]; [lia|]. rewrite jelems_eq, <- !app_assoc. rewrite Hv; [|assumption| |rewrite !app_length in L; cbn [length] in *; lia].
      * rewrite skip_ws_app, skip_ws_cons by (assumption || reflexivity). reflexivity.
      * apply follows_ws; [assumption|]. apply follows_of. cbn; tauto.
  - intros v l w1 t w2 r0 W1 Ht Hv W2 _ [_ Hl]. destruct (jtext_head v t Ht) as (c & t' & -> & J1 & J2 & J3). split.
    + rewrite skip_ws_app by assumption. cbn [app]. rewrite skip_ws_cons by assumption. eauto.
    + intros r f L. destruct f as [|f]; [lia|]. rewrite jelems_eq. repeat rewrite <- app_assoc. cbn [app]. change ((c :: t' ++ w2 ++ 44 :: r0 ++ 93 :: r)) with ((c :: t') ++ w2 ++ 44 :: r0 ++ 93 :: r).
      rewrite Hv; [|assumption| |repeat (rewrite app_length in L; cbn [length] in L); cbn [length]; lia].
      * rewrite skip_ws_app, skip_ws_cons by (assumption || reflexivity). cbn [N.eqb Pos.eqb]. rewrite Hl; [reflexivity|]. repeat (rewrite app_length in L; cbn [length] in L). lia.
      * apply follows_ws; [assumption|]. apply follows_of. cbn; tauto.
  - intros k v w1 kt w2 w3 t w4 W1 Hk W2 W3 Ht Hv W4. split.
    + rewrite skip_ws_app by assumption. rewrite skip_ws_cons by reflexivity. eexists; eexists; split; [reflexivity|congruence].
    + intros r f L. destruct f as [|f]; [lia|]. rewrite jmembers_eq. repeat (rewrite <- ?app_assoc; cbn [app]). rewrite skip_ws_app, skip_ws_cons by (assumption || reflexivity). cbn [N.eqb Pos.eqb].
      rewrite (jstring_complete k kt Hk). rewrite skip_ws_app, skip_ws_cons by (assumption || reflexivity). cbn [N.eqb Pos.eqb].
      rewrite Hv; [|assumption| |repeat (rewrite app_length in L; cbn [length] in L); lia].
      * rewrite skip_ws_app, skip_ws_cons by (assumption || reflexivity). reflexivity.
      * apply follows_ws; [assumption|]. apply follows_of. cbn; tauto.
  - intros k v l w1 kt w2 w3 t w4 r0 W1 Hk W2 W3 Ht Hv W4 _ [_ Hl]. split.
    + rewrite skip_ws_app by assumption. rewrite skip_ws_cons by reflexivity. eexists; eexists; split; [reflexivity|congruence].
    + intros r f L. destruct f as [|f]; [lia|]. rewrite jmembers_eq. repeat (rewrite <- ?app_assoc; cbn [app]). rewrite skip_ws_app, skip_ws_cons by (assumption || reflexivity). cbn [N.eqb Pos.eqb].
      rewrite (jstring_complete k kt Hk). rewrite skip_ws_app, skip_ws_cons by (assumption || reflexivity). cbn [N.eqb Pos.eqb].
      rewrite Hv; [|assumption| |repeat (rewrite app_length in L; cbn [length] in L); lia].
      * rewrite skip_ws_app, skip_ws_cons by (assumption || reflexivity). cbn [N.eqb Pos.eqb]. rewrite Hl; [reflexivity|]. repeat (rewrite app_length in L; cbn [length] in L). lia.
      * apply follows_ws; [assumption|]. apply follows_of. cbn; tauto.
Qed.
Lemma blanks_skip : forall w, blanks w -> skip_ws w = [].
Proof. intros w W. rewrite <- (app_nil_r w), skip_ws_app by assumption. reflexivity. Qed.
Lemma skip_nil_blanks : forall b, skip_ws b = [] -> blanks b.
Proof. intros b H. destruct (skip_ws_spec b) as (w & E & W & _). rewrite H, app_nil_r in E. now subst. Qed.
Lemma json_parse_spec : forall b v, json_parse b = Some v <-> json_document v b.
Proof.
  intros b v. unfold json_parse, json_document. split.
  - intros H. destruct (jval (S (length b)) b) as [[v' r]|] eqn:E; [|discriminate]. destruct (json_sound_all (S (length b))) as [S _]. apply S in E as (w & t & -> & W & Ht).
    destruct (skip_ws r) eqn:Er; [|discriminate]. injection H as <-. exists w, t, r. repeat split; try assumption. now apply skip_nil_blanks.
  - intros (w1 & t & w2 & -> & W1 & Ht & W2). destruct json_complete_all as [C _]. rewrite (C v t Ht); [now rewrite blanks_skip|assumption| |rewrite !app_length; lia].
    rewrite <- (app_nil_r w2). apply follows_ws; [assumption|exact I].
Qed.
