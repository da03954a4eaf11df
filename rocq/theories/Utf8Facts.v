(** Decoding UTF-8 is the inverse of encoding. *)
From Coq Require Import Arith NArith Bool String List Lia ZifyBool ZifyN ZifyNat.
Import ListNotations.
From Verif Require Import Base BaseFacts Text TextFacts.
Open Scope N_scope. Open Scope list_scope.
Lemma from_utf8_inv : forall b s, from_utf8 b = Some s -> b = utf8 s /\ is_str s = true.
Proof.
  intros b. remember (List.length b) as n eqn:En. revert b En. induction n as [n IH] using lt_wf_ind. intros b En s H.
  destruct b as [|b0 r0]; [injection H as <-; now split|]. cbn [from_utf8] in H. cbn [List.length] in En.
  destruct (b0 <? 128) eqn:C0.
  { destruct (from_utf8 r0) as [s'|] eqn:E; [|discriminate]. injection H as <-. destruct (IH (List.length r0) ltac:(lia) r0 eq_refl s' E) as [-> S].
    split; [|unfold is_str in *; cbn [forallb]; rewrite S; unfold is_scalar; lia]. change (utf8 (b0 :: s')) with (utf8_c b0 ++ utf8 s'). unfold utf8_c. now rewrite C0. }
  destruct (in_range 194 223 b0) eqn:C1.
  { destruct r0 as [|b1 r1]; [discriminate|]. destruct (cont b1) eqn:K1; [|discriminate]. destruct (from_utf8 r1) as [s'|] eqn:E; [|discriminate]. injection H as <-. cbn [List.length] in En.
    destruct (IH (List.length r1) ltac:(lia) r1 eq_refl s' E) as [-> S]. unfold cont, in_range in *. set (c := (b0 - 192) * 64 + (b1 - 128)).
    assert (D : c / 64 = b0 - 192) by (symmetry; apply (N.div_unique c 64 (b0 - 192) (b1 - 128)); unfold c; lia).
    assert (M : c mod 64 = b1 - 128) by (symmetry; apply (N.mod_unique c 64 (b0 - 192) (b1 - 128)); unfold c; lia).
    assert (128 <= c < 2048) by (unfold c; lia).
    split; [|unfold is_str in *; cbn [forallb]; rewrite S; unfold is_scalar; lia]. change (utf8 (c :: s')) with (utf8_c c ++ utf8 s'). unfold utf8_c. replace (c <? 128) with false by lia. replace (c <? 2048) with true by lia.
    rewrite D, M. cbn [app]. repeat f_equal; lia. }
  destruct (in_range 224 239 b0) eqn:C2.
  { destruct r0 as [|b1 [|b2 r2]]; [discriminate|discriminate|]. destruct (_ && _) eqn:K1; [|discriminate]. destruct (from_utf8 r2) as [s'|] eqn:E; [|discriminate]. injection H as <-. cbn [List.length] in En.
    destruct (IH (List.length r2) ltac:(lia) r2 eq_refl s' E) as [-> S]. unfold cont, in_range in *. set (c := (b0 - 224) * 4096 + (b1 - 128) * 64 + (b2 - 128)).
    assert (128 <= b1 <= 191 /\ 128 <= b2 <= 191) by (destruct (b0 =? 224), (b0 =? 237); lia).
    assert (D : c / 64 = (b0 - 224) * 64 + (b1 - 128)) by (symmetry; apply (N.div_unique c 64 _ (b2 - 128)); unfold c; lia).
    assert (M : c mod 64 = b2 - 128) by (symmetry; apply (N.mod_unique c 64 ((b0 - 224) * 64 + (b1 - 128)) (b2 - 128)); unfold c; lia).
    assert (M1 : ((b0 - 224) * 64 + (b1 - 128)) mod 64 = b1 - 128) by (symmetry; apply (N.mod_unique _ 64 (b0 - 224) (b1 - 128)); lia).
    assert (D1 : c / 4096 = b0 - 224) by (symmetry; apply (N.div_unique c 4096 _ ((b1 - 128) * 64 + (b2 - 128))); unfold c; lia).
    assert (R : 2048 <= c < 65536 /\ (c < 55296 \/ 57344 <= c)).
    { unfold c. destruct (b0 =? 224) eqn:Q1; destruct (b0 =? 237) eqn:Q2; lia. }
    split; [|unfold is_str in *; cbn [forallb]; rewrite S; unfold is_scalar, in_range; lia]. change (utf8 (c :: s')) with (utf8_c c ++ utf8 s'). unfold utf8_c. replace (c <? 128) with false by lia. replace (c <? 2048) with false by lia. replace (c <? 65536) with true by lia.
    rewrite D1, D, M, M1. cbn [app]. repeat f_equal; lia. }
  destruct (in_range 240 244 b0) eqn:C3; [|discriminate].
  destruct r0 as [|b1 [|b2 [|b3 r3]]]; try discriminate. destruct (_ && _ && _) eqn:K1; [|discriminate]. destruct (from_utf8 r3) as [s'|] eqn:E; [|discriminate]. injection H as <-. cbn [List.length] in En.
  destruct (IH (List.length r3) ltac:(lia) r3 eq_refl s' E) as [-> S]. unfold cont, in_range in *. set (c := (b0 - 240) * 262144 + (b1 - 128) * 4096 + (b2 - 128) * 64 + (b3 - 128)).
  assert (128 <= b1 <= 191 /\ 128 <= b2 <= 191 /\ 128 <= b3 <= 191) by (destruct (b0 =? 240), (b0 =? 244); lia).
  assert (D : c / 64 = (b0 - 240) * 4096 + (b1 - 128) * 64 + (b2 - 128)) by (symmetry; apply (N.div_unique c 64 _ (b3 - 128)); unfold c; lia).
  assert (M : c mod 64 = b3 - 128) by (symmetry; apply (N.mod_unique c 64 ((b0 - 240) * 4096 + (b1 - 128) * 64 + (b2 - 128)) (b3 - 128)); unfold c; lia).
  assert (M1 : ((b0 - 240) * 4096 + (b1 - 128) * 64 + (b2 - 128)) mod 64 = b2 - 128) by (symmetry; apply (N.mod_unique _ 64 ((b0 - 240) * 64 + (b1 - 128)) (b2 - 128)); lia).
  assert (D1 : c / 4096 = (b0 - 240) * 64 + (b1 - 128)) by (symmetry; apply (N.div_unique c 4096 _ ((b2 - 128) * 64 + (b3 - 128))); unfold c; lia).
  assert (M2 : ((b0 - 240) * 64 + (b1 - 128)) mod 64 = b1 - 128) by (symmetry; apply (N.mod_unique _ 64 (b0 - 240) (b1 - 128)); lia).
  assert (D2 : c / 262144 = b0 - 240) by (symmetry; apply (N.div_unique c 262144 _ ((b1 - 128) * 4096 + (b2 - 128) * 64 + (b3 - 128))); unfold c; lia).
  assert (R : 65536 <= c <= 1114111).
  { unfold c. destruct (b0 =? 240) eqn:Q1; destruct (b0 =? 244) eqn:Q2; lia. }
  split; [|unfold is_str in *; cbn [forallb]; rewrite S; unfold is_scalar, in_range; lia]. change (utf8 (c :: s')) with (utf8_c c ++ utf8 s'). unfold utf8_c. replace (c <? 128) with false by lia. replace (c <? 2048) with false by lia. replace (c <? 65536) with false by lia.
  rewrite D2, D1, D, M, M1, M2. cbn [app]. repeat f_equal; lia.
Qed.
