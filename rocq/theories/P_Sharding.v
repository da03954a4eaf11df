(** Property C177: which worker gets a message. *)
From Coq Require Import Arith NArith Bool String List Lia ZifyBool ZifyN ZifyNat.
Import ListNotations.
From Verif Require Import Base BaseFacts Headers HeadersProofs Method Sharding.
Open Scope N_scope.
Open Scope list_scope.

Lemma shl32_low : forall x i, i < 32 -> N.testbit (shl32 x) i = false.
Proof.
  intros x i H. unfold shl32. change 18446744073709551616 with (2 ^ 64). rewrite N.mod_pow2_bits_low by lia. change 4294967296 with (2 ^ 32). now rewrite N.mul_pow2_bits_low.
Qed.
Lemma low_same : forall a b k, k <= 32 -> (forall i, i < 32 -> N.testbit a i = N.testbit b i) -> a mod 2 ^ k = b mod 2 ^ k.
Proof.
  intros a b k K H. apply N.bits_inj. intros i. destruct (N.lt_ge_cases i k) as [L|L].
  - rewrite !N.mod_pow2_bits_low by exact L. apply H. lia.
  - now rewrite !N.mod_pow2_bits_high by exact L.
Qed.
(** C177: the two ends of a dialog, and the two directions inside it, choose the same worker *)
Theorem C177_dialog : forall hash c a b, by_dialog hash c a b = by_dialog hash c b a.
Proof. intros. unfold by_dialog. rewrite !N.lxor_assoc. f_equal. apply N.lxor_comm. Qed.
Print Assumptions C177_dialog.
(** with a power of two of workers (up to 2^32) the method makes no difference: a CANCEL or an
    ACK goes to the worker of its INVITE, for every hash *)
Theorem C177_cancel : forall hash branch m m' server k, k <= 32 ->
  by_transaction hash branch m server mod 2 ^ k = by_transaction hash branch m' server mod 2 ^ k.
Proof.
  intros hash branch m m' server k K. apply low_same; [exact K|]. intros i L. unfold by_transaction. destruct server; rewrite ?N.lxor_spec, !shl32_low by exact L; reflexivity.
Qed.
Print Assumptions C177_cancel.
(** with any other number of workers it may not be so *)
Theorem C177_cancel_refuted : exists hash branch, (forall s, hash s < 2 ^ 64) /\
  by_transaction hash branch MInvite true mod 3 <> by_transaction hash branch MCancel true mod 3.
Proof.
  exists (fun s => if str_eqb s (lit "CANCEL") then 1 else 0), (lit "z9hG4bK1"). split; [intros s; destruct (str_eqb s _); vm_compute; reflexivity|]. vm_compute. discriminate.
Qed.
Print Assumptions C177_cancel_refuted.
(** the server and the client side of a branch differ, in the lowest bit only *)
Theorem C177_sides : forall hash branch m,
  by_transaction hash branch m true mod 2 = 1 - by_transaction hash branch m false mod 2
  /\ by_transaction hash branch m true / 2 = by_transaction hash branch m false / 2.
Proof.
  intros hash branch m. unfold by_transaction. set (x := N.lxor (hash branch) _). clearbody x. split.
  - rewrite <- !N.bit0_mod, N.lxor_spec. change (N.testbit 1 0) with true. destruct (N.testbit x 0); reflexivity.
  - change 2 with (2 ^ 1). rewrite <- !N.shiftr_div_pow2, N.shiftr_lxor. change (N.shiftr 1 1) with 0. apply N.lxor_0_r.
Qed.
Print Assumptions C177_sides.
(** keys are 64-bit numbers *)
Theorem C177_range : forall hash branch m server c a b, (forall s, hash s < 2 ^ 64) ->
  by_transaction hash branch m server < 2 ^ 64 /\ by_dialog hash c a b < 2 ^ 64.
Proof.
  intros hash branch m server c a b H.
  assert (X : forall x y, x < 2 ^ 64 -> y < 2 ^ 64 -> N.lxor x y < 2 ^ 64).
  { intros x y A B. assert (Z : N.lxor x y = N.lxor x y mod 2 ^ 64); [|rewrite Z; apply N.mod_lt; discriminate]. apply N.bits_inj. intros i. destruct (N.lt_ge_cases i 64) as [L|L]; [now rewrite N.mod_pow2_bits_low|]. rewrite N.mod_pow2_bits_high, N.lxor_spec by exact L.
    rewrite <- (N.mod_small x _ A), <- (N.mod_small y _ B). now rewrite !N.mod_pow2_bits_high by exact L. }
  assert (SL : forall x, shl32 x < 2 ^ 64) by (intros x; unfold shl32; change (2 ^ 64) with 18446744073709551616; apply N.mod_lt; discriminate).
  unfold by_transaction, by_dialog. split; [destruct server; auto; apply X; auto; reflexivity|auto].
Qed.
Print Assumptions C177_range.
(** a message is placed by the value of its first Call-ID header, and only a message without one
    is not placed *)
Theorem C177_headers : forall hash hs,
  (forall k, by_headers hash hs = Some k <-> exists a n c b, hs = a ++ (n, c) :: b /\ lower n = lower (lit "Call-ID") /\ (forall h, In h a -> lower (fst h) <> lower (lit "Call-ID")) /\ k = hash c)
  /\ (by_headers hash hs = None <-> forall h, In h hs -> lower (fst h) <> lower (lit "Call-ID")).
Proof.
  intros hash hs. unfold by_headers, by_call_id. split.
  - intros k. destruct (hget (lit "Call-ID") hs) as [c|] eqn:E; split.
    + intros X. apply hget_some in E as (a & n & b & E1 & E2 & E3). exists a, n, c, b. refine (conj E1 (conj _ (conj _ _))); [now apply eq_ic_spec| |congruence]. intros h Hh Y. apply eq_ic_spec in Y. rewrite (E3 h Hh) in Y. discriminate.
    + intros (a & n & c' & b & E1 & E2 & E3 & ->). assert (Z : hget (lit "Call-ID") hs = Some c'); [|congruence]. apply hget_some. exists a, n, b. refine (conj E1 (conj _ _)); [now apply eq_ic_spec|]. intros h Hh. apply not_true_iff_false. intros Y. apply eq_ic_spec in Y. now apply (E3 h Hh).
    + discriminate.
    + intros (a & n & c' & b & E1 & E2 & E3 & ->). assert (Z : hget (lit "Call-ID") hs = Some c'); [|congruence]. apply hget_some. exists a, n, b. refine (conj E1 (conj _ _)); [now apply eq_ic_spec|]. intros h Hh. apply not_true_iff_false. intros Y. apply eq_ic_spec in Y. now apply (E3 h Hh).
  - destruct (hget (lit "Call-ID") hs) as [c|] eqn:E; split.
    + discriminate.
    + intros X. apply hget_some in E as (a & n & b & -> & E2 & _). apply eq_ic_spec in E2. exfalso. apply (X (n, c)); [apply in_elt|exact E2].
    + intros _ h Hh X. apply hget_none in E. unfold hcontains in E. rewrite <- not_true_iff_false in E. apply E. apply existsb_exists. exists h. split; [exact Hh|]. now apply eq_ic_spec.
    + reflexivity.
Qed.
Print Assumptions C177_headers.
Example C177_case : by_headers (fun s => llen s) [(lit "Via", lit "x"); (lit "call-id", lit "abc")] = Some 3
  /\ by_dialog (fun s => llen s) (lit "abc") (lit "a") (lit "bb") = 0 /\ by_transaction (fun s => llen s) (lit "abc") MInvite true = 25769803778.
Proof. vm_compute. repeat split; reflexivity. Qed.
