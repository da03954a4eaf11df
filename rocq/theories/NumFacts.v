(** Further facts about printed numbers and words. *)
From Coq Require Import Arith NArith Bool String List Lia ZifyBool ZifyN ZifyNat.
Import ListNotations.
From Verif Require Import Base BaseFacts.
Open Scope N_scope.
Open Scope list_scope.

Lemma print_fuel_length : forall f n k, n < 10 ^ N.of_nat k -> (0 < k)%nat -> (length (print_fuel f n) <= k)%nat.
Proof.
  induction f as [|f IH]; intros n k H K; [cbn; lia|]. cbn [print_fuel]. destruct (n <? 10) eqn:E; [cbn; lia|].
  rewrite app_length. cbn [length]. destruct k as [|k]; [lia|]. rewrite Nat2N.inj_succ, N.pow_succ_r' in H.
  destruct k as [|k]; [cbn in H; lia|]. assert ((length (print_fuel f (n / 10)) <= S k)%nat); [|lia].
  apply IH; [|lia]. apply N.div_lt_upper_bound; lia.
Qed.
Lemma print_N_length : forall n k, n < 10 ^ N.of_nat k -> (0 < k)%nat -> (length (print_N n) <= k)%nat.
Proof. intros. now apply print_fuel_length. Qed.
Lemma blen_ascii : forall s, forallb is_ascii s = true -> blen s = llen s.
Proof.
  induction s as [|c s IH]; intros H; [reflexivity|]. cbn [forallb] in H. apply andb_true_iff in H. destruct H as [Hc Hs].
  cbn [blen]. rewrite llen_cons, IH by assumption. unfold is_ascii in Hc. unfold len_utf8. rewrite Hc. reflexivity.
Qed.
Lemma print_N_ascii : forall n, forallb is_ascii (print_N n) = true.
Proof. intros n. apply forallb_forall. intros c Hc. apply print_N_digits in Hc. unfold is_ascii. lia. Qed.
Lemma print_N_blen : forall n k, n < 10 ^ N.of_nat k -> (0 < k)%nat -> blen (print_N n) <= N.of_nat k.
Proof.
  intros n k H K. rewrite blen_ascii by apply print_N_ascii. unfold llen. pose proof (print_N_length n k H K). lia.
Qed.
Lemma print_N_nonempty : forall n, print_N n <> [].
Proof. intros n. now destruct (print_N_spec n) as (_ & _ & H). Qed.
Lemma print_N_word : forall n, forallb (fun x => negb (is_ws x)) (print_N n) = true.
Proof.
  intros n. apply forallb_forall. intros c Hc. apply print_N_digits in Hc. unfold is_ws, in_range. lia.
Qed.
Lemma parse_uint_range : forall mx s n, parse_uint mx s = Some n -> n <= mx.
Proof.
  intros mx s n. unfold parse_uint. destruct (match s with [] => s | c :: r => if c =? 43 then r else s end); [discriminate|].
  destruct (all_digits _); [|discriminate]. cbv zeta. destruct (_ <=? mx) eqn:E; [|discriminate]. intros [= <-]. lia.
Qed.
