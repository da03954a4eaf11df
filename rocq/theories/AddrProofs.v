(** Which texts are taken for IP addresses: the literals of RFC 3986 section 3.2.2 and
    RFC 4291 section 2.2. *)
From Coq Require Import Arith NArith Bool String List Lia ZifyBool ZifyN ZifyNat.
Import ListNotations.
From Verif Require Import Base BaseFacts NumFacts Text TextFacts.
Open Scope N_scope.
Open Scope list_scope.

(** four numbers below 256, in decimal without leading zeros *)
Definition ipv4_text (s : str) : Prop :=
  exists a b c d, a < 256 /\ b < 256 /\ c < 256 /\ d < 256
    /\ s = print_N a ++ lit "." ++ print_N b ++ lit "." ++ print_N c ++ lit "." ++ print_N d.
(** one to four hexadecimal digits *)
Definition hex_group (g : str) : Prop := g <> [] /\ (length g <= 4)%nat /\ forallb is_hex g = true.
(** eight groups, or fewer around a double colon *)
Definition ipv6_text (s : str) : Prop :=
  (exists gs, Forall hex_group gs /\ length gs = 8%nat /\ s = join (lit ":") gs)
  \/ exists l r, Forall hex_group l /\ Forall hex_group r /\ (length l + length r <= 7)%nat /\ s = join (lit ":") l ++ lit "::" ++ join (lit ":") r.

Lemma span_app : forall p a b, forallb p a = true -> (match b with [] => True | c :: _ => p c = false end) -> span p (a ++ b) = (a, b).
Proof.
  intros p a b Ha Hb. induction a as [|c a IH]; cbn [app span].
  - destruct b as [|c b]; [reflexivity|]. cbn [span]. now rewrite Hb.
  - cbn [forallb] in Ha. apply andb_prop in Ha as [-> Ha]. now rewrite (IH Ha).
Qed.
(** decimal *)
Lemma read_octet_print : forall n r, n < 256 -> (match r with [] => True | c :: _ => is_digit c = false end) -> read_octet (print_N n ++ r) = Some r.
Proof.
  intros n r Hn Hr. unfold read_octet. rewrite span_app; [|apply (print_N_spec n)|assumption]. rewrite (proj1 (print_N_spec n)).
  assert (L : 1 <= llen (print_N n) <= 3 /\ ((1 <? llen (print_N n)) && match print_N n with c :: _ => c =? 48 | [] => false end) = false).
  { assert (Q : forallb (fun n => (1 <=? llen (print_N n)) && (llen (print_N n) <=? 3) && negb ((1 <? llen (print_N n)) && match print_N n with c :: _ => c =? 48 | [] => false end)) (map N.of_nat (seq 0 256)) = true) by (vm_compute; reflexivity).
    rewrite forallb_forall in Q. specialize (Q n). assert (In n (map N.of_nat (seq 0 256))) by (apply in_map_iff; exists (N.to_nat n); split; [lia|]; apply in_seq; lia). apply Q in H. apply andb_prop in H as [H1 H2]. apply negb_true_iff in H2. split; [lia|exact H2]. }
  destruct L as [L1 L2]. rewrite L2. replace (1 <=? llen (print_N n)) with true by lia. replace (llen (print_N n) <=? 3) with true by lia. replace (n <=? 255) with true by lia. reflexivity.
Qed.
Definition ten : list N := [48; 49; 50; 51; 52; 53; 54; 55; 56; 57].
Lemma in_ten : forall c, is_digit c = true -> In c ten.
Proof. intros c H. unfold is_digit, in_range in H. assert (c = 48 \/ c = 49 \/ c = 50 \/ c = 51 \/ c = 52 \/ c = 53 \/ c = 54 \/ c = 55 \/ c = 56 \/ c = 57) by lia. unfold ten. cbn [In]. intuition. Qed.
Definition plain (d : str) : bool := str_eqb (print_N (digits_value d)) d || ((1 <? llen d) && match d with c :: _ => c =? 48 | [] => false end).
Lemma plain3 : forallb (fun a => plain [a] && forallb (fun b => plain [a; b] && forallb (fun c => plain [a; b; c]) ten) ten) ten = true.
Proof. vm_compute. reflexivity. Qed.
Lemma octet_inv : forall s r, read_octet s = Some r -> exists n, n < 256 /\ s = print_N n ++ r.
Proof.
  intros s r H. unfold read_octet in H. pose proof (span_spec is_digit s) as [A B]. destruct (span is_digit s) as [d x]. cbn [fst snd] in *.
  destruct ((1 <=? llen d) && (llen d <=? 3) && (digits_value d <=? 255)) eqn:E; [|discriminate]. cbn [andb] in H. destruct ((1 <? llen d) && match d with c :: _ => c =? 48 | [] => false end) eqn:Z; [discriminate|]. injection H as <-. exists (digits_value d). split; [lia|]. rewrite A. f_equal.
  assert (P : plain d = true).
  { pose proof plain3 as Q. rewrite forallb_forall in Q. destruct d as [|a [|b [|c [|? ?]]]]; unfold llen in E; cbn [length] in E; try lia; cbn [forallb] in B; repeat (apply andb_prop in B as [? B]).
    - specialize (Q a (in_ten a H)). now apply andb_prop in Q as [Q _].
    - specialize (Q a (in_ten a H)). apply andb_prop in Q as [_ Q]. rewrite forallb_forall in Q. specialize (Q b (in_ten b H0)). now apply andb_prop in Q as [Q _].
    - specialize (Q a (in_ten a H)). apply andb_prop in Q as [_ Q]. rewrite forallb_forall in Q. specialize (Q b (in_ten b H0)). apply andb_prop in Q as [_ Q]. rewrite forallb_forall in Q. now apply Q, in_ten. }
  unfold plain in P. rewrite Z, orb_false_r in P. apply str_eqb_spec in P. now symmetry.
Qed.
Lemma char_inv : forall c s r, read_char c s = Some r -> s = c :: r.
Proof. intros c [|x s] r H; [discriminate|]. cbn [read_char] in H. destruct (x =? c) eqn:E; [|discriminate]. apply N.eqb_eq in E. injection H as <-. now subst. Qed.
Lemma read_ipv4_spec : forall s, read_ipv4 s = Some [] <-> ipv4_text s.
Proof.
  intros s. split.
  - intros H. unfold read_ipv4 in H.
    apply obind_some in H as (r1 & E1 & H). apply obind_some in H as (r2 & E2 & H). apply obind_some in H as (r3 & E3 & H). apply obind_some in H as (r4 & E4 & H). apply obind_some in H as (r5 & E5 & H). apply obind_some in H as (r6 & E6 & H).
    apply octet_inv in E1 as (a & Ha & ->), E3 as (b & Hb & ->), E5 as (c & Hc & ->), H as (d & Hd & ->). apply char_inv in E2, E4, E6. subst. exists a, b, c, d. repeat split; try assumption. now rewrite app_nil_r.
  - intros (a & b & c & d & Ha & Hb & Hc & Hd & ->). unfold read_ipv4. rewrite (read_octet_print a) by (assumption || reflexivity). 
    change (lit ".") with [46]. cbn [obind read_char app N.eqb Pos.eqb]. rewrite (read_octet_print b) by (assumption || reflexivity). cbn [obind read_char app N.eqb Pos.eqb]. rewrite (read_octet_print c) by (assumption || reflexivity). cbn [obind read_char app N.eqb Pos.eqb].
    rewrite <- (app_nil_r (print_N d)). now apply read_octet_print.
Qed.
Lemma print_len3 : forall n, n < 256 -> (length (print_N n) <= 3)%nat.
Proof. intros n H. apply print_N_length; [change (10 ^ N.of_nat 3) with 1000; lia|lia]. Qed.
Lemma ipv4_ok_spec : forall s, ipv4_ok s = true <-> ipv4_text s.
Proof.
  intros s. unfold ipv4_ok. split.
  - intros H. apply andb_prop in H as [_ H]. apply read_ipv4_spec. destruct (read_ipv4 s) as [[|? ?]|]; try discriminate. reflexivity.
  - intros H. pose proof (proj2 (read_ipv4_spec s) H) as R. rewrite R, andb_true_r. destruct H as (a & b & c & d & Ha & Hb & Hc & Hd & ->). unfold llen. rewrite !app_length. apply print_len3 in Ha, Hb, Hc, Hd. change (length (lit ".")) with 1%nat. lia.
Qed.
(** hexadecimal *)
Definition colon_next (r : str) : Prop := match r with [] => True | c :: _ => c = 58 end.
Lemma group_read : forall g r, hex_group g -> colon_next r -> read_group (g ++ r) = Some r.
Proof.
  intros g r (N & L & H) Hr. unfold read_group. rewrite span_app; [|assumption|]. 
  - unfold llen. destruct g; [congruence|]. cbn [length] in *. replace (1 <=? _) with true by lia. replace (_ <=? 4) with true by lia. reflexivity.
  - destruct r; [exact I|]. cbn in Hr. subst. reflexivity.
Qed.
Lemma group_not_ipv4 : forall g r, hex_group g -> colon_next r -> read_ipv4 (g ++ r) = None.
Proof.
  intros g r (N & L & H) Hr. unfold read_ipv4. destruct (read_octet (g ++ r)) as [x|] eqn:E; [|reflexivity]. cbn [obind].
  assert (X : exists g', x = g' ++ r /\ forallb is_hex g' = true).
  { unfold read_octet in E. destruct (span is_digit (g ++ r)) as [d y] eqn:S. destruct (_ && _ && _ && _); [|discriminate]. injection E as <-. clear N L. revert d y S. induction g as [|c g IH]; intros d y S.
    - exists []. split; [|reflexivity]. cbn [app] in *. destruct r as [|c r]; cbn [span] in S; [now injection S|]. cbn in Hr. subst. cbn in S. now injection S.
    - cbn [forallb] in H. apply andb_prop in H as [H1 H2]. cbn [app span] in S. destruct (is_digit c).
      + destruct (span is_digit (g ++ r)) as [d' y'] eqn:S'. injection S as <- <-. now apply (IH H2 d').
      + injection S as <- <-. exists (c :: g). cbn [forallb]. now rewrite H1. }
  destruct X as (g' & -> & H'). assert (Z : read_char 46 (g' ++ r) = None); [|now rewrite Z].
  destruct g' as [|c g']; [destruct r as [|c r]; [reflexivity|]; cbn in Hr; subst; reflexivity|]. cbn [forallb] in H'. apply andb_prop in H' as [H' _]. cbn [app read_char]. destruct (c =? 46) eqn:Ec; [|reflexivity]. apply N.eqb_eq in Ec. subst. discriminate.
Qed.
Definition tailed (gs : list str) : str := concat (map (cons 58) gs).
Lemma tailed_colon : forall gs r, colon_next r -> colon_next (tailed gs ++ r).
Proof. intros [|g gs] r H; [exact H|reflexivity]. Qed.
(** the groups stop at the end or before a double colon *)
Definition stop (r : str) : Prop := r = [] \/ exists x, r = 58 :: 58 :: x.
Lemma stop_colon : forall r, stop r -> colon_next r. Proof. intros r [-> | (x & ->)]; [exact I|reflexivity]. Qed.
Lemma colon_group : forall x, read_group (58 :: x) = None. Proof. reflexivity. Qed.
Lemma colon_ipv4 : forall x, read_ipv4 (58 :: x) = None. Proof. reflexivity. Qed.
Lemma groups_tail : forall gs k i r, Forall hex_group gs -> (length gs <= k)%nat -> stop r -> read_groups k (S i) (tailed gs ++ r) = (S i + length gs, false, r)%nat.
Proof.
  induction gs as [|g gs IH]; intros k i r H L R.
  - cbn [tailed map concat app length]. rewrite Nat.add_0_r. destruct k as [|k]; [reflexivity|]. cbn [read_groups]. destruct R as [-> | (x & ->)]; cbn [sep read_char obind N.eqb Pos.eqb]; [destruct k; reflexivity|]. rewrite colon_group, colon_ipv4. destruct k; reflexivity.
  - inversion H as [|? ? G1 G2]; subst. destruct k as [|k]; cbn [length] in L; [lia|]. cbn [tailed map concat]. fold (tailed gs). cbn [app]. rewrite <- app_assoc. cbn [read_groups sep read_char obind]. cbn [N.eqb Pos.eqb obind].
    rewrite group_not_ipv4, group_read by (assumption || apply tailed_colon, stop_colon, R). destruct k; rewrite IH by (assumption || lia); cbn [length]; rewrite Nat.add_succ_r; reflexivity.
Qed.
Lemma join_tailed : forall g gs, join (lit ":") (g :: gs) = g ++ tailed gs.
Proof. intros g gs. revert g. induction gs as [|h gs IH]; intros g; [cbn [join tailed map concat]; now rewrite app_nil_r|]. cbn [join] in *. rewrite IH. reflexivity. Qed.
Lemma groups_all : forall gs k r, Forall hex_group gs -> (length gs <= k)%nat -> stop r -> read_groups k 0 (join (lit ":") gs ++ r) = (length gs, false, r).
Proof.
  intros [|g gs] k r H L R.
  - cbn [join app length]. destruct k as [|k]; [reflexivity|]. cbn [read_groups sep]. destruct R as [-> | (x & ->)]; [destruct k; reflexivity|]. rewrite colon_group, colon_ipv4. destruct k; reflexivity.
  - inversion H as [|? ? G1 G2]; subst. rewrite join_tailed, <- app_assoc. destruct k as [|k]; cbn [length] in L; [lia|]. cbn [read_groups sep]. rewrite group_not_ipv4, group_read by (assumption || apply tailed_colon, stop_colon, R).
    destruct k; rewrite groups_tail by (assumption || lia); reflexivity.
Qed.
Lemma ipv6_ok_text : forall s, ipv6_text s -> ipv6_ok s = true.
Proof.
  intros s [(gs & H & L & ->)|(l & r & Hl & Hr & L & ->)]; unfold ipv6_ok.
  - rewrite <- (app_nil_r (join _ gs)). rewrite groups_all; [|assumption|lia|now left]. rewrite L. reflexivity.
  - rewrite groups_all; [|assumption|lia|right; eexists; reflexivity]. replace (Nat.eqb (length l) 8) with false by lia. change (lit "::") with [58; 58]. cbn [app read_char obind N.eqb Pos.eqb].
    rewrite <- (app_nil_r (join _ r)). rewrite groups_all; [reflexivity|assumption|lia|now left].
Qed.
(** a text without colons is no IPv6 address *)
Lemma read_char_none : forall c s, mem c s = false -> read_char c s = None.
Proof. intros c [|x s] H; [reflexivity|]. cbn [read_char]. destruct (x =? c) eqn:E; [|reflexivity]. apply N.eqb_eq in E. subst. apply mem_false in H. destruct H. now left. Qed.
Lemma groups_no_colon : forall k i s, mem 58 s = false -> (i = 0 -> fst (fst (read_groups k 0 s)) <= 2)%nat /\ mem 58 (snd (read_groups k i s)) = false /\ (i <> 0 -> read_groups k i s = (i, false, s))%nat.
Proof.
  intros k i s H. assert (C : mem 58 (snd (read_groups k i s)) = false).
  { destruct (read_groups_c k i s) as (a & E & _). rewrite E, mem_app in H. now apply orb_false_elim in H as [_ H]. }
  assert (Z : forall k i s, mem 58 s = false -> i <> 0%nat -> read_groups k i s = (i, false, s)).
  { clear. intros k i s H Hi. destruct i as [|i]; [congruence|]. destruct k as [|k]; [reflexivity|]. cbn [read_groups sep]. assert (R : read_char 58 s = None) by now apply read_char_none. rewrite R. cbn [obind]. destruct k; reflexivity. }
  split; [intros _|split; [exact C|intros Hi; now apply Z]]. destruct k as [|k]; [cbn; lia|]. cbn [read_groups]. destruct (match k with O => None | S _ => sep 0 s read_ipv4 end); [cbn; lia|]. destruct (sep 0 s read_group) as [r|] eqn:E; [|cbn; lia]. rewrite Z; [cbn; lia| |discriminate].
  cbn [sep] in E. destruct (read_group_c _ _ E) as (a & Ea & _). rewrite Ea, mem_app in H. now apply orb_false_elim in H as [_ H].
Qed.
Lemma ipv6_ok_colon : forall s, ipv6_ok s = true -> mem 58 s = true.
Proof.
  intros s H. destruct (mem 58 s) eqn:M; [reflexivity|]. exfalso. destruct (groups_no_colon 8 0 s M) as (A & B & _). unfold ipv6_ok in H. destruct (read_groups 8 0 s) as [[n v4] r]. cbn [fst snd] in A, B. specialize (A eq_refl).
  replace (Nat.eqb n 8) with false in H by lia. destruct v4; [discriminate|]. assert (R : read_char 58 r = None) by now apply read_char_none. rewrite R in H. discriminate.
Qed.
