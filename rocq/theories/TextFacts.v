(** Lemmas about [Text]. *)
From Coq Require Import Arith NArith ZArith Bool List Lia ZifyBool ZifyN ZifyNat.
Import ListNotations.
From Verif Require Import Base BaseFacts Text.
Open Scope N_scope.

Ltac Zify.zify_post_hook ::= Z.to_euclidean_division_equations.

(** ** UTF-8 *)
Lemma from_utf8_c : forall c r, is_scalar c = true ->
  from_utf8 (utf8_c c ++ r) = match from_utf8 r with Some s => Some (c :: s) | None => None end.
Proof.
  intros c r H. unfold is_scalar, in_range in H. unfold utf8_c.
  destruct (c <? 128) eqn:E1; [cbn [app from_utf8]; now rewrite E1|].
  destruct (c <? 2048) eqn:E2.
  - cbn [app from_utf8]. unfold in_range, cont, in_range.
    replace (192 + c / 64 <? 128) with false by lia.
    replace ((194 <=? 192 + c / 64) && (192 + c / 64 <=? 223)) with true by lia.
    replace ((128 <=? 128 + c mod 64) && (128 + c mod 64 <=? 191)) with true by lia.
    destruct (from_utf8 r); [|reflexivity]. f_equal. f_equal. lia.
  - destruct (c <? 65536) eqn:E3.
    + cbn [app from_utf8]. unfold in_range, cont, in_range.
      replace (224 + c / 4096 <? 128) with false by lia.
      replace ((194 <=? 224 + c / 4096) && (224 + c / 4096 <=? 223)) with false by lia.
      replace ((224 <=? 224 + c / 4096) && (224 + c / 4096 <=? 239)) with true by lia.
      cbv zeta.
      replace (((if 224 + c / 4096 =? 224 then 160 else 128) <=? 128 + c / 64 mod 64)
        && (128 + c / 64 mod 64 <=? (if 224 + c / 4096 =? 237 then 159 else 191))
        && ((128 <=? 128 + c mod 64) && (128 + c mod 64 <=? 191))) with true
        by (destruct (224 + c / 4096 =? 224) eqn:A, (224 + c / 4096 =? 237) eqn:B; lia).
      destruct (from_utf8 r); [|reflexivity]. f_equal. f_equal. lia.
    + cbn [app from_utf8]. unfold in_range, cont, in_range.
      replace (240 + c / 262144 <? 128) with false by lia.
      replace ((194 <=? 240 + c / 262144) && (240 + c / 262144 <=? 223)) with false by lia.
      replace ((224 <=? 240 + c / 262144) && (240 + c / 262144 <=? 239)) with false by lia.
      replace ((240 <=? 240 + c / 262144) && (240 + c / 262144 <=? 244)) with true by lia.
      cbv zeta.
      replace (((if 240 + c / 262144 =? 240 then 144 else 128) <=? 128 + c / 4096 mod 64)
        && (128 + c / 4096 mod 64 <=? (if 240 + c / 262144 =? 244 then 143 else 191))
        && ((128 <=? 128 + c / 64 mod 64) && (128 + c / 64 mod 64 <=? 191))
        && ((128 <=? 128 + c mod 64) && (128 + c mod 64 <=? 191))) with true
        by (destruct (240 + c / 262144 =? 240) eqn:A, (240 + c / 262144 =? 244) eqn:B; lia).
      destruct (from_utf8 r); [|reflexivity]. f_equal. f_equal. lia.
Qed.
Lemma from_utf8_utf8 : forall s, is_str s = true -> from_utf8 (utf8 s) = Some s.
Proof.
  induction s as [|c s IH]; intros H; [reflexivity|]. cbn [is_str forallb] in H.
  apply andb_true_iff in H. destruct H as [H1 H2].
  cbn [utf8 flat_map]. rewrite from_utf8_c by assumption. fold (utf8 s). now rewrite IH.
Qed.
Lemma utf8_c_low : forall c b, In b (utf8_c c) -> b < 128 -> c < 128 /\ b = c.
Proof.
  intros c b. unfold utf8_c. destruct (c <? 128) eqn:E1; [|destruct (c <? 2048); [|destruct (c <? 65536)]];
    cbn [In]; intros H Hb; [|exfalso..];
    repeat match goal with X : _ \/ _ |- _ => destruct X as [<-|X] end; try contradiction; lia.
Qed.
Lemma utf8_mem : forall c s, c < 128 -> mem c (utf8 s) = mem c s.
Proof.
  intros c s Hc. destruct (mem c s) eqn:E.
  - apply mem_In in E. apply mem_In. unfold utf8. apply in_flat_map. exists c. split; [assumption|].
    unfold utf8_c. apply N.ltb_lt in Hc. rewrite Hc. now left.
  - apply mem_false. intros H. unfold utf8 in H. apply in_flat_map in H. destruct H as [x [Hx Hi]].
    apply utf8_c_low in Hi; [|assumption]. destruct Hi as [_ ->]. apply mem_false in E. contradiction.
Qed.
Lemma utf8_app : forall a b, utf8 (a ++ b) = utf8 a ++ utf8 b.
Proof. intros. unfold utf8. apply flat_map_app. Qed.
Lemma utf8_ascii : forall s, forallb is_ascii s = true -> utf8 s = s.
Proof.
  induction s as [|c s IH]; intros H; [reflexivity|]. cbn [forallb] in H. apply andb_true_iff in H. destruct H as [H1 H2].
  cbn [utf8 flat_map]. unfold utf8_c. unfold is_ascii in H1. rewrite H1. cbn [app]. f_equal. now apply IH.
Qed.
Lemma llen_utf8 : forall s, llen (utf8 s) = blen s.
Proof.
  induction s as [|c s IH]; [reflexivity|]. cbn [utf8 flat_map blen]. rewrite llen_app. fold (utf8 s). rewrite IH. f_equal.
  unfold utf8_c, len_utf8. destruct (c <? 128); [|destruct (c <? 2048); [|destruct (c <? 65536)]]; reflexivity.
Qed.

Ltac Zify.zify_post_hook ::= idtac.

(** ** Percent decoding *)
Lemma pct_decode_id : forall b, mem 37 b = false -> pct_decode b = b.
Proof.
  induction b as [|c b IH]; intros H; [reflexivity|]. apply mem_cons_false in H. destruct H as [H1 H2].
  cbn [pct_decode]. replace (c =? 37) with false by lia. f_equal. now apply IH.
Qed.
Lemma pct_decode_str_id : forall s, is_str s = true -> mem 37 s = false -> pct_decode_str s = Some s.
Proof.
  intros s H1 H2. unfold pct_decode_str. rewrite pct_decode_id; [now apply from_utf8_utf8|].
  rewrite utf8_mem; [assumption|lia].
Qed.

(** ** Sorted maps *)
Lemma str_ltb_irrefl : forall a, str_ltb a a = false.
Proof. induction a as [|x a IH]; [reflexivity|]. cbn. rewrite IH, N.ltb_irrefl, andb_false_r. reflexivity. Qed.
Lemma str_ltb_trans : forall a b c, str_ltb a b = true -> str_ltb b c = true -> str_ltb a c = true.
Proof.
  induction a as [|x a IH]; intros [|y b] [|z c]; cbn; try discriminate; try reflexivity. intros H1 H2.
  destruct (x <? y) eqn:A, (y <? z) eqn:B.
  - replace (x <? z) with true by lia. reflexivity.
  - cbn [orb] in H2. apply andb_true_iff in H2. destruct H2 as [C _]. apply N.eqb_eq in C. subst z. now rewrite A.
  - cbn [orb] in H1. apply andb_true_iff in H1. destruct H1 as [C _]. apply N.eqb_eq in C. subst y. now rewrite B.
  - cbn [orb] in H1, H2. apply andb_true_iff in H1. apply andb_true_iff in H2. destruct H1 as [C H1], H2 as [D H2].
    apply N.eqb_eq in C. apply N.eqb_eq in D. subst. rewrite N.eqb_refl, (IH b c) by assumption. apply orb_true_r.
Qed.
Lemma str_ltb_total : forall a b, str_eqb a b = false -> str_ltb a b = false -> str_ltb b a = true.
Proof.
  induction a as [|x a IH]; intros [|y b]; cbn; try discriminate; try reflexivity. intros H1 H2.
  apply orb_false_iff in H2. destruct H2 as [H2 H3].
  destruct (x =? y) eqn:E; cbn in *.
  - rewrite (IH b) by assumption. apply N.eqb_eq in E. subst. rewrite N.eqb_refl. apply orb_true_r.
  - replace (y <? x) with true by lia. reflexivity.
Qed.
Section BMapFacts.
  Context {V : Type}.
  Lemma bput_keys : forall k (v : V) m k', In k' (keys (bput k v m)) <-> k' = k \/ In k' (keys m).
  Proof.
    intros k v m k'. induction m as [|[x w] m IH].
    - cbn. intuition congruence.
    - cbn [bput]. destruct (str_eqb k x) eqn:E.
      + apply str_eqb_spec in E. subst x. cbn. intuition congruence.
      + destruct (str_ltb k x) eqn:L; cbn in *; intuition congruence.
  Qed.
  Lemma bput_sorted : forall k (v : V) m, sorted_keys m -> sorted_keys (bput k v m).
  Proof.
    intros k v. induction m as [|[x w] m IH]; intros H.
    - cbn. split; [intros ? []|exact I].
    - cbn [bput]. destruct H as [H1 H2]. destruct (str_eqb k x) eqn:E.
      + apply str_eqb_spec in E. subst x. split; assumption.
      + destruct (str_ltb k x) eqn:L.
        * cbn [sorted_keys]. split; [|split; assumption]. intros k' [<-|Hi]; [assumption|].
          apply (str_ltb_trans _ x); auto.
        * cbn [sorted_keys]. split; [|auto]. intros k' Hi. apply bput_keys in Hi. destruct Hi as [->|Hi]; [|auto].
          now apply str_ltb_total.
  Qed.
  Lemma bput_last : forall k (v : V) m, (forall k', In k' (keys m) -> str_ltb k' k = true) ->
    bput k v m = m ++ [(k, v)].
  Proof.
    intros k v. induction m as [|[x w] m IH]; intros H; [reflexivity|].
    cbn [bput app]. assert (Hx : str_ltb x k = true) by (apply H; now left).
    destruct (str_eqb k x) eqn:E.
    - apply str_eqb_spec in E. subst. now rewrite str_ltb_irrefl in Hx.
    - destruct (str_ltb k x) eqn:L.
      + pose proof (str_ltb_trans _ _ _ Hx L) as C. now rewrite str_ltb_irrefl in C.
      + f_equal. apply IH. intros k' Hi. apply H. now right.
  Qed.
  Lemma bput_llen : forall k (v : V) m, llen (bput k v m) <= llen m + 1.
  Proof.
    intros k v. induction m as [|[x w] m IH]; [cbn; lia|]. cbn [bput].
    destruct (str_eqb k x); [|destruct (str_ltb k x)]; rewrite ?llen_cons in *; lia.
  Qed.
  Lemma bput_in : forall k (v : V) m e, In e (bput k v m) -> e = (k, v) \/ In e m.
  Proof.
    intros k v m e. induction m as [|[x w] m IH]; [cbn; intuition congruence|]. cbn [bput].
    destruct (str_eqb k x); [|destruct (str_ltb k x)]; cbn [In]; intuition congruence.
  Qed.
  Lemma bget_bput : forall k (v : V) m, bget k (bput k v m) = Some v.
  Proof.
    intros k v. induction m as [|[x w] m IH]; cbn [bput]; unfold bget in *; cbn [lookup].
    - now rewrite str_eqb_refl.
    - destruct (str_eqb k x) eqn:E; [cbn [lookup]; now rewrite str_eqb_refl|].
      destruct (str_ltb k x); cbn [lookup]; [now rewrite str_eqb_refl|]. now rewrite E.
  Qed.
  Lemma bget_bput_other : forall k k' (v : V) m, k' <> k -> bget k' (bput k v m) = bget k' m.
  Proof.
    intros k k' v m Hn. apply str_eqb_neq in Hn. induction m as [|[x w] m IH]; cbn [bput]; unfold bget in *; cbn [lookup].
    - now rewrite Hn.
    - destruct (str_eqb k x) eqn:E.
      + apply str_eqb_spec in E. subst x. cbn [lookup]. now rewrite Hn.
      + destruct (str_ltb k x); cbn [lookup]; [now rewrite Hn|]. now rewrite IH.
  Qed.
End BMapFacts.

(** ** Characters of address literals *)
Definition addr_char (c : N) : bool := is_hex c || (c =? 58) || (c =? 46).
Definition consumes (s r : str) : Prop := exists a, s = a ++ r /\ forallb addr_char a = true.
Lemma consumes_refl : forall s, consumes s s.
Proof. intros. now exists []. Qed.
Lemma consumes_trans : forall a b c, consumes a b -> consumes b c -> consumes a c.
Proof.
  intros a b c [x [-> Hx]] [y [-> Hy]]. exists (x ++ y). split; [now rewrite app_assoc|]. rewrite forallb_app. now rewrite Hx.
Qed.
Lemma span_spec : forall p s, s = fst (span p s) ++ snd (span p s) /\ forallb p (fst (span p s)) = true.
Proof.
  induction s as [|c s [IH1 IH2]]; [now split|]. cbn [span]. destruct (p c) eqn:E; [|now split].
  destruct (span p s) as [a b]. cbn [fst snd] in *. split; cbn; [now f_equal|now rewrite E].
Qed.
Lemma digit_hex : forall c, is_digit c = true -> is_hex c = true.
Proof. intros c H. unfold is_hex, hex_val. now rewrite H. Qed.
Lemma read_group_c : forall s r, read_group s = Some r -> consumes s r.
Proof.
  intros s r H. unfold read_group in H. pose proof (span_spec is_hex s) as [A B].
  destruct (span is_hex s) as [d x]. cbn [fst snd] in *.
  destruct (_ && _); [|discriminate]. injection H as <-. exists d. split; [assumption|].
  apply forallb_forall. intros c Hc. unfold addr_char. rewrite forallb_forall in B. now rewrite (B c Hc).
Qed.
Lemma read_octet_c : forall s r, read_octet s = Some r -> consumes s r.
Proof.
  intros s r H. unfold read_octet in H. pose proof (span_spec is_digit s) as [A B].
  destruct (span is_digit s) as [d x]. cbn [fst snd] in *.
  destruct (_ && _ && _ && _); [|discriminate]. injection H as <-. exists d. split; [assumption|].
  apply forallb_forall. intros c Hc. unfold addr_char. rewrite forallb_forall in B. now rewrite (digit_hex c (B c Hc)).
Qed.
Lemma read_char_c : forall c s r, addr_char c = true -> read_char c s = Some r -> consumes s r.
Proof.
  intros c s r Hc H. destruct s as [|x s]; [discriminate|]. cbn in H. destruct (x =? c) eqn:E; [|discriminate].
  injection H as <-. exists [x]. split; [reflexivity|]. apply N.eqb_eq in E. subst. cbn. now rewrite Hc.
Qed.
Lemma obind_some : forall A B (o : option A) (f : A -> option B) b, obind o f = Some b -> exists a, o = Some a /\ f a = Some b.
Proof. intros A B [a|] f b H; [exists a; split; [reflexivity|exact H]|discriminate]. Qed.
Lemma read_ipv4_c : forall s r, read_ipv4 s = Some r -> consumes s r.
Proof.
  intros s r H. unfold read_ipv4 in H.
  repeat (apply obind_some in H; let x := fresh in let E := fresh in destruct H as [x [E H]];
    first [apply read_octet_c in E | apply read_char_c in E; [|reflexivity]]; eapply consumes_trans; [exact E|]; clear E).
  now apply read_octet_c.
Qed.
Lemma sep_c : forall i s f r, (forall s r, f s = Some r -> consumes s r) -> sep i s f = Some r -> consumes s r.
Proof.
  intros [|i] s f r Hf H; cbn [sep] in H; [now apply Hf|]. apply obind_some in H. destruct H as [x [E H]].
  apply read_char_c in E; [|reflexivity]. eapply consumes_trans; [exact E|now apply Hf].
Qed.
Lemma read_groups_c : forall k i s, consumes s (snd (read_groups k i s)).
Proof.
  induction k as [|k IH]; intros i s; cbn [read_groups]; [apply consumes_refl|].
  destruct (match k with O => None | S _ => sep i s read_ipv4 end) as [r|] eqn:E.
  - cbn [snd]. destruct k; [discriminate|]. apply (sep_c i s read_ipv4); [apply read_ipv4_c|assumption].
  - destruct (sep i s read_group) as [r|] eqn:E2; [|apply consumes_refl].
    eapply consumes_trans; [apply (sep_c i s read_group); [apply read_group_c|exact E2]|apply IH].
Qed.
Lemma ipv6_ok_chars : forall s, ipv6_ok s = true -> forallb addr_char s = true.
Proof.
  intros s H. unfold ipv6_ok in H. pose proof (read_groups_c 8 0 s) as C. destruct (read_groups 8 0 s) as [[n v4] r].
  cbn [snd] in C. destruct (Nat.eqb n 8).
  - destruct r; [|discriminate]. destruct C as [a [-> C]]. now rewrite app_nil_r.
  - destruct v4; [discriminate|]. destruct (obind (read_char 58 r) (read_char 58)) as [r1|] eqn:E; [|discriminate].
    apply obind_some in E. destruct E as [x [E1 E2]]. apply read_char_c in E1; [|reflexivity]. apply read_char_c in E2; [|reflexivity].
    pose proof (read_groups_c (7 - n) 0 r1) as C2. destruct (read_groups (7 - n) 0 r1) as [[? ?] r2]. cbn [snd] in C2.
    destruct r2; [|discriminate].
    assert (K : consumes s []) by (eapply consumes_trans; [exact C|]; eapply consumes_trans; [exact E1|]; eapply consumes_trans; [exact E2|exact C2]).
    destruct K as [a [-> K]]. now rewrite app_nil_r.
Qed.

(** ** Lower-casing does not change whether a literal is an IPv6 address *)
Lemma is_hex_bool : forall c, is_hex c = is_digit c || in_range 97 102 c || in_range 65 70 c.
Proof.
  intros c. unfold is_hex, hex_val. destruct (is_digit c); [reflexivity|]. destruct (in_range 97 102 c); [reflexivity|].
  destruct (in_range 65 70 c); reflexivity.
Qed.
Lemma is_hex_lower : forall c, is_hex (lower_c c) = is_hex c.
Proof.
  intros c. rewrite !is_hex_bool. unfold lower_c, is_upper, is_digit, in_range.
  destruct ((65 <=? c) && (c <=? 90)) eqn:U; [lia|reflexivity].
Qed.
Lemma lower_digit : forall c, is_digit c = true -> lower_c c = c.
Proof. intros c H. unfold lower_c, is_upper, is_digit, in_range in *. replace ((65 <=? c) && (c <=? 90)) with false by lia. reflexivity. Qed.
Lemma is_digit_lower : forall c, is_digit (lower_c c) = is_digit c.
Proof. intros c. unfold lower_c, is_upper, is_digit, in_range. destruct ((65 <=? c) && (c <=? 90)) eqn:E; [lia|reflexivity]. Qed.
Lemma span_lower : forall p s, (forall c, p (lower_c c) = p c) ->
  span p (lower s) = (lower (fst (span p s)), lower (snd (span p s))).
Proof.
  intros p s Hp. induction s as [|c s IH]; [reflexivity|]. cbn [lower map span]. rewrite Hp. fold (lower s).
  destruct (p c); [|reflexivity]. rewrite IH. destruct (span p s). reflexivity.
Qed.
Definition olower (o : option str) : option str := match o with Some s => Some (lower s) | None => None end.
Lemma llen_lower : forall s, llen (lower s) = llen s.
Proof. intros. unfold llen. now rewrite lower_length. Qed.
Lemma read_group_lower : forall s, read_group (lower s) = olower (read_group s).
Proof.
  intros. unfold read_group. rewrite span_lower by apply is_hex_lower. destruct (span is_hex s) as [d r]. cbn [fst snd].
  rewrite llen_lower. destruct (_ && _); reflexivity.
Qed.
Lemma lower_digits : forall d, forallb is_digit d = true -> lower d = d.
Proof.
  induction d as [|c d IH]; intros H; [reflexivity|]. cbn [forallb] in H. apply andb_true_iff in H. destruct H as [A B].
  cbn [lower map]. rewrite lower_digit by assumption. f_equal. now apply IH.
Qed.
Lemma read_octet_lower : forall s, read_octet (lower s) = olower (read_octet s).
Proof.
  intros. unfold read_octet. rewrite span_lower by apply is_digit_lower. pose proof (span_spec is_digit s) as [_ B].
  destruct (span is_digit s) as [d r]. cbn [fst snd] in *. rewrite lower_digits by assumption.
  destruct (_ && _ && _ && _); reflexivity.
Qed.
Lemma read_char_lower : forall c s, (c = 58 \/ c = 46) -> read_char c (lower s) = olower (read_char c s).
Proof.
  intros c [|x s] H; [reflexivity|]. cbn [lower map read_char]. fold (lower s).
  replace (lower_c x =? c) with (x =? c); [destruct (x =? c); reflexivity|].
  unfold lower_c, is_upper, in_range. destruct ((65 <=? x) && (x <=? 90)) eqn:E; lia.
Qed.
Lemma obind_lower : forall (o : option str) f, (forall s, f (lower s) = olower (f s)) -> obind (olower o) f = olower (obind o f).
Proof. intros [s|] f H; [apply H|reflexivity]. Qed.
Lemma read_ipv4_lower : forall s, read_ipv4 (lower s) = olower (read_ipv4 s).
Proof.
  intros. unfold read_ipv4.
  repeat (first [rewrite read_octet_lower | rewrite read_char_lower by (right; reflexivity)]; try (apply obind_lower; intro)).
  reflexivity.
Qed.
Lemma sep_lower : forall i s f, (forall s, f (lower s) = olower (f s)) -> sep i (lower s) f = olower (sep i s f).
Proof.
  intros [|i] s f H; cbn [sep]; [apply H|]. rewrite read_char_lower by (left; reflexivity). now apply obind_lower.
Qed.
Lemma read_groups_lower : forall k i s,
  read_groups k i (lower s) = (fst (read_groups k i s), lower (snd (read_groups k i s))).
Proof.
  induction k as [|k IH]; intros i s; cbn [read_groups]; [reflexivity|].
  assert (E : match k with O => None | S _ => sep i (lower s) read_ipv4 end
    = olower (match k with O => None | S _ => sep i s read_ipv4 end)).
  { destruct k; [reflexivity|]. apply sep_lower. apply read_ipv4_lower. }
  rewrite E. destruct (match k with O => None | S _ => sep i s read_ipv4 end); [reflexivity|]. cbn [olower].
  rewrite sep_lower by apply read_group_lower. destruct (sep i s read_group); [apply IH|reflexivity].
Qed.
Lemma ipv6_ok_lower : forall s, ipv6_ok (lower s) = ipv6_ok s.
Proof.
  intros. unfold ipv6_ok. rewrite read_groups_lower. destruct (read_groups 8 0 s) as [[n v4] r]. cbn [fst snd].
  destruct (Nat.eqb n 8); [destruct r; reflexivity|]. destruct v4; [reflexivity|].
  rewrite read_char_lower by (left; reflexivity). rewrite obind_lower by (intro; apply read_char_lower; left; reflexivity).
  destruct (obind (read_char 58 r) (read_char 58)) as [x|]; [|reflexivity]. cbn [olower].
  rewrite read_groups_lower. destruct (read_groups (7 - n) 0 x) as [[? ?] y]. cbn [fst snd]. destruct y; reflexivity.
Qed.
