From Coq Require Import NArith Bool String List Lia ZifyBool ZifyN ZifyNat Arith.
Import ListNotations.
From Verif Require Import Base BaseFacts Text TextFacts Headers HeadersProofs MessageSpec Hep.
Open Scope N_scope.
Open Scope list_scope.

(** * Bytes and characters *)

Lemma utf8_low c : c < 128 -> utf8_c c = [c].
Proof. intros H. unfold utf8_c. replace (c <? 128) with true by lia. reflexivity. Qed.
Lemma utf8_high c b : 128 <= c -> In b (utf8_c c) -> 128 <= b.
Proof. intros H Hb. destruct (N.lt_ge_cases b 128) as [L|L]; [|exact L]. destruct (utf8_c_low c b Hb L). lia. Qed.
Lemma utf8_c_nonempty c : utf8_c c <> [].
Proof. unfold utf8_c. destruct (c <? 128); [discriminate|]. destruct (c <? 2048); [discriminate|]. destruct (c <? 65536); discriminate. Qed.
Lemma utf8_cons c s : utf8 (c :: s) = utf8_c c ++ utf8 s. Proof. reflexivity. Qed.
Lemma lower_high c : 128 <= c -> lower_c c = c.
Proof. intros H. unfold lower_c. replace (is_upper c) with false; [reflexivity|]. unfold is_upper, in_range. lia. Qed.
Lemma lower_low c : c < 128 -> lower_c c < 128.
Proof. intros H. unfold lower_c. destruct (is_upper c) eqn:E; [|exact H]. unfold is_upper, in_range in E. lia. Qed.
Lemma starts_ci_utf8 p : forall s, Forall (fun c => c < 128) p -> starts_with_ci (utf8 s) p = starts_with_ci s p.
Proof.
  induction p as [|y p IH]; intros s H; [destruct (utf8 s), s; reflexivity|]. inversion H; subst. destruct s as [|x s]; [reflexivity|]. rewrite utf8_cons.
  destruct (N.lt_ge_cases x 128) as [L|L].
  - rewrite utf8_low by assumption. cbn [app starts_with_ci]. now rewrite IH.
  - destruct (utf8_c x) as [|b bs] eqn:E; [now apply utf8_c_nonempty in E|]. cbn [app starts_with_ci].
    assert (128 <= b) by (apply (utf8_high x); [exact L|rewrite E; now left]). rewrite (lower_high b), (lower_high x) by assumption.
    pose proof (lower_low y H2). replace (b =? lower_c y) with false by lia. replace (x =? lower_c y) with false by lia. reflexivity.
Qed.
Lemma starts_ci_split p : forall s, starts_with_ci s p = true -> lower (firstn (length p) s) = lower p /\ (length p <= length s)%nat.
Proof.
  induction p as [|y p IH]; intros [|x s] H; cbn [starts_with_ci] in H; try discriminate; [split; [reflexivity|cbn; lia]|split; [reflexivity|cbn; lia]|].
  apply andb_true_iff in H. destruct H as [H1 H2]. destruct (IH s H2) as [I1 I2]. cbn [length firstn lower map]. split; [|lia]. unfold lower in I1. rewrite I1. f_equal. now apply N.eqb_eq.
Qed.
Lemma starts_ci_app p s r : lower s = lower p -> starts_with_ci (s ++ r) p = true.
Proof.
  revert s. induction p as [|y p IH]; intros [|x s] H; try discriminate; [destruct r; reflexivity|]. cbn [lower map] in H. injection H as H1 H2. cbn [app starts_with_ci]. rewrite H1, N.eqb_refl. now apply IH.
Qed.
Lemma trim_end_by_app p a b : trim_end_by p (a ++ b) = match trim_end_by p b with [] => trim_end_by p a | t => a ++ t end.
Proof.
  induction a as [|x a IH]; cbn [app]; [destruct (trim_end_by p b); reflexivity|]. cbn [trim_end_by]. rewrite IH. destruct (trim_end_by p b) as [|y t]; [reflexivity|].
  destruct (a ++ y :: t) eqn:E; [destruct a; discriminate|]. reflexivity.
Qed.
Section low.
  Variable p : N -> bool.
  Hypothesis low : forall c, p c = true -> c < 128.
  Lemma high_false c : 128 <= c -> p c = false. Proof. intros H. destruct (p c) eqn:E; [apply low in E; lia|reflexivity]. Qed.
  Lemma trim_start_utf8 s : trim_start_by p (utf8 s) = utf8 (trim_start_by p s).
  Proof.
    unfold trim_start_by. induction s as [|c s IH]; [reflexivity|]. rewrite utf8_cons. cbn [drop_while]. destruct (N.lt_ge_cases c 128) as [L|L].
    - rewrite utf8_low by assumption. cbn [app drop_while]. destruct (p c); [exact IH|]. rewrite utf8_cons, utf8_low by assumption. reflexivity.
    - rewrite (high_false c L). destruct (utf8_c c) as [|b bs] eqn:E; [now apply utf8_c_nonempty in E|]. cbn [app drop_while].
      rewrite (high_false b); [|apply (utf8_high c); [exact L|rewrite E; now left]]. now rewrite utf8_cons, E.
  Qed.
  Lemma trim_end_none s : s <> [] -> (forall c, In c s -> p c = false) -> trim_end_by p s = s.
  Proof.
    induction s as [|c s IH]; [congruence|]. intros _ H. cbn [trim_end_by]. destruct s as [|d s].
    - cbn [trim_end_by]. now rewrite (H c (or_introl eq_refl)).
    - rewrite IH; [reflexivity|discriminate|]. intros x Hx. apply H. now right.
  Qed.
  Lemma trim_end_utf8 s : trim_end_by p (utf8 s) = utf8 (trim_end_by p s).
  Proof.
    induction s as [|c s IH]; [reflexivity|]. rewrite utf8_cons, trim_end_by_app, IH. cbn [trim_end_by].
    destruct (trim_end_by p s) as [|y t] eqn:E.
    - change (utf8 []) with (@nil N). destruct (N.lt_ge_cases c 128) as [L|L].
      + rewrite utf8_low by assumption. cbn [trim_end_by]. destruct (p c); [reflexivity|]. rewrite utf8_cons, utf8_low by assumption. reflexivity.
      + rewrite (high_false c L), utf8_cons. change (utf8 []) with (@nil N). rewrite app_nil_r. apply trim_end_none; [apply utf8_c_nonempty|]. intros b Hb. apply high_false. now apply (utf8_high c).
    - rewrite (utf8_cons y t). destruct (utf8_c y) as [|b bs] eqn:E2; [now apply utf8_c_nonempty in E2|]. cbn [app]. rewrite (utf8_cons c), (utf8_cons y), E2. reflexivity.
  Qed.
End low.
Lemma sp_tab_low c : sp_tab c = true -> c < 128. Proof. unfold sp_tab. lia. Qed.
Lemma sp_tab_cr_low c : sp_tab_cr c = true -> c < 128. Proof. unfold sp_tab_cr. lia. Qed.
Lemma trim_ascii_utf8 s : trim_ascii (utf8 s) = utf8 (trim_ascii s).
Proof. unfold trim_ascii. rewrite (trim_start_utf8 _ sp_tab_low). apply trim_end_utf8, sp_tab_cr_low. Qed.
Lemma utf8_skip a s : forallb is_ascii a = true -> utf8 (a ++ s) = a ++ utf8 s.
Proof. intros H. rewrite utf8_app. f_equal. now apply utf8_ascii. Qed.
Lemma match_utf8 l : match_call_id (utf8 l) = match match_call_id l with Some v => Some (utf8 v) | None => None end.
Proof.
  assert (K : forall p, Forall (fun c => c < 128) p -> starts_with_ci l p = true -> skipn (length p) (utf8 l) = utf8 (skipn (length p) l)).
  { intros p Hp H. apply starts_ci_split in H. destruct H as [H1 H2].
    assert (A : forallb is_ascii (firstn (length p) l) = true).
    { apply forallb_forall. intros c Hc. destruct (N.lt_ge_cases c 128) as [L|L]; [unfold is_ascii; lia|]. exfalso.
      assert (Hin : In (lower_c c) (lower p)) by (rewrite <- H1; unfold lower; now apply in_map). unfold lower in Hin. apply in_map_iff in Hin. destruct Hin as (y & Hy & Iy).
      rewrite Forall_forall in Hp. specialize (Hp y Iy). apply lower_low in Hp. rewrite (lower_high c L) in Hy. lia. }
    rewrite <- (firstn_skipn (length p) l) at 1. rewrite utf8_skip by exact A.
    assert (EL : length (firstn (length p) l) = length p) by (rewrite firstn_length; lia). rewrite <- EL at 1. rewrite skipn_app, skipn_all, Nat.sub_diag. reflexivity. }
  assert (C1 : Forall (fun c => c < 128) (lit "Call-ID:")) by (repeat constructor). assert (C2 : Forall (fun c => c < 128) (lit "i:")) by (repeat constructor).
  unfold match_call_id. rewrite !starts_ci_utf8 by assumption. destruct (starts_with_ci l (lit "Call-ID:")) eqn:E1.
  - f_equal. exact (K _ C1 E1).
  - destruct (starts_with_ci l (lit "i:")) eqn:E2; [|reflexivity]. f_equal. exact (K _ C2 E2).
Qed.

(** * Lines *)

Lemma without_cr_add l : without_cr (l ++ [13]) = l.
Proof. unfold without_cr. rewrite rev_app_distr. cbn [rev app]. cbn [N.eqb Pos.eqb]. apply rev_involutive. Qed.
Lemma extract_line f l rest : ~ In 10 l -> extract (S f) (utf8 l ++ 13 :: 10 :: rest) =
  match l with [] => None | _ => match match_call_id l with Some v => from_utf8 (utf8 (trim_ascii v)) | None => extract f rest end end.
Proof.
  intros H. cbn [extract]. assert (E : utf8 l ++ 13 :: 10 :: rest = (utf8 l ++ [13]) ++ 10 :: rest) by (rewrite <- app_assoc; reflexivity). rewrite E, split_once_app.
  - rewrite without_cr_add. destruct l as [|c l].
    + reflexivity.
    + rewrite utf8_cons. destruct (utf8_c c) as [|b bs] eqn:Ec; [now apply utf8_c_nonempty in Ec|]. cbn [app]. change (b :: bs ++ utf8 l) with ((b :: bs) ++ utf8 l). rewrite <- Ec, <- utf8_cons, match_utf8.
      destruct (match_call_id (c :: l)) as [v|]; [|reflexivity]. now rewrite trim_ascii_utf8.
  - unfold mem. rewrite existsb_app. apply orb_false_iff. split; [|reflexivity]. fold (mem 10 (utf8 l)). rewrite utf8_mem by lia. unfold mem. apply not_true_iff_false. intros X. apply existsb_exists in X.
    destruct X as (x & X1 & X2). apply N.eqb_eq in X2. subst x. contradiction.
Qed.
Fixpoint first_match (lines : list str) : option str :=
  match lines with [] => None | l :: r => match match_call_id l with Some v => Some v | None => first_match r end end.
Lemma extract_lines lines body : (forall l, In l lines -> l <> [] /\ ~ In 13 l /\ ~ In 10 l) -> forall f, (length lines < f)%nat ->
  extract f (utf8 (flat_map (fun l => l ++ [13; 10]) lines ++ [13; 10]) ++ body) = match first_match lines with Some v => from_utf8 (utf8 (trim_ascii v)) | None => None end.
Proof.
  intros H. induction lines as [|l lines IH]; intros f Hf; (destruct f as [|f]; [lia|]).
  - cbn [flat_map app]. change (utf8 [13; 10] ++ body) with (utf8 [] ++ 13 :: 10 :: body). rewrite extract_line by (intros []). reflexivity.
  - cbn [flat_map]. rewrite !utf8_app, <- !app_assoc. change (utf8 [13; 10]) with [13; 10]. cbn [app]. destruct (H l (or_introl eq_refl)) as (N1 & _ & N3). rewrite extract_line by assumption.
    destruct l as [|c l]; [congruence|]. cbn [first_match]. destruct (match_call_id (c :: l)); [reflexivity|].
    rewrite <- (IH (fun l0 Hl => H l0 (or_intror Hl)) f); [|cbn [length] in Hf; lia]. f_equal. rewrite utf8_app, <- app_assoc. reflexivity.
Qed.
Lemma flat_len (lines : list str) : le (length lines) (length (utf8 (flat_map (fun l : str => l ++ [13; 10]) lines))).
Proof. induction lines as [|l lines IH]; [cbn; lia|]. cbn [flat_map length]. rewrite !utf8_app, !app_length. change (utf8 [13; 10]) with [13; 10]. cbn [length]. lia. Qed.
Lemma extract_laid bytes start lines body : laid_out bytes start lines body ->
  extract_call_id bytes = match first_match (start :: lines) with Some v => from_utf8 (utf8 (trim_ascii v)) | None => None end.
Proof.
  intros (-> & H). unfold extract_call_id. apply extract_lines; [exact H|]. apply Nat.lt_succ_r. rewrite utf8_app, !app_length. eapply Nat.le_trans; [apply flat_len|]. rewrite <- Nat.add_assoc. apply Nat.le_add_r.
Qed.

(** * Header lines *)

Definition is_call_id (n : str) : bool := eq_ic n (lit "Call-ID") || eq_ic n (lit "i").
Lemma firstn_colon : forall k (n v : str), ~ In 58 n -> forall p, lower (firstn (S k) (n ++ 58 :: v)) = lower (p ++ [58]) -> length p = k -> ~ In 58 (lower p) -> lower n = lower p.
Proof.
  induction k as [|k IH]; intros n v Hn p H Hl Hp.
  - destruct p; [|discriminate]. destruct n as [|c n]; [reflexivity|]. cbn [app firstn lower map] in H. injection H as H. exfalso. apply Hn. left.
    change (lower_c 58) with 58 in H. unfold lower_c in H. destruct (is_upper c) eqn:E; [unfold is_upper, in_range in E; lia|exact H].
  - destruct p as [|y p]; [discriminate|]. cbn [length] in Hl. injection Hl as Hl. destruct n as [|c n].
    + exfalso. apply Hp. cbn [app firstn lower map] in H. injection H as H _. cbn [lower map]. left. rewrite <- H. reflexivity.
    + cbn [app] in H. change (lower (firstn (S (S k)) (c :: n ++ 58 :: v))) with (lower_c c :: lower (firstn (S k) (n ++ 58 :: v))) in H. cbn [lower map app] in H. injection H as H1 H2. cbn [lower map]. rewrite H1. f_equal.
      apply (IH n v); [intros X; apply Hn; now right|exact H2|exact Hl|]. intros X. apply Hp. cbn [lower map]. now right.
Qed.
Lemma match_header n v : ~ In 58 n -> match_call_id (n ++ 58 :: v) = if is_call_id n then Some v else None.
Proof.
  intros Hn. assert (K : forall p, ~ In 58 (lower p) -> starts_with_ci (n ++ 58 :: v) (p ++ [58]) = eq_ic n p).
  { intros p Hp. apply eq_iff_eq_true. rewrite eq_ic_spec. split.
    - intros H. apply starts_ci_split in H. destruct H as [H _]. rewrite app_length in H. cbn [length] in H. rewrite Nat.add_1_r in H. exact (firstn_colon (length p) n v Hn p H eq_refl Hp).
    - intros H. assert (E : n ++ 58 :: v = (n ++ [58]) ++ v) by (rewrite <- app_assoc; reflexivity). rewrite E. apply starts_ci_app. unfold lower in *. rewrite !map_app, H. reflexivity. }
  unfold match_call_id, is_call_id. change (lit "Call-ID:") with (lit "Call-ID" ++ [58]). change (lit "i:") with (lit "i" ++ [58]). rewrite !K by (vm_compute; intuition discriminate).
  assert (S0 : forall p, eq_ic n p = true -> skipn (S (length p)) (n ++ 58 :: v) = v).
  { intros p H. apply eq_ic_spec in H. assert (L : length n = length p) by (rewrite <- (map_length lower_c n), <- (map_length lower_c p); unfold lower in H; now rewrite H).
    rewrite <- L. clear. induction n; [reflexivity|assumption]. }
  destruct (eq_ic n (lit "Call-ID")) eqn:E1; cbn [orb]; [f_equal; exact (S0 _ E1)|]. destruct (eq_ic n (lit "i")) eqn:E2; [f_equal; exact (S0 _ E2)|reflexivity].
Qed.
(** a start line, or any line whose first blank comes before the first colon *)
Lemma match_start m rest : ~ In 58 m -> match_call_id (m ++ 32 :: rest) = None.
Proof.
  intros Hm. assert (K : forall p, ~ In 32 (lower p) -> ~ In 58 (lower p) -> starts_with_ci (m ++ 32 :: rest) (p ++ [58]) = false).
  { intros p Hp Hc. revert m Hm. induction p as [|y p IH]; intros m Hm; destruct m as [|c m]; cbn [app starts_with_ci].
    - reflexivity.
    - apply andb_false_iff. left. apply N.eqb_neq. intros E. apply Hm. left. change (lower_c 58) with 58 in E. unfold lower_c in E. destruct (is_upper c) eqn:U; [unfold is_upper, in_range in U; lia|exact E].
    - apply andb_false_iff. left. apply N.eqb_neq. intros E. apply Hp. left. now rewrite <- E.
    - apply andb_false_iff. right. apply IH; [intros X; apply Hp; now right|intros X; apply Hc; now right|intros X; apply Hm; now right]. }
  unfold match_call_id. change (lit "Call-ID:") with (lit "Call-ID" ++ [58]). change (lit "i:") with (lit "i" ++ [58]). now rewrite !K by (vm_compute; intuition discriminate).
Qed.
