(** Facts about the string library [Base.v]. *)
From Coq Require Import String Ascii NArith ZArith Bool Lia List ZifyBool ZifyN ZifyNat.
Import ListNotations.
From Verif Require Import Base.
Open Scope N_scope.
Ltac Zify.zify_post_hook ::= Z.div_mod_to_equations.

(** ** Equality *)
Lemma str_eqb_spec : forall a b, str_eqb a b = true <-> a = b.
Proof.
  induction a as [|x a IH]; destruct b as [|y b]; simpl; split; intro H; try easy.
  - apply andb_true_iff in H. destruct H as [H1 H2].
    apply N.eqb_eq in H1. apply IH in H2. congruence.
  - inversion H; subst. rewrite N.eqb_refl. simpl. now apply IH.
Qed.

Lemma str_eqb_refl : forall a, str_eqb a a = true.
Proof. intro a. now apply str_eqb_spec. Qed.

Lemma str_eqb_neq : forall a b, str_eqb a b = false <-> a <> b.
Proof.
  intros a b. destruct (str_eqb a b) eqn:E.
  - apply str_eqb_spec in E. split; congruence.
  - split; auto. intros _ H. apply str_eqb_spec in H. congruence.
Qed.

Lemma str_eqb_sym : forall a b, str_eqb a b = str_eqb b a.
Proof.
  intros a b. destruct (str_eqb a b) eqn:E.
  - apply str_eqb_spec in E. subst. now rewrite str_eqb_refl.
  - apply str_eqb_neq in E. symmetry. apply str_eqb_neq. congruence.
Qed.

Lemma str_eq_dec : forall a b : str, {a = b} + {a <> b}.
Proof. intros a b. apply list_eq_dec. apply N.eq_dec. Qed.

(** ** Case folding *)
Lemma lower_c_idem : forall c, lower_c (lower_c c) = lower_c c.
Proof.
  intro c. unfold lower_c, is_upper, in_range.
  destruct ((65 <=? c) && (c <=? 90)) eqn:E.
  - destruct ((65 <=? c + 32) && (c + 32 <=? 90)) eqn:E2; lia.
  - now rewrite E.
Qed.

Lemma lower_idem : forall s, lower (lower s) = lower s.
Proof.
  intro s. unfold lower. rewrite map_map. apply map_ext. apply lower_c_idem.
Qed.

Lemma lower_app : forall a b, lower (a ++ b) = lower a ++ lower b.
Proof. intros. unfold lower. apply map_app. Qed.

Lemma lower_length : forall s, length (lower s) = length s.
Proof. intros. apply map_length. Qed.

Lemma eq_ic_refl : forall a, eq_ic a a = true.
Proof. intro a. apply str_eqb_refl. Qed.

Lemma eq_ic_spec : forall a b, eq_ic a b = true <-> lower a = lower b.
Proof. intros. apply str_eqb_spec. Qed.

Lemma eq_ic_sym : forall a b, eq_ic a b = eq_ic b a.
Proof. intros. apply str_eqb_sym. Qed.

Lemma eq_ic_trans : forall a b c,
  eq_ic a b = true -> eq_ic b c = true -> eq_ic a c = true.
Proof. intros a b c. rewrite !eq_ic_spec. congruence. Qed.

(** ** Lengths *)
Lemma len_utf8_pos : forall c, 1 <= len_utf8 c <= 4.
Proof.
  intro c. unfold len_utf8.
  destruct (c <? 128), (c <? 2048), (c <? 65536); lia.
Qed.

Lemma blen_app : forall a b, blen (a ++ b) = blen a + blen b.
Proof. induction a as [|x a IH]; intro b; simpl; [reflexivity|]. rewrite IH. lia. Qed.

Lemma llen_nil : forall A, llen (@nil A) = 0.
Proof. reflexivity. Qed.

Lemma llen_cons : forall A (x : A) l, llen (x :: l) = 1 + llen l.
Proof. intros. unfold llen. cbn [length]. lia. Qed.

Lemma llen_app : forall A (a b : list A), llen (a ++ b) = llen a + llen b.
Proof. intros. unfold llen. rewrite app_length. lia. Qed.

Lemma llen_le_blen : forall s, llen s <= blen s.
Proof.
  induction s as [|c s IH]; [reflexivity|]. rewrite llen_cons. cbn [blen].
  pose proof (len_utf8_pos c). lia.
Qed.

(** ** Membership *)
Lemma mem_app : forall c a b, mem c (a ++ b) = mem c a || mem c b.
Proof. intros. unfold mem. apply existsb_app. Qed.

Lemma mem_In : forall c s, mem c s = true <-> In c s.
Proof.
  intros. unfold mem. rewrite existsb_exists. split.
  - intros [x [H1 H2]]. apply N.eqb_eq in H2. now subst.
  - intro H. exists c. split; auto. apply N.eqb_refl.
Qed.

Lemma mem_false : forall c s, mem c s = false <-> ~ In c s.
Proof.
  intros. rewrite <- mem_In. destruct (mem c s); split; congruence.
Qed.

Lemma mem_cons_false : forall c x s,
  mem c (x :: s) = false <-> x <> c /\ mem c s = false.
Proof.
  intros. unfold mem. simpl. rewrite orb_false_iff, N.eqb_neq. intuition.
Qed.

Lemma mem_rev : forall c s, mem c (rev s) = mem c s.
Proof.
  intros. destruct (mem c s) eqn:E.
  - apply mem_In. apply in_rev. rewrite rev_involutive. now apply mem_In.
  - apply mem_false. intro H. apply in_rev in H. apply mem_In in H. congruence.
Qed.

(** ** split_once *)
Lemma split_once_none : forall c s, split_once c s = None <-> mem c s = false.
Proof.
  induction s as [|x s IH].
  - simpl. split; reflexivity.
  - rewrite mem_cons_false. simpl. destruct (x =? c) eqn:E.
    + apply N.eqb_eq in E. split; intro H; [discriminate|intuition].
    + apply N.eqb_neq in E. destruct (split_once c s) as [[a b]|]; split; intro H.
      * discriminate.
      * destruct H as [_ H]. apply IH in H. discriminate.
      * split; auto. now apply IH.
      * reflexivity.
Qed.

Lemma split_once_some : forall c s a b,
  split_once c s = Some (a, b) -> s = a ++ c :: b /\ mem c a = false.
Proof.
  induction s as [|x s IH]; intros a b H; simpl in H; [discriminate|].
  destruct (x =? c) eqn:E.
  - inversion H; subst. apply N.eqb_eq in E. subst. split; reflexivity.
  - destruct (split_once c s) as [[a' b']|] eqn:E2; [|discriminate].
    inversion H; subst. destruct (IH a' b eq_refl) as [H1 H2].
    split; [now rewrite H1 | rewrite mem_cons_false; split; auto; now apply N.eqb_neq].
Qed.

Lemma split_once_app : forall c a b,
  mem c a = false -> split_once c (a ++ c :: b) = Some (a, b).
Proof.
  induction a as [|x a IH]; intros b H; simpl.
  - now rewrite N.eqb_refl.
  - apply mem_cons_false in H. destruct H as [H1 H2].
    apply N.eqb_neq in H1. rewrite H1. now rewrite IH.
Qed.

Lemma rsplit_once_app : forall c a b,
  mem c b = false -> rsplit_once c (a ++ c :: b) = Some (a, b).
Proof.
  intros c a b H. unfold rsplit_once.
  replace (rev (a ++ c :: b)) with (rev b ++ c :: rev a).
  - rewrite split_once_app; [now rewrite !rev_involutive | now rewrite mem_rev].
  - rewrite rev_app_distr. simpl. now rewrite <- app_assoc.
Qed.

Lemma rsplit_once_none : forall c s, rsplit_once c s = None <-> mem c s = false.
Proof.
  intros. unfold rsplit_once. rewrite <- (mem_rev c s), <- split_once_none.
  destruct (split_once c (rev s)) as [[a b]|]; split; congruence.
Qed.

(** ** split_on *)
Lemma split_on_nomem : forall c s, mem c s = false -> split_on c s = [s].
Proof.
  induction s as [|x s IH]; intro H; [reflexivity|].
  apply mem_cons_false in H. destruct H as [H1 H2]. simpl.
  apply N.eqb_neq in H1. rewrite H1. now rewrite (IH H2).
Qed.

Lemma split_on_app : forall c a b,
  mem c a = false -> split_on c (a ++ c :: b) = a :: split_on c b.
Proof.
  induction a as [|x a IH]; intros b H; simpl.
  - now rewrite N.eqb_refl.
  - apply mem_cons_false in H. destruct H as [H1 H2].
    apply N.eqb_neq in H1. rewrite H1. now rewrite IH.
Qed.

Lemma split_on_nonempty : forall c s, split_on c s <> [].
Proof.
  destruct s as [|x s]; simpl; [discriminate|].
  destruct (x =? c); [discriminate|]. destruct (split_on c s); discriminate.
Qed.

Lemma split_on_nomem_parts : forall c s p, In p (split_on c s) -> mem c p = false.
Proof.
  induction s as [|x s IH]; intros p H; simpl in H.
  - destruct H as [H|[]]. subst. reflexivity.
  - destruct (x =? c) eqn:E.
    + destruct H as [H|H]; [now subst | now apply IH].
    + destruct (split_on c s) as [|h t] eqn:E2.
      * destruct H as [H|[]]. subst. rewrite mem_cons_false. split; [now apply N.eqb_neq|reflexivity].
      * destruct H as [H|H].
        -- subst. rewrite mem_cons_false. split; [now apply N.eqb_neq|]. apply IH. now left.
        -- apply IH. now right.
Qed.

Lemma join_split_on : forall c s, join [c] (split_on c s) = s.
Proof.
  induction s as [|x s IH]; [reflexivity|]. simpl.
  destruct (x =? c) eqn:E.
  - apply N.eqb_eq in E. subst. pose proof (split_on_nonempty c s).
    destruct (split_on c s) as [|h t] eqn:E2; [congruence|].
    simpl in *. now rewrite <- IH.
  - pose proof (split_on_nonempty c s).
    destruct (split_on c s) as [|h t] eqn:E2; [congruence|].
    destruct t as [|h2 t]; simpl in *; now rewrite <- IH.
Qed.

Lemma split_on_join : forall c l,
  l <> [] -> Forall (fun p => mem c p = false) l -> split_on c (join [c] l) = l.
Proof.
  induction l as [|x l IH]; intros Hne H; [congruence|].
  inversion H as [|? ? Hx Hl]; subst. destruct l as [|y l].
  - simpl. now apply split_on_nomem.
  - change (join [c] (x :: y :: l)) with (x ++ c :: join [c] (y :: l)).
    rewrite split_on_app by assumption. rewrite IH; [reflexivity|discriminate|assumption].
Qed.

(** ** Prefixes *)
Lemma strip_prefix_app : forall p s, strip_prefix p (p ++ s) = Some s.
Proof. induction p; intro s; simpl; [reflexivity|]. rewrite N.eqb_refl. auto. Qed.

Lemma strip_prefix_some : forall p s r, strip_prefix p s = Some r -> s = p ++ r.
Proof.
  induction p as [|x p IH]; intros s r H; simpl in H; [simpl; congruence|].
  destruct s as [|y s]; [discriminate|]. destruct (x =? y) eqn:E; [|discriminate].
  apply N.eqb_eq in E. subst. simpl. f_equal. auto.
Qed.

Lemma starts_with_app : forall p s, starts_with p (p ++ s) = true.
Proof. intros. unfold starts_with. now rewrite strip_prefix_app. Qed.

Lemma starts_with_spec : forall p s, starts_with p s = true <-> exists r, s = p ++ r.
Proof.
  intros. unfold starts_with. destruct (strip_prefix p s) as [l|] eqn:E; split; intro H.
  - exists l. now apply strip_prefix_some.
  - reflexivity.
  - discriminate.
  - destruct H as [r H]. subst. now rewrite strip_prefix_app in E.
Qed.

(** ** Trimming *)
Definition no_edge (p : N -> bool) (s : str) : Prop :=
  match s with [] => True | c :: _ => p c = false end /\
  match rev s with [] => True | c :: _ => p c = false end.

Lemma drop_while_id : forall p s,
  match s with [] => True | c :: _ => p c = false end -> drop_while p s = s.
Proof. intros p [|c s] H; simpl; [reflexivity|]. now rewrite H. Qed.

Lemma drop_while_head : forall p s,
  match drop_while p s with [] => True | c :: _ => p c = false end.
Proof.
  induction s as [|c s IH]; simpl; [exact I|]. destruct (p c) eqn:E; auto.
Qed.

Lemma drop_while_suffix : forall p s, exists a, s = a ++ drop_while p s /\ forallb p a = true.
Proof.
  induction s as [|c s IH]; simpl.
  - now exists [].
  - destruct (p c) eqn:E.
    + destruct IH as [a [H1 H2]]. exists (c :: a). split; simpl; [now f_equal|now rewrite E].
    + now exists [].
Qed.

Lemma trim_end_by_rev : forall p s, trim_end_by p s = rev (drop_while p (rev s)).
Proof.
  intros p. assert (D : forall l c, drop_while p (l ++ [c]) = match drop_while p l with [] => if p c then [] else [c] | t => t ++ [c] end).
  { induction l as [|x l IH]; intros c; cbn [app drop_while]; [destruct (p c); reflexivity|]. destruct (p x); [apply IH|reflexivity]. }
  induction s as [|c s IH]; [reflexivity|]. cbn [trim_end_by rev]. rewrite IH, D. destruct (drop_while p (rev s)) as [|x l].
  - cbn. destruct (p c); reflexivity.
  - cbn [rev]. rewrite rev_app_distr. cbn [rev app]. destruct (rev l ++ [x]) as [|y m] eqn:E; [destruct (rev l); discriminate|reflexivity].
Qed.

Lemma trim_end_by_prefix : forall p s, exists b, s = trim_end_by p s ++ b /\ forallb p b = true.
Proof.
  intros. rewrite trim_end_by_rev. destruct (drop_while_suffix p (rev s)) as [a [H1 H2]].
  exists (rev a). split.
  - rewrite <- rev_app_distr, <- H1. now rewrite rev_involutive.
  - rewrite forallb_forall in *. intros x Hx. apply H2. now apply in_rev.
Qed.

Lemma trim_by_id : forall p s, no_edge p s -> trim_by p s = s.
Proof.
  intros p s [H1 H2]. unfold trim_by, trim_start_by. rewrite trim_end_by_rev.
  rewrite (drop_while_id p s H1). rewrite (drop_while_id p (rev s) H2).
  apply rev_involutive.
Qed.

Lemma trim_by_no_edge : forall p s, no_edge p (trim_by p s).
Proof.
  intros p s. unfold trim_by, trim_start_by. set (t := drop_while p s).
  assert (Ht : match t with [] => True | c :: _ => p c = false end)
    by apply drop_while_head.
  split.
  - destruct (trim_end_by_prefix p t) as [b [H1 H2]].
    destruct (trim_end_by p t) as [|c u] eqn:E; [exact I|].
    rewrite H1 in Ht. exact Ht.
  - rewrite trim_end_by_rev, rev_involutive. apply drop_while_head.
Qed.

Lemma trim_by_idem : forall p s, trim_by p (trim_by p s) = trim_by p s.
Proof. intros. apply trim_by_id. apply trim_by_no_edge. Qed.

Lemma trim_idem : forall s, trim (trim s) = trim s.
Proof. intros. apply trim_by_idem. Qed.

Lemma trim_by_sub : forall p s, exists a b,
  s = a ++ trim_by p s ++ b /\ forallb p a = true /\ forallb p b = true.
Proof.
  intros p s. unfold trim_by, trim_start_by.
  destruct (drop_while_suffix p s) as [a [H1 H2]].
  destruct (trim_end_by_prefix p (drop_while p s)) as [b [H3 H4]].
  exists a, b. split; [|auto]. rewrite <- H3. exact H1.
Qed.

Lemma trim_mem : forall c s, mem c s = false -> mem c (trim s) = false.
Proof.
  intros c s H. destruct (trim_by_sub is_ws s) as [a [b [H1 _]]].
  unfold trim. rewrite H1 in H. rewrite !mem_app in H.
  apply orb_false_iff in H. destruct H as [_ H]. apply orb_false_iff in H. tauto.
Qed.

Lemma no_edge_all : forall p s, forallb (fun c => negb (p c)) s = true -> no_edge p s.
Proof.
  intros p s H. rewrite forallb_forall in H. split.
  - destruct s as [|c s]; [exact I|]. specialize (H c (or_introl eq_refl)).
    now apply negb_true_iff in H.
  - destruct (rev s) as [|c r] eqn:E; [exact I|].
    assert (In c s) by (apply in_rev; rewrite E; now left).
    specialize (H c H0). now apply negb_true_iff in H.
Qed.

(** ** Decimal printing and parsing *)
Lemma digits_value_snoc : forall s c, digits_value (s ++ [c]) = digits_value s * 10 + (c - 48).
Proof. intros. unfold digits_value. rewrite fold_left_app. reflexivity. Qed.

Lemma print_fuel_spec : forall f n, n < 2 ^ N.of_nat f ->
  (f <> O) ->
  digits_value (print_fuel f n) = n /\ all_digits (print_fuel f n) = true
  /\ print_fuel f n <> [].
Proof.
  induction f as [|f IH]; intros n Hn Hf; [congruence|].
  cbn [print_fuel]. destruct (n <? 10) eqn:E.
  - apply N.ltb_lt in E. unfold digits_value, all_digits, is_digit, in_range.
    cbn [fold_left forallb]. repeat split; try lia. discriminate.
  - apply N.ltb_ge in E.
    rewrite Nat2N.inj_succ, N.pow_succ_r' in Hn.
    assert (Hd : n / 10 < 2 ^ N.of_nat f).
    { apply N.div_lt_upper_bound; lia. }
    assert (f <> O).
    { intro. subst. simpl in Hn. lia. }
    destruct (IH (n / 10) Hd H) as [H1 [H2 H3]].
    split; [|split].
    + rewrite digits_value_snoc, H1.
      lia.
    + unfold all_digits. rewrite forallb_app. fold (all_digits (print_fuel f (n/10))).
      rewrite H2. cbn [forallb andb]. unfold is_digit, in_range.
      assert (n mod 10 < 10) by (apply N.mod_lt; lia).
      lia.
    + intro Hc. apply app_eq_nil in Hc. destruct Hc; discriminate.
Qed.

Lemma size_nat_bound : forall n, n < 2 ^ N.of_nat (S (N.size_nat n)).
Proof.
  intro n. destruct n as [|p]; [reflexivity|].
  pose proof (N.size_gt (N.pos p)) as H.
  assert (N.of_nat (N.size_nat (N.pos p)) = N.size (N.pos p)) as E.
  { simpl. clear. induction p; cbn [Pos.size_nat Pos.size]; try reflexivity;
    rewrite Nat2N.inj_succ, IHp; reflexivity. }
  rewrite Nat2N.inj_succ, E, N.pow_succ_r'. lia.
Qed.

Lemma print_N_spec : forall n,
  digits_value (print_N n) = n /\ all_digits (print_N n) = true /\ print_N n <> [].
Proof. intro n. apply print_fuel_spec; [apply size_nat_bound | discriminate]. Qed.

Lemma parse_uint_print : forall mx n, n <= mx -> parse_uint mx (print_N n) = Some n.
Proof.
  intros mx n H. destruct (print_N_spec n) as [H1 [H2 H3]]. unfold parse_uint.
  destruct (print_N n) as [|c s] eqn:E; [congruence|].
  assert (Hc : c <> 43).
  { unfold all_digits in H2. cbn [forallb] in H2. unfold is_digit, in_range in H2. lia. }
  apply N.eqb_neq in Hc. rewrite Hc.
  cbv zeta. rewrite H2, H1. destruct (n <=? mx) eqn:E2; [reflexivity|]. lia.
Qed.

Lemma print_N_digits : forall n c, In c (print_N n) -> 48 <= c <= 57.
Proof.
  intros n c H. destruct (print_N_spec n) as [_ [H2 _]].
  unfold all_digits in H2. rewrite forallb_forall in H2. specialize (H2 c H).
  unfold is_digit, in_range in H2. lia.
Qed.

Lemma print_N_inj : forall a b, print_N a = print_N b -> a = b.
Proof.
  intros a b H. destruct (print_N_spec a) as [Ha _]. destruct (print_N_spec b) as [Hb _].
  congruence.
Qed.

(** ** Association lists *)
Section AssocFacts.
  Context {K V : Type} (eqb : K -> K -> bool).
  Hypothesis eqb_spec : forall a b, eqb a b = true <-> a = b.

  Lemma eqb_refl' : forall a, eqb a a = true.
  Proof. intro. now apply eqb_spec. Qed.

  Lemma lookup_remove_same : forall k (m : list (K * V)), lookup eqb k (remove_key eqb k m) = None.
  Proof.
    induction m as [|[k' v] m IH]; simpl; [reflexivity|].
    destruct (eqb k k') eqn:E; simpl; [exact IH|]. now rewrite E.
  Qed.

  Lemma lookup_remove_other : forall k k' (m : list (K * V)), k <> k' ->
    lookup eqb k (remove_key eqb k' m) = lookup eqb k m.
  Proof.
    induction m as [|[k2 v] m IH]; intro H; simpl; [reflexivity|].
    destruct (eqb k' k2) eqn:E; simpl.
    - apply eqb_spec in E. subst. destruct (eqb k k2) eqn:E2.
      + apply eqb_spec in E2. congruence.
      + auto.
    - destruct (eqb k k2); auto.
  Qed.

  Lemma lookup_insert_same : forall k v (m : list (K * V)), lookup eqb k (insert eqb k v m) = Some v.
  Proof. intros. unfold insert. simpl. now rewrite eqb_refl'. Qed.

  Lemma lookup_insert_other : forall k k' v (m : list (K * V)), k <> k' ->
    lookup eqb k (insert eqb k' v m) = lookup eqb k m.
  Proof.
    intros. unfold insert. simpl. destruct (eqb k k') eqn:E.
    - apply eqb_spec in E. congruence.
    - now apply lookup_remove_other.
  Qed.

  Lemma remove_key_length : forall k (m : list (K * V)), (length (remove_key eqb k m) <= length m)%nat.
  Proof.
    intros. unfold remove_key. induction m as [|e m IH]; simpl; [lia|].
    destruct (negb (eqb k (fst e))); simpl; lia.
  Qed.

  Lemma remove_key_in : forall k e (m : list (K * V)), In e (remove_key eqb k m) -> In e m /\ fst e <> k.
  Proof.
    intros k e m H. apply filter_In in H. destruct H as [H1 H2]. split; auto.
    apply negb_true_iff in H2. intro E. subst. rewrite eqb_refl' in H2. discriminate.
  Qed.

  Lemma remove_key_nodup : forall k (m : list (K * V)), NoDup (keys m) -> NoDup (keys (remove_key eqb k m)).
  Proof.
    unfold keys, remove_key. induction m as [|e m IH]; simpl; intro H; [constructor|].
    inversion H as [|? ? Hn Hm]; subst. destruct (negb (eqb k (fst e))); simpl; auto.
    constructor; auto. intro Hi. apply Hn. apply in_map_iff in Hi. destruct Hi as [x [Hx1 Hx2]].
    apply filter_In in Hx2. apply in_map_iff. exists x. tauto.
  Qed.

  Lemma insert_nodup : forall k v (m : list (K * V)), NoDup (keys m) -> NoDup (keys (insert eqb k v m)).
  Proof.
    intros. unfold insert. cbn [keys map fst]. constructor; [|now apply remove_key_nodup].
    intro Hi. apply in_map_iff in Hi. destruct Hi as [x [Hx1 Hx2]].
    apply remove_key_in in Hx2. tauto.
  Qed.

  Lemma lookup_in : forall k v (m : list (K * V)), lookup eqb k m = Some v -> In (k, v) m.
  Proof.
    induction m as [|[k' v'] m IH]; simpl; intro H; [discriminate|].
    destruct (eqb k k') eqn:E; [|right; auto].
    apply eqb_spec in E. left. congruence.
  Qed.

  Lemma lookup_none : forall k (m : list (K * V)), lookup eqb k m = None <-> ~ In k (keys m).
  Proof.
    induction m as [|[k' v'] m IH]; simpl; [intuition|].
    destruct (eqb k k') eqn:E.
    - apply eqb_spec in E. split; [discriminate|]. intro H. exfalso. apply H. auto.
    - rewrite IH. split; intro H.
      + intros [H1|H1]; [|auto]. subst. rewrite eqb_refl' in E. discriminate.
      + intro H1. apply H. auto.
  Qed.

  Lemma in_lookup : forall k v (m : list (K * V)), NoDup (keys m) -> In (k, v) m -> lookup eqb k m = Some v.
  Proof.
    induction m as [|[k' v'] m IH]; simpl; intros Hn Hi; [tauto|].
    inversion Hn as [|? ? Hn1 Hn2]; subst. destruct Hi as [Hi|Hi].
    - inversion Hi; subst. now rewrite eqb_refl'.
    - destruct (eqb k k') eqn:E; [|auto]. apply eqb_spec in E. subst.
      exfalso. apply Hn1. apply in_map_iff. now exists (k', v).
  Qed.

  Lemma remove_key_notin : forall k (m : list (K * V)), ~ In k (keys m) -> remove_key eqb k m = m.
  Proof.
    unfold keys, remove_key. induction m as [|e m IH]; simpl; intro H; [reflexivity|].
    destruct (eqb k (fst e)) eqn:E.
    - apply eqb_spec in E. exfalso. apply H. auto.
    - simpl. f_equal. apply IH. tauto.
  Qed.

  Lemma remove_key_length_in : forall k (m : list (K * V)), NoDup (keys m) -> In k (keys m) ->
    length m = S (length (remove_key eqb k m)).
  Proof.
    induction m as [|[k' v] m IH]; simpl; intros Hn Hi; [tauto|].
    inversion Hn as [|? ? Hn1 Hn2]; subst. unfold remove_key. simpl.
    destruct (eqb k k') eqn:E; simpl.
    - apply eqb_spec in E. subst. f_equal. change (length m = length (remove_key eqb k' m)).
      now rewrite remove_key_notin.
    - f_equal. apply IH; auto. destruct Hi as [Hi|Hi]; auto. subst.
      rewrite eqb_refl' in E. discriminate.
  Qed.
End AssocFacts.

(** [find_sub] finds a pattern iff there is one, and the first place of it *)
Lemma find_sub_some : forall p s a b, find_sub p s = Some (a, b) -> s = a ++ p ++ b.
Proof.
  intros p s; induction s as [|x s IH]; intros a b H; cbn [find_sub] in H.
  - destruct (strip_prefix p []) as [r|] eqn:E; [|discriminate]. injection H as <- <-. now apply strip_prefix_some in E.
  - destruct (strip_prefix p (x :: s)) as [r|] eqn:E.
    + injection H as <- <-. now apply strip_prefix_some in E.
    + destruct (find_sub p s) as [[c d]|]; [|discriminate]. injection H as <- <-. rewrite (IH c d eq_refl). reflexivity.
Qed.
Lemma find_sub_app : forall p a b, find_sub p (a ++ p ++ b) <> None.
Proof.
  intros p a b; induction a as [|x a IH].
  - cbn [app]. assert (E : strip_prefix p (p ++ b) = Some b) by apply strip_prefix_app.
    destruct (p ++ b) as [|y r]; cbn [find_sub]; rewrite E; discriminate.
  - cbn [app find_sub]. destruct (strip_prefix p (x :: a ++ p ++ b)); [discriminate|].
    destruct (find_sub p (a ++ p ++ b)) as [[c d]|]; [discriminate|]. exact IH.
Qed.
Lemma find_sub_none : forall p s, find_sub p s = None <-> forall a b, s <> a ++ p ++ b.
Proof.
  intros p s; split.
  - intros H a b ->. now apply find_sub_app in H.
  - intros H. destruct (find_sub p s) as [[a b]|] eqn:E; [|reflexivity]. apply find_sub_some in E. now apply H in E.
Qed.
