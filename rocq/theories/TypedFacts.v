(** Facts about trimming and splitting used for the typed headers. *)
From Coq Require Import Arith NArith Bool String List Lia ZifyBool ZifyN ZifyNat.
Import ListNotations.
From Verif Require Import Base BaseFacts Text TextFacts.
Open Scope N_scope.
Open Scope list_scope.

(** does not begin or end with a blank *)
Definition edgeless (s : str) : Prop := trim s = s.
Definition blanks (s : str) : Prop := forallb is_ws s = true.
Lemma trim_edgeless : forall s, edgeless (trim s).
Proof. intros s. apply trim_idem. Qed.
Lemma edgeless_no_edge : forall s, edgeless s -> no_edge is_ws s.
Proof. intros s H. rewrite <- H. apply trim_by_no_edge. Qed.
Lemma drop_blanks : forall a t, blanks a -> drop_while is_ws (a ++ t) = drop_while is_ws t.
Proof. unfold blanks. induction a as [|c a IH]; intros t H; [reflexivity|]. cbn [forallb] in H. apply andb_prop in H as [A B]. cbn [app drop_while]. rewrite A. now apply IH. Qed.
Lemma blanks_rev : forall b, blanks b -> blanks (rev b).
Proof. unfold blanks. intros b H. rewrite forallb_forall in *. intros x Hx. apply H. now apply in_rev. Qed.
Lemma trim_blanks_of : forall b, blanks b -> trim b = [].
Proof.
  intros b Hb. unfold trim, trim_by, trim_start_by. replace b with (b ++ []) by apply app_nil_r. rewrite (drop_blanks b [] Hb). reflexivity.
Qed.
Lemma trim_pad : forall a s b, blanks a -> blanks b -> trim (a ++ s ++ b) = trim s.
Proof.
  intros a s b Ha Hb. unfold trim, trim_by, trim_start_by. rewrite (drop_blanks a _ Ha).
  destruct (drop_while_suffix is_ws s) as (p & E & Hp). remember (drop_while is_ws s) as m eqn:Em.
  assert (Hm := drop_while_head is_ws s). rewrite <- Em in Hm. rewrite E, <- app_assoc. rewrite (drop_blanks p _ Hp). destruct m as [|c m].
  - cbn [app]. replace b with (b ++ []) by apply app_nil_r. rewrite (drop_blanks b [] Hb). reflexivity.
  - cbn [app]. rewrite drop_while_id by exact Hm. change (c :: m ++ b) with ((c :: m) ++ b). rewrite !trim_end_by_rev, rev_app_distr.
    rewrite (drop_blanks (rev b) _ (blanks_rev b Hb)). reflexivity.
Qed.
Lemma trim_left : forall a s, blanks a -> trim (a ++ s) = trim s.
Proof. intros a s H. pose proof (trim_pad a s [] H eq_refl) as X. now rewrite app_nil_r in X. Qed.
Lemma trim_right : forall s b, blanks b -> trim (s ++ b) = trim s.
Proof. intros s b H. exact (trim_pad [] s b eq_refl H). Qed.
(** a text that begins and ends with something that is no blank *)
Lemma edgeless_ends : forall a m b, a <> [] -> b <> [] -> edgeless a -> edgeless b -> edgeless (a ++ m ++ b).
Proof.
  intros a m b Na Nb Ha Hb. apply edgeless_no_edge in Ha, Hb. apply trim_by_id. destruct Ha as [A _], Hb as [_ B]. split.
  - destruct a as [|c a]; [congruence|exact A].
  - rewrite app_assoc, rev_app_distr. destruct (rev b) as [|c r] eqn:E; [|exact B]. apply (f_equal (@rev N)) in E. rewrite rev_involutive in E. now subst b.
Qed.
Lemma edgeless_app : forall a b, a <> [] -> b <> [] -> edgeless a -> edgeless b -> edgeless (a ++ b).
Proof. intros a b. exact (edgeless_ends a [] b). Qed.
Lemma edgeless_words : forall s, forallb (fun c => negb (is_ws c)) s = true -> edgeless s.
Proof. intros s H. apply trim_by_id. now apply no_edge_all. Qed.
Lemma ws_lower : forall c, is_ws (lower_c c) = is_ws c.
Proof. intros c. unfold lower_c. destruct (is_upper c) eqn:E; [|reflexivity]. unfold is_upper, in_range in E. unfold is_ws, is_ascii_ws, in_range. lia. Qed.
Lemma drop_lower : forall s, drop_while is_ws (lower s) = lower (drop_while is_ws s).
Proof. induction s as [|c s IH]; [reflexivity|]. cbn [lower map drop_while]. rewrite ws_lower. destruct (is_ws c); [apply IH|reflexivity]. Qed.
Lemma lower_rev : forall s, lower (rev s) = rev (lower s).
Proof. intros s. unfold lower. apply map_rev. Qed.
Lemma trim_lower : forall s, trim (lower s) = lower (trim s).
Proof. intros s. unfold trim, trim_by, trim_start_by. rewrite drop_lower, !trim_end_by_rev, <- lower_rev, drop_lower, lower_rev. reflexivity. Qed.
Lemma lower_edgeless : forall s t, lower s = t -> forallb (fun c => negb (is_ws c)) t = true -> edgeless s.
Proof.
  intros s t <- H. apply edgeless_words. rewrite forallb_forall in *. intros c Hc. rewrite <- ws_lower. apply H. unfold lower. now apply in_map.
Qed.
Lemma mem_lower : forall x s, is_alpha x = false -> mem x (lower s) = mem x s.
Proof.
  intros x s H. induction s as [|c s IH]; [reflexivity|]. cbn [lower map]. change (map lower_c s) with (lower s). unfold mem in *. cbn [existsb]. rewrite IH. f_equal.
  unfold lower_c. destruct (is_upper c) eqn:E; [|reflexivity]. unfold is_alpha, is_upper, is_lower, in_range in *. lia.
Qed.
Lemma mem_trim_sub : forall x s, mem x (trim s) = true -> mem x s = true.
Proof. intros x s H. destruct (mem x s) eqn:E; [reflexivity|]. now rewrite (trim_mem x s E) in H. Qed.
(** the text between the separators of a split *)
Lemma split_parts_clean : forall c s p, In p (map trim (split_on c s)) -> mem c p = false /\ edgeless p.
Proof.
  intros c s p H. apply in_map_iff in H as (q & <- & Hq). split; [|apply trim_edgeless]. apply trim_mem. now apply (split_on_nomem_parts c s).
Qed.
Lemma split_once_word : forall c a b, mem c a = false -> split_once c (a ++ c :: b) = Some (a, b).
Proof. intros c a b H. now apply split_once_app. Qed.
(** joining with a separator, from the first piece on *)
Definition followed (c : N) (l : list str) : str := flat_map (fun p => c :: p) l.
Lemma join_followed : forall c x l, join [c] (x :: l) = x ++ followed c l.
Proof.
  intros c x l. revert x. induction l as [|y l IH]; intros x; [now rewrite app_nil_r|]. change (join [c] (x :: y :: l)) with (x ++ [c] ++ join [c] (y :: l)). rewrite IH. reflexivity.
Qed.
Lemma split_followed : forall c x l, mem c x = false -> Forall (fun p => mem c p = false) l -> split_on c (x ++ followed c l) = x :: l.
Proof.
  intros c x l Hx Hl. rewrite <- join_followed. apply split_on_join; [discriminate|]. now constructor.
Qed.
