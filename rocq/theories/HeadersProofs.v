(** Lemmas on header collections. *)
From Coq Require Import Arith NArith Bool List Lia ZifyBool ZifyN ZifyNat.
Import ListNotations.
From Verif Require Import Base BaseFacts Headers.
Open Scope N_scope.

Definition token_char (c : N) : Prop := header_name_char c = true.

(** what a stored header may look like *)
Definition good_header (h : header) : Prop :=
  fst h <> [] /\ blen (fst h) <= 128 /\ Forall token_char (fst h)
  /\ blen (snd h) <= 8192
  /\ ~ In 13 (snd h) /\ ~ In 10 (snd h) /\ ~ In 0 (snd h).

Lemma token_char_not_control : forall c, header_name_char c = true -> is_ascii_control c = false.
Proof.
  intros c H. destruct (is_ascii_control c) eqn:E; [|reflexivity].
  unfold header_name_char, is_ascii_control, is_alnum, is_alpha, is_upper, is_lower, is_digit, in_range in *.
  apply orb_true_iff in H. destruct H as [H|H]; [lia|].
  apply existsb_exists in H. destruct H as [x [Hx Hc]]. apply N.eqb_eq in Hc. subst x.
  vm_compute in Hx. lia.
Qed.

Lemma validate_name_ok : forall n, validate_header_name n = None <->
  n <> [] /\ blen n <= 128 /\ Forall token_char n.
Proof.
  intros n. unfold validate_header_name, MAX_HEADER_NAME_LENGTH.
  destruct n as [|c n]; [split; [discriminate|intros [H _]; now elim H]|].
  set (s := c :: n). destruct (128 <? blen s) eqn:E1.
  - split; [discriminate|]. intros [_ [H _]]. lia.
  - destruct (existsb is_ascii_control s) eqn:E2.
    + split; [discriminate|]. intros [_ [_ H]]. rewrite Forall_forall in H.
      apply existsb_exists in E2. destruct E2 as [x [Hx Hc]].
      apply H in Hx. apply token_char_not_control in Hx. congruence.
    + destruct (forallb header_name_char s) eqn:E3.
      * split; [intros _|reflexivity]. split; [discriminate|]. split; [lia|].
        apply Forall_forall. rewrite forallb_forall in E3. exact E3.
      * split; [discriminate|]. intros [_ [_ H]].
        assert (forallb header_name_char s = true); [|congruence].
        apply forallb_forall. rewrite Forall_forall in H. exact H.
Qed.

Lemma validate_value_ok : forall v, validate_header_value v = None <->
  blen v <= 8192 /\ ~ In 13 v /\ ~ In 10 v /\ ~ In 0 v.
Proof.
  intros v. unfold validate_header_value, MAX_HEADER_VALUE_LENGTH.
  rewrite <- !mem_false.
  destruct (8192 <? blen v) eqn:E1; [split; [discriminate|intros [H _]; lia]|].
  destruct (mem 13 v), (mem 10 v), (mem 0 v); cbn; split; intros H; try discriminate;
    try (repeat split; try reflexivity; lia); destruct H as [_ [? [? ?]]]; discriminate.
Qed.

Lemma header_new_ok : forall n v h, header_new n v = Ok h <-> h = (n, v) /\ good_header h.
Proof.
  intros n v h. unfold header_new, good_header.
  destruct (validate_header_name n) eqn:E1; [split; [discriminate|]|].
  - intros [-> [H1 [H2 [H3 _]]]]. cbn in *.
    assert (validate_header_name n = None) by now apply validate_name_ok. congruence.
  - apply validate_name_ok in E1. destruct E1 as [Ha [Hb Hc]].
    destruct (validate_header_value v) eqn:E2; [split; [discriminate|]|].
    + intros [-> [_ [_ [_ [H1 [H2 [H3 H4]]]]]]]. cbn in *.
      assert (validate_header_value v = None) by now apply validate_value_ok. congruence.
    + apply validate_value_ok in E2. split.
      * intros H. injection H as <-. cbn. tauto.
      * intros [-> _]. reflexivity.
Qed.

Definition good_headers (hs : headers) : Prop := Forall good_header hs /\ llen hs <= 200.

Lemma llen_firstn : forall A n (l : list A), llen (firstn n l) <= N.of_nat n.
Proof. intros. unfold llen. rewrite firstn_length. lia. Qed.
Lemma llen_filter : forall A (f : A -> bool) l, llen (filter f l) <= llen l.
Proof.
  intros. unfold llen. induction l as [|x l IH]; cbn [filter]; [lia|].
  destruct (f x); cbn [length] in *; lia.
Qed.

Lemma set_first_spec : forall name value hs,
  match set_first name value hs with
  | Some hs' => exists a n v b, hs = a ++ (n, v) :: b /\ hs' = a ++ (n, value) :: b
                 /\ eq_ic n name = true /\ existsb (fun h => name_eq h name) a = false
  | None => hcontains name hs = false
  end.
Proof.
  induction hs as [|[n v] r IH]; [reflexivity|].
  cbn [set_first]. unfold name_eq at 1. cbn [fst].
  destruct (eq_ic n name) eqn:E.
  - exists [], n, v, r. auto.
  - destruct (set_first name value r) as [r'|].
    + destruct IH as [a [n' [v' [b [H1 [H2 [H3 H4]]]]]]].
      exists ((n, v) :: a), n', v', b. subst. split; [reflexivity|]. split; [reflexivity|].
      split; [exact H3|]. cbn [existsb]. unfold name_eq at 1. cbn [fst]. rewrite E. exact H4.
    + unfold hcontains in *. cbn [existsb]. unfold name_eq at 1. cbn [fst]. rewrite E. exact IH.
Qed.

Lemma Forall_filter : forall A (P : A -> Prop) f l, Forall P l -> Forall P (filter f l).
Proof.
  intros A P f l H. apply Forall_forall. intros x Hx. apply filter_In in Hx.
  rewrite Forall_forall in H. now apply H.
Qed.

Lemma build_headers_good : forall l l', build_headers l = Some l' -> Forall good_header l' /\ l' = l.
Proof.
  induction l as [|[n v] l IH]; intros l' H; cbn in H.
  - injection H as <-. split; [constructor|reflexivity].
  - destruct (header_new n v) as [h|] eqn:E; [|discriminate].
    destruct (build_headers l) as [t|]; [|discriminate]. injection H as <-.
    apply header_new_ok in E. destruct E as [-> Hg]. destruct (IH t eq_refl) as [Ht ->].
    split; [constructor; assumption|reflexivity].
Qed.

Lemma hpush_good : forall hs n v hs', good_headers hs -> hpush hs n v = Ok hs' ->
  good_headers hs' /\ hs' = hs ++ [(n, v)].
Proof.
  intros hs n v hs' [Hg Hl] H. unfold hpush, MAX_HEADERS in H.
  destruct (200 <=? llen hs) eqn:E; [discriminate|].
  destruct (header_new n v) as [h|] eqn:E2; [|discriminate].
  injection H as <-. apply header_new_ok in E2. destruct E2 as [-> Hh].
  split; [|reflexivity]. split.
  - apply Forall_app. split; [assumption|]. constructor; [assumption|constructor].
  - rewrite llen_app, llen_cons, llen_nil. lia.
Qed.

Lemma set_first_good : forall name value hs hs', validate_header_value value = None ->
  set_first name value hs = Some hs' -> good_headers hs -> good_headers hs'.
Proof.
  intros name value hs hs' Hv H [Hg Hl]. pose proof (set_first_spec name value hs) as S.
  rewrite H in S. destruct S as [a [n [v [b [-> [-> [He Hn]]]]]]].
  apply Forall_app in Hg. destruct Hg as [Ha Hb]. inversion Hb as [|x y Hx Hy]; subst. split.
  - apply Forall_app. split; [assumption|]. constructor; [|assumption].
    unfold good_header in *. cbn in *. apply validate_value_ok in Hv. tauto.
  - rewrite llen_app, llen_cons in *. lia.
Qed.

Lemma hstep_good : forall hs o hs', good_headers hs -> hstep hs o = Some hs' -> good_headers hs'.
Proof.
  intros hs o hs' Hg H. destruct o; cbn [hstep] in H.
  - injection H as <-. destruct (hpush hs n v) eqn:E; [|exact Hg]. eapply hpush_good; eauto.
  - injection H as <-. destruct (header_new n v) as [h|] eqn:E; [|exact Hg].
    apply header_new_ok in E. destruct E as [-> Hh].
    unfold hpush_header, MAX_HEADERS. destruct (200 <=? llen hs) eqn:E2; [exact Hg|].
    destruct Hg as [Hg Hl]. split.
    + apply Forall_app. split; [assumption|]. constructor; [assumption|constructor].
    + change (llen (hs ++ [(n, v)]) <= 200). rewrite llen_app, llen_cons, llen_nil. lia.
  - injection H as <-. destruct Hg as [Hg Hl]. split; [now apply Forall_filter|].
    unfold hremove. pose proof (llen_filter _ (fun h => negb (name_eq h n)) hs). lia.
  - injection H as <-. unfold hreplace_first. destruct (validate_header_value v) eqn:Ev; [exact Hg|].
    destruct (set_first n v hs) as [hs''|] eqn:E; [|exact Hg]. eapply set_first_good; eauto.
  - injection H as <-. unfold hset_or_push. destruct (validate_header_name n) eqn:En; [exact Hg|].
    destruct (validate_header_value v) eqn:Ev; [exact Hg|].
    destruct (set_first n v hs) as [hs''|] eqn:E.
    + eapply set_first_good; eauto.
    + unfold MAX_HEADERS. destruct (200 <=? llen hs) eqn:E2; [exact Hg|]. destruct Hg as [Hg Hl].
      apply validate_name_ok in En. apply validate_value_ok in Ev. split.
      * apply Forall_app. split; [assumption|]. constructor; [|constructor].
        unfold good_header. cbn. tauto.
      * change (llen (hs ++ [(n, v)]) <= 200). rewrite llen_app, llen_cons, llen_nil. lia.
  - injection H as <-. destruct Hg as [Hg Hl]. split; [now apply Forall_filter|].
    unfold hretain. pose proof (llen_filter _ f hs). lia.
  - unfold hremove_at in H. destruct (i <? length hs)%nat eqn:E; [|discriminate]. injection H as <-.
    destruct Hg as [Hg Hl]. split.
    + rewrite <- (firstn_skipn i hs), Forall_app in Hg. destruct Hg as [H1 H2].
      apply Forall_app. split; [assumption|].
      assert (Hs : skipn (S i) hs = skipn 1 (skipn i hs)).
      { clear. revert i. induction hs as [|a hs IH]; intros i; [now rewrite !skipn_nil|].
        destruct i; [reflexivity|]. exact (IH i). }
      change (Forall good_header (skipn (S i) hs)).
      rewrite Hs. destruct (skipn i hs) as [|a t]; [constructor|].
      inversion H2; assumption.
    + change (llen (firstn i hs ++ skipn (S i) hs) <= 200).
      unfold llen in *. rewrite app_length, firstn_length, skipn_length. lia.
  - injection H as <-. split; [constructor|]. unfold hclear. rewrite llen_nil. lia.
  - injection H as <-. destruct (build_headers l) as [l'|] eqn:E; [|exact Hg].
    unfold hfrom_vec, MAX_HEADERS. destruct (200 <? llen l') eqn:E2; [exact Hg|].
    apply build_headers_good in E. split; [apply E|]. change (llen l' <= 200). apply N.ltb_ge in E2. exact E2.
  - injection H as <-. destruct (build_headers l) as [l'|] eqn:E; [|exact Hg].
    apply build_headers_good in E. destruct E as [E ->]. unfold hcollect, MAX_HEADERS. split.
    + rewrite <- (firstn_skipn (N.to_nat 200) l), Forall_app in E. apply E.
    + pose proof (llen_firstn header (N.to_nat 200) l) as Hf. rewrite N2Nat.id in Hf. exact Hf.
Qed.

Lemma hrun_good : forall ops hs hs', good_headers hs -> hrun hs ops = Some hs' -> good_headers hs'.
Proof.
  induction ops as [|o ops IH]; intros hs hs' Hg H; cbn in H; [now injection H as <-|].
  destruct (hstep hs o) as [h|] eqn:E; [|discriminate].
  apply (IH h hs'); [eapply hstep_good; eauto|exact H].
Qed.

Lemma hget_some : forall name hs v, hget name hs = Some v <->
  exists a n b, hs = a ++ (n, v) :: b /\ eq_ic n name = true
                /\ (forall h, In h a -> eq_ic (fst h) name = false).
Proof.
  intros name hs v. unfold hget. split.
  - induction hs as [|[n w] r IH]; cbn [find]; [discriminate|].
    unfold name_eq at 1. cbn [fst]. destruct (eq_ic n name) eqn:E.
    + cbn. intros H. injection H as <-. exists [], n, r. split; [reflexivity|]. split; [assumption|].
      intros h [].
    + intros H. destruct (IH H) as [a [n' [b [-> [H1 H2]]]]].
      exists ((n, w) :: a), n', b. split; [reflexivity|]. split; [assumption|].
      intros h [<-|Hh]; [exact E|now apply H2].
  - intros [a [n [b [-> [H1 H2]]]]]. induction a as [|[n' w] a IH].
    + cbn [app find]. unfold name_eq at 1. cbn [fst]. rewrite H1. reflexivity.
    + cbn [app find]. unfold name_eq at 1. rewrite (H2 (n', w)) by (left; reflexivity).
      apply IH. intros h Hh. apply H2. now right.
Qed.

Lemma hget_none : forall name hs, hget name hs = None <-> hcontains name hs = false.
Proof.
  intros. unfold hget, hcontains. induction hs as [|h r IH]; cbn; [tauto|].
  destruct (name_eq h name); cbn; [split; discriminate|exact IH].
Qed.
