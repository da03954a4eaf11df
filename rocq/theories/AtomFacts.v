(** Facts about atoms, shared by the typed headers. *)
From Coq Require Import Arith NArith Bool String List Lia ZifyBool ZifyN ZifyNat.
Import ListNotations.
From Verif Require Import Base BaseFacts NumFacts Text TextFacts TypedFacts ReplacesSpec.
Open Scope N_scope.
Open Scope list_scope.

Lemma spaces_blanks : forall s, spaces s -> blanks s.
Proof. intros s H. unfold blanks. apply forallb_forall. exact H. Qed.
Lemma spaces_nomem : forall x s, is_ws x = false -> spaces s -> mem x s = false.
Proof. intros x s W H. apply mem_false. intros K. apply H in K. congruence. Qed.
Lemma atom_iff : forall s, atom s <-> s <> [] /\ mem 59 s = false /\ edgeless s.
Proof.
  intros s. unfold atom. rewrite mem_false. split.
  - intros (A & B & C & D). split; [exact A|]. split; [exact B|]. apply trim_by_id. split.
    + destruct s as [|c s]; [exact I|]. now apply (C c s).
    + destruct (rev s) as [|c r] eqn:E; [exact I|]. apply (D (rev r) c). rewrite <- (rev_involutive s), E. reflexivity.
  - intros (A & B & C). apply edgeless_no_edge in C as [C D]. split; [exact A|]. split; [exact B|]. split.
    + intros c r ->. exact C.
    + intros r c ->. rewrite rev_app_distr in D. exact D.
Qed.
Lemma trim_split : forall p, exists a b, p = a ++ trim p ++ b /\ spaces a /\ spaces b.
Proof.
  intros p. unfold trim, trim_by, trim_start_by. destruct (trim_end_by_prefix is_ws (drop_while is_ws p)) as (b & E & Hb).
  assert (D : forall s, exists a, s = a ++ drop_while is_ws s /\ spaces a).
  { induction s as [|c s (a & Ea & Ha)]; [exists []; split; [reflexivity|intros c []]|]. cbn [drop_while]. destruct (is_ws c) eqn:K; [|exists []; split; [reflexivity|intros x []]].
    exists (c :: a). split; [cbn [app]; now f_equal|]. intros x [<-|Hx]; [exact K|now apply Ha]. }
  destruct (D p) as (a & Ea & Ha). exists a, b. split; [rewrite <- E; exact Ea|]. split; [exact Ha|]. unfold spaces. now apply forallb_forall.
Qed.
Lemma control_iff : forall s, existsb is_ascii_control s = false <-> forall c, In c s -> 32 <= c /\ c <> 127.
Proof.
  intros s. split.
  - intros C c Hc. assert (X : is_ascii_control c = false).
    { destruct (is_ascii_control c) eqn:E; [|reflexivity]. rewrite <- C. symmetry. apply existsb_exists. now exists c. }
    unfold is_ascii_control in X. lia.
  - intros C. destruct (existsb is_ascii_control s) eqn:E; [|reflexivity]. apply existsb_exists in E as (c & Hc & E). specialize (C c Hc). unfold is_ascii_control in E. lia.
Qed.
(** a parameter "name = value" with blanks around *)
Lemma param_cut : forall a n b c v d, spaces a -> spaces b -> spaces c -> spaces d -> atom n -> mem 61 n = false -> v <> [] -> edgeless v ->
  trim (a ++ n ++ b ++ [61] ++ c ++ v ++ d) <> [] /\
  split_once 61 (trim (a ++ n ++ b ++ [61] ++ c ++ v ++ d)) = Some (n ++ b, c ++ v) /\ trim (n ++ b) = n /\ trim (c ++ v) = v.
Proof.
  intros a n b c v d Ha Hb Hc Hd Hn N61 V1 V3. apply atom_iff in Hn as (Nn & _ & En).
  pose proof (spaces_nomem 61 b eq_refl Hb) as B61. apply spaces_blanks in Ha, Hb, Hc, Hd.
  replace (a ++ n ++ b ++ [61] ++ c ++ v ++ d) with (a ++ (n ++ (b ++ [61] ++ c) ++ v) ++ d) by (now rewrite <- !app_assoc).
  rewrite (trim_pad a _ d Ha Hd), (edgeless_ends n _ v Nn V1 En V3).
  split; [destruct n; [congruence|discriminate]|]. split.
  - replace (n ++ (b ++ [61] ++ c) ++ v) with ((n ++ b) ++ 61 :: (c ++ v)) by (rewrite <- !app_assoc; reflexivity). apply split_once_app. now rewrite mem_app, N61, B61.
  - rewrite (trim_right n b Hb), (trim_left c v Hc). split; [exact En|exact V3].
Qed.
Lemma pad_nomem : forall x a n b, is_ws x = false -> spaces a -> spaces b -> mem x n = false -> mem x (a ++ n ++ b) = false.
Proof. intros x a n b W A B H. now rewrite !mem_app, (spaces_nomem x a W A), (spaces_nomem x b W B), H. Qed.
Lemma lower_atom : forall s, atom s -> atom (lower s).
Proof.
  intros s H. apply atom_iff in H as (A & B & C). apply atom_iff. split; [destruct s; [congruence|discriminate]|]. split; [now rewrite mem_lower|].
  unfold edgeless in *. now rewrite trim_lower, C.
Qed.
(** looking into sorted maps *)
Lemma sorted_nodup : forall V (m : list (str * V)), sorted_keys m -> NoDup (keys m).
Proof.
  intros V. induction m as [|(k, v) m IH]; intros S; [constructor|]. destruct S as (A & B). cbn [keys map fst]. constructor; [|now apply IH].
  intros K. apply A in K. now rewrite str_ltb_irrefl in K.
Qed.
Lemma get_in : forall V (m : list (str * V)) k v, sorted_keys m -> (bget k m = Some v <-> In (k, v) m).
Proof.
  intros V m k v S. unfold bget. split; [apply (lookup_in str_eqb str_eqb_spec)|]. apply (in_lookup str_eqb str_eqb_spec). now apply sorted_nodup.
Qed.
