(** MIME types: limits, and what writing and reading keep. *)
From Coq Require Import Arith NArith Bool String List Lia ZifyBool ZifyN ZifyNat.
Import ListNotations.
From Verif Require HepProofs.
From Verif Require Import Base BaseFacts Text TextFacts TypedFacts NumFacts Mime MimeSpec.
Open Scope N_scope.
Open Scope list_scope.

(** ** Tokens *)
Lemma token_iff : forall c, token_c c = true <-> token_char c.
Proof.
  intros c. unfold token_c, token_char. rewrite orb_true_iff, mem_In. unfold is_alnum, is_alpha, is_upper, is_lower, is_digit, in_range.
  rewrite !orb_true_iff, !andb_true_iff, !N.leb_le. tauto.
Qed.
Lemma token_small : forall c, token_char c -> 33 <= c < 127 /\ c <> 34 /\ c <> 92 /\ c <> 59 /\ c <> 61 /\ c <> 47 /\ c <> 127.
Proof. intros c [H|[H|[H|H]]]; [lia..|]. cbn in H. lia. Qed.
Lemma token_len : forall s, (forall c, In c s -> token_char c) -> blen s = N.of_nat (List.length s).
Proof.
  induction s as [|c s IH]; intros H; [reflexivity|]. cbn [blen List.length]. rewrite IH by (intros; apply H; now right). pose proof (token_small c (H c (or_introl eq_refl))).
  unfold len_utf8. destruct (c <? 128) eqn:E; [lia|]. apply N.ltb_ge in E. lia.
Qed.
Lemma tokens_iff : forall s, forallb token_c s = true <-> forall c, In c s -> token_char c.
Proof. intros s. rewrite forallb_forall. split; intros H c Hc; apply token_iff, H, Hc. Qed.
Lemma some_iff : forall s : str, negb (str_eqb s []) = true <-> s <> [].
Proof. intros s. rewrite negb_true_iff. apply str_eqb_neq. Qed.
Lemma printable_iff : forall s, negb (existsb is_ascii_control s) = true <-> printable s.
Proof.
  intros s. rewrite negb_true_iff. unfold printable. split.
  - intros H c Hc. destruct (is_ascii_control c) eqn:E.
    + assert (existsb is_ascii_control s = true) by (apply existsb_exists; eauto). congruence.
    + unfold is_ascii_control in E. lia.
  - intros H. destruct (existsb is_ascii_control s) eqn:E; [|reflexivity]. apply existsb_exists in E as (c & Hc & E). apply H in Hc. unfold is_ascii_control in E. lia.
Qed.
Lemma word_iff : forall n s, word_ok n s = true <-> token n s.
Proof.
  intros n s. unfold word_ok, token. rewrite !andb_true_iff, some_iff, tokens_iff, printable_iff, N.leb_le. split.
  - intros [[[A B] _] D]. rewrite (token_len s D) in B. auto.
  - intros (A & B & C). rewrite (token_len s B). repeat split; auto. all: intros; apply B, token_small in H; lia.
Qed.
Lemma is_token_iff : forall s, is_token s = true <-> s <> [] /\ forall c, In c s -> token_char c.
Proof. intros s. unfold is_token. now rewrite andb_true_iff, some_iff, tokens_iff. Qed.
Lemma lower_char : forall c, token_char c -> token_char (lower_c c) /\ ~ (65 <= lower_c c <= 90).
Proof.
  intros c H. unfold lower_c, is_upper, in_range. destruct ((65 <=? c) && (c <=? 90)) eqn:E; split; try lia; [|exact H]. right. right. left. lia.
Qed.
Lemma lower_token : forall n s, token n s -> token n (lower s) /\ no_capitals (lower s).
Proof.
  intros n s (A & B & C). split; [refine (conj _ (conj _ _))|].
  - destruct s; [congruence|discriminate].
  - intros c Hc. apply in_map_iff in Hc as (x & <- & Hx). now apply lower_char, B.
  - now rewrite lower_length.
  - intros c Hc. apply in_map_iff in Hc as (x & <- & Hx). now apply lower_char, B.
Qed.
Lemma lower_same : forall s, no_capitals s -> lower s = s.
Proof.
  intros s H. unfold lower. rewrite <- (map_id s) at 2. apply map_ext_in. intros c Hc. apply H in Hc. unfold lower_c, is_upper, in_range. destruct ((65 <=? c) && (c <=? 90)) eqn:E; lia.
Qed.
Lemma token_edgeless : forall s, (forall c, In c s -> token_char c) -> edgeless s.
Proof.
  intros s H. apply edgeless_words. rewrite forallb_forall. intros c Hc. apply H, token_small in Hc. unfold is_ws, is_ascii_ws, in_range. lia.
Qed.
Lemma token_nomem : forall x s, (forall c, In c s -> token_char c) -> ~ token_char x -> mem x s = false.
Proof. intros x s H N. apply mem_false. intros Hx. now apply N, H. Qed.
Ltac notoken := let H := fresh in intros H; apply token_small in H; lia.

(** ** Values *)
Lemma esc_pair : forall e t w, escaped w (92 :: e :: t) <-> exists u, w = e :: u /\ escaped u t.
Proof. intros e t w. split; [inversion 1; subst; [congruence|eauto]|intros (u & -> & H); now apply e_esc]. Qed.
Lemma esc_char : forall c t w, c <> 34 -> c <> 92 -> escaped w (c :: t) <-> exists u, w = c :: u /\ escaped u t.
Proof. intros c t w A B. split; [inversion 1; subst; [eauto|congruence]|intros (u & -> & H); now apply e_plain]. Qed.
Lemma cons_iff : forall (o : option str) c w (E : str -> Prop), (forall u, o = Some u <-> E u) -> match o with Some u => Some (c :: u) | None => None end = Some w <-> exists u, w = c :: u /\ E u.
Proof.
  intros [u|] c w E H.
  - split; [intros [= <-]; exists u; split; [reflexivity|now apply H]|]. intros (x & -> & X). apply H in X. congruence.
  - split; [discriminate|]. intros (x & -> & X). apply H in X. discriminate.
Qed.
Lemma unquote_iff : forall t w, printable t -> unquote t = Some w <-> escaped w t.
Proof.
  intros t. remember (List.length t) as n eqn:En. assert (Hn : (List.length t <= n)%nat) by lia. clear En. revert t Hn.
  induction n as [|n IH]; intros t Hn w P.
  - destruct t; [|cbn in Hn; lia]. cbn. split; [intros [= <-]; constructor|inversion 1; reflexivity].
  - destruct t as [|c t]; cbn [unquote]. { split; [intros [= <-]; constructor|inversion 1; reflexivity]. }
    cbn [List.length] in Hn. destruct (c =? 92) eqn:E92.
    + apply N.eqb_eq in E92. subst c. destruct t as [|e t]. { split; [discriminate|inversion 1; congruence]. }
      destruct (is_ascii_control e) eqn:Ee. { exfalso. specialize (P e (or_intror (or_introl eq_refl))). unfold is_ascii_control in Ee. lia. }
      rewrite esc_pair. apply cons_iff. intros u. cbn [List.length] in Hn. apply IH; [lia|]. intros x Hx. apply P. now do 2 right.
    + apply N.eqb_neq in E92. destruct (c =? 34) eqn:E34.
      * apply N.eqb_eq in E34. subst. split; [discriminate|inversion 1; congruence].
      * apply N.eqb_neq in E34. rewrite (esc_char c t w E34 E92). apply cons_iff. intros u. apply IH; [lia|]. intros x Hx. apply P. now right.
Qed.
Lemma ends_quote : forall s, ends_with [34] s = true <-> exists t, s = t ++ [34].
Proof.
  intros s. unfold ends_with. cbn [rev app]. rewrite starts_with_spec. split.
  - intros [r E]. exists (rev r). apply (f_equal (@rev N)) in E. now rewrite rev_involutive, rev_app_distr in E.
  - intros [t ->]. exists (rev t). now rewrite rev_app_distr.
Qed.
Lemma normalize_iff : forall v w, normalize v = Some w <-> writes v w /\ printable v /\ blen v <= 256.
Proof.
  intros v w. unfold normalize. destruct (negb (str_eqb v []) && (blen v <=? MAX_VALUE) && negb (existsb is_ascii_control v)) eqn:G.
  - apply andb_prop in G as [G P]. apply andb_prop in G as [G L]. apply some_iff in G. apply N.leb_le in L. change MAX_VALUE with 256 in L. apply printable_iff in P.
    destruct (starts_with [34] v && ends_with [34] v && (2 <=? blen v)) eqn:Q.
    + apply andb_prop in Q as [Q Q3]. apply andb_prop in Q as [Q1 Q2]. apply starts_with_spec in Q1 as [r ->]. cbn [app tl].
      assert (exists t, r = t ++ [34]) as [t ->].
      { apply ends_quote in Q2 as [t E]. destruct t as [|x t]; [cbn in E; injection E as ->; cbn in Q3; discriminate|]. exists t. cbn in E. now injection E as _ E. }
      rewrite removelast_last. assert (Pt : printable t) by (intros x Hx; apply P; cbn; right; apply in_or_app; now left). rewrite unquote_iff by exact Pt. split.
      * intros E. split; [|auto]. right. now exists t.
      * intros [[[E [_ T]]|[t' [E X]]] _].
        -- subst w. assert (H : token_char 34) by (apply T; now left). exfalso. revert H. notoken.
        -- cbn [app] in E. injection E as E. apply app_inj_tail in E as [-> _]. exact X.
    + destruct (is_token v) eqn:T.
      * apply is_token_iff in T as [T1 T2]. split.
        -- intros [= <-]. split; [left|]; auto.
        -- intros [[[-> _]|[t [-> _]]] _]; [reflexivity|]. assert (H : token_char 34) by (apply T2; now left). exfalso. revert H. notoken.
      * split; [discriminate|]. intros [[[-> [T1 T2]]|[t [-> _]]] _].
        -- assert (is_token w = true) by (apply is_token_iff; auto). congruence.
        -- exfalso. replace (starts_with [34] (34 :: t ++ [34])) with true in Q by (symmetry; apply starts_with_spec; now eexists).
           replace (ends_with [34] (34 :: t ++ [34])) with true in Q by (symmetry; apply ends_quote; now exists (34 :: t)).
           cbn [andb] in Q. apply N.leb_gt in Q. revert Q. cbn [blen]. rewrite blen_app. cbn [blen]. change (len_utf8 34) with 1. lia.
  - split; [discriminate|]. intros (W & P & L). exfalso. apply printable_iff in P. rewrite P, andb_true_r in G. change MAX_VALUE with 256 in G. apply N.leb_le in L. rewrite L, andb_true_r in G.
    apply negb_false_iff, str_eqb_spec in G. subst v. destruct W as [[E [T _]]|[t [E _]]]; [congruence|discriminate].
Qed.
Lemma quote_escaped : forall w, escaped w (flat_map quote_c w).
Proof.
  induction w as [|c w IH]; [constructor|]. cbn [flat_map]. unfold quote_c at 1. destruct ((c =? 92) || (c =? 34)) eqn:E; cbn [app].
  - now apply e_esc.
  - apply orb_false_iff in E as [A B]. apply N.eqb_neq in A, B. now apply e_plain.
Qed.
Lemma len_pos : forall c, 1 <= len_utf8 c.
Proof. intros c. unfold len_utf8. repeat destruct (_ <? _); lia. Qed.
Lemma quote_len : forall w t, escaped w t -> blen w <= blen (flat_map quote_c w) <= blen t.
Proof.
  induction 1 as [|c w t A B H IH|c w t H IH]; [cbn; lia| |].
  - cbn [flat_map]. rewrite blen_app. unfold quote_c at 1 3. replace ((c =? 92) || (c =? 34)) with false by lia. cbn [blen]. lia.
  - cbn [flat_map]. rewrite blen_app. unfold quote_c at 1 3. destruct ((c =? 92) || (c =? 34)); cbn [blen]; change (len_utf8 92) with 1; lia.
Qed.
Lemma escaped_in : forall w t, escaped w t -> forall c, In c w -> In c t.
Proof. induction 1; intros x Hx; cbn in *; intuition. Qed.
Lemma show_good : forall v w, normalize v = Some w -> normalize (show_value w) = Some w.
Proof.
  intros v w H. apply normalize_iff in H as (W & P & L). apply normalize_iff. unfold show_value. destruct (is_token w) eqn:T.
  - apply is_token_iff in T as [T1 T2]. split; [left; auto|]. split. { intros c Hc. apply T2, token_small in Hc. lia. }
    destruct W as [[-> _]|[t [-> X]]]; [exact L|]. apply quote_len in X. revert L. cbn [blen]. rewrite blen_app. lia.
  - destruct W as [[-> [T1 T2]]|[t [-> X]]]. { assert (is_token w = true) by (apply is_token_iff; auto). congruence. }
    split; [right; exists (flat_map quote_c w); split; [reflexivity|apply quote_escaped]|]. split.
    + intros c Hc. cbn [In] in Hc. rewrite in_app_iff in Hc. destruct Hc as [<-|[Hc|[<-|[]]]]; [lia| |lia]. apply in_flat_map in Hc as (x & Hx & Hc).
      assert (In x t) by now apply (escaped_in _ _ X). assert (Px : 32 <= x /\ x <> 127) by (apply P; cbn; right; apply in_or_app; now left).
      unfold quote_c in Hc. destruct ((x =? 92) || (x =? 34)); cbn in Hc; [destruct Hc as [<-|[<-|[]]]; lia|destruct Hc as [<-|[]]; exact Px].
    + pose proof (quote_len _ _ X). revert L. cbn [blen]. rewrite !blen_app. lia.
Qed.
Definition showable (v : str) : Prop := normalize (show_value v) = Some v.
Lemma showable_clean : forall v, showable v -> printable v /\ blen v <= 256.
Proof.
  intros v H. apply normalize_iff in H as (_ & P & L). unfold show_value in *. destruct (is_token v); [auto|]. split.
  - intros c Hc. apply P. cbn. right. apply in_or_app. left. apply (escaped_in _ _ (quote_escaped v) c Hc).
  - pose proof (quote_len _ _ (quote_escaped v)). revert L. cbn [blen]. rewrite blen_app. lia.
Qed.

(** ** What can be built *)
Definition inv (m : mime) : Prop :=
  (token 64 (m_type m) /\ no_capitals (m_type m)) /\ (token 64 (m_sub m) /\ no_capitals (m_sub m))
  /\ (List.length (m_params m) <= 20)%nat /\ sorted_keys (m_params m)
  /\ forall n v, In (n, v) (m_params m) -> (token 64 n /\ no_capitals n) /\ showable v.
Lemma add_inv : forall m n v m', inv m -> add_param m n v = Some m' -> inv m'.
Proof.
  intros m n v m' (A & B & C & D & E) H. unfold add_param in H. destruct (_ && _ && _) eqn:G; [|discriminate]. destruct (normalize v) as [w|] eqn:Ew; [|discriminate].
  assert (m' = mkMime (m_type m) (m_sub m) (bput (lower n) w (m_params m))) as -> by congruence. clear H. apply andb_prop in G as [G G3]. apply andb_prop in G as [G1 G2]. apply word_iff in G1.
  refine (conj A (conj B (conj _ (conj _ _)))); cbn [m_params].
  - pose proof (bput_llen (lower n) w (m_params m)) as L. apply N.ltb_lt in G2. change MAX_COUNT with 20 in G2. unfold llen in *. lia.
  - now apply bput_sorted.
  - intros k x Hx. apply bput_in in Hx as [[= -> ->]|Hx]; [|now apply E]. split; [now apply lower_token|]. exact (show_good _ _ Ew).
Qed.
Lemma built_inv : forall m, built m -> inv m.
Proof.
  induction 1 as [t s m H|m n v m' _ IH H]; [|now apply (add_inv m n v)]. unfold mime_new in H. destruct (_ && _) eqn:G; [|discriminate].
  assert (m = mkMime (lower t) (lower s) []) as -> by congruence. apply andb_prop in G as [G1 G2]. apply word_iff in G1, G2.
  refine (conj (lower_token _ _ G1) (conj (lower_token _ _ G2) (conj _ (conj I _)))); cbn; [lia|contradiction].
Qed.
(** C162: type, subtype and parameter names are lower-case tokens of at most 64
    characters, there are at most 20 parameters with different names, and values hold at
    most 256 bytes and no control characters *)
Theorem C162_limits : forall m, built m -> within m.
Proof.
  intros m H. apply built_inv in H as (A & B & C & D & E). refine (conj A (conj B (conj C (conj D _)))). intros n v Hv. apply E in Hv as [F G]. split; [exact F|now apply showable_clean].
Qed.
Print Assumptions C162_limits.

(** ** Writing and reading *)
Definition piece (p : str * str) : str := fst p ++ 61 :: show_value (snd p).
Definition tail (ps : list (str * str)) : str := flat_map (fun p => 59 :: piece p) ps.
Definition pieces (ps : list (str * str)) : list str := match tail ps with [] => [] | _ :: t => split_on 59 t end.
Lemma show_tail : forall m, show m = (m_type m ++ 47 :: m_sub m) ++ tail (m_params m).
Proof. intros m. unfold show, tail, piece. rewrite <- app_assoc. reflexivity. Qed.
Lemma split_tail : forall x ps, mem 59 x = false -> split_on 59 (x ++ tail ps) = x :: pieces ps.
Proof.
  intros x [|p ps] H.
  - cbn. rewrite app_nil_r. now apply split_on_nomem.
  - unfold pieces. cbn [tail flat_map app]. now apply split_on_app.
Qed.
Lemma value_ends : forall v, showable v -> show_value v <> [] /\ edgeless (show_value v).
Proof.
  intros v _. unfold show_value. destruct (is_token v) eqn:T.
  - apply is_token_iff in T as [T1 T2]. split; [exact T1|now apply token_edgeless].
  - split; [discriminate|]. apply (edgeless_ends [34] (flat_map quote_c v) [34]); discriminate || reflexivity.
Qed.
Lemma mem_quote : forall v, mem 59 (flat_map quote_c v) = mem 59 v.
Proof.
  induction v as [|c v IH]; [reflexivity|]. cbn [flat_map]. unfold mem in *. rewrite existsb_app, IH. cbn [existsb]. f_equal. unfold quote_c.
  destruct ((c =? 92) || (c =? 34)) eqn:E; cbn [existsb]; rewrite orb_false_r; [|reflexivity]. change (59 =? 92) with false. reflexivity.
Qed.
Lemma mem_show : forall v, mem 59 (show_value v) = mem 59 v.
Proof.
  intros v. unfold show_value. destruct (is_token v); [reflexivity|]. change (34 :: flat_map quote_c v ++ [34]) with ([34] ++ flat_map quote_c v ++ [34]).
  unfold mem. rewrite !existsb_app. fold (mem 59 (flat_map quote_c v)). rewrite mem_quote. cbn. now rewrite orb_false_r.
Qed.
Lemma edgeless_piece : forall n v, (forall c, In c n -> token_char c) -> n <> [] -> showable v -> edgeless (n ++ 61 :: show_value v).
Proof.
  intros n v T N S. destruct (value_ends v S) as [A B]. apply (edgeless_ends n [61] (show_value v)); auto. now apply token_edgeless.
Qed.
Lemma read_step : forall m n v r, (forall c, In c n -> token_char c) -> n <> [] -> showable v -> no_capitals n ->
  read_params m ((n ++ 61 :: show_value v) :: r) = match add_param m n (show_value v) with Some m' => read_params m' r | None => None end.
Proof.
  intros m n v r T N S K. cbn [read_params]. rewrite (edgeless_piece n v T N S). destruct (str_eqb (n ++ 61 :: show_value v) []) eqn:E.
  { apply str_eqb_spec in E. destruct n; discriminate. }
  rewrite split_once_word by (apply token_nomem; [exact T|notoken]). rewrite (token_edgeless n T). destruct (value_ends v S) as [_ ->]. reflexivity.
Qed.
Lemma add_last : forall m n v, inv m -> token 64 n -> no_capitals n -> showable v -> (List.length (m_params m) < 20)%nat -> (forall k, In k (keys (m_params m)) -> str_ltb k n = true) ->
  add_param m n (show_value v) = Some (mkMime (m_type m) (m_sub m) (m_params m ++ [(n, v)])).
Proof.
  intros m n v I T K S L O. unfold add_param. change MAX_NAME with 64. apply word_iff in T. rewrite T. rewrite (lower_same n K), S. rewrite (bput_last n v (m_params m) O).
  replace (llen (m_params m) <? MAX_COUNT) with true by (symmetry; apply N.ltb_lt; unfold llen, MAX_COUNT; lia).
  replace (bget n (m_params m)) with (@None str); [reflexivity|]. clear - O. induction (m_params m) as [|[k x] r IH]; [reflexivity|]. unfold bget in *. cbn [lookup].
  destruct (str_eqb n k) eqn:E. { apply str_eqb_spec in E. subst k. specialize (O n (or_introl eq_refl)). now rewrite str_ltb_irrefl in O. }
  apply IH. intros k' Hk. apply O. now right.
Qed.
Lemma keys_app : forall (a b : list (str * str)), keys (a ++ b) = keys a ++ keys b.
Proof. intros. apply map_app. Qed.
Lemma sorted_mid : forall (a : list (str * str)) n v b, sorted_keys (a ++ (n, v) :: b) -> forall k, In k (keys a) -> str_ltb k n = true.
Proof.
  induction a as [|[x w] a IH]; intros n v b S k Hk; [contradiction|]. cbn [app] in S. destruct S as [S1 S2]. destruct Hk as [<-|Hk].
  - cbn [fst]. apply S1. rewrite keys_app. apply in_or_app. right. now left.
  - now apply (IH n v b).
Qed.
Lemma quote_cut : forall w t a r, escaped w t -> flat_map quote_c a <> t ++ 34 :: r.
Proof.
  intros w t a r H. revert a. induction H as [|c w t A B H IH|c w t H IH]; intros a E; destruct a as [|x a]; try discriminate; cbn [flat_map app] in E;
    unfold quote_c in E at 1; destruct ((x =? 92) || (x =? 34)) eqn:Q; cbn [app] in E.
  - congruence.
  - injection E as -> _. rewrite N.eqb_refl, orb_true_r in Q. discriminate.
  - congruence.
  - injection E as -> E. now apply (IH a).
  - injection E as -> E. now apply (IH a).
  - injection E as -> _. discriminate.
Qed.
Lemma cut_value : forall a, normalize (trim (34 :: flat_map quote_c a)) = None.
Proof.
  intros a. destruct (normalize (trim (34 :: flat_map quote_c a))) as [w|] eqn:E; [|reflexivity]. exfalso. apply normalize_iff in E as (W & _ & _).
  assert (exists b, 34 :: flat_map quote_c a = trim (34 :: flat_map quote_c a) ++ b) as [b Eb].
  { unfold trim, trim_by, trim_start_by. cbn [drop_while]. change (is_ws 34) with false. cbv iota. destruct (trim_end_by_prefix is_ws (34 :: flat_map quote_c a)) as (b & H & _). now exists b. }
  destruct W as [[Et [T1 T2]]|[t [Et X]]].
  - rewrite Et in Eb. destruct w as [|c w]; [congruence|]. cbn [app] in Eb. injection Eb as <- _. assert (H : token_char 34) by (apply T2; now left). revert H. notoken.
  - rewrite Et in Eb. cbn [app] in Eb. injection Eb as Eb. rewrite <- app_assoc in Eb. now apply (quote_cut w t a b X).
Qed.
Lemma split_on_first : forall c s, mem c s = true -> exists a b, s = a ++ c :: b /\ mem c a = false.
Proof.
  intros c s H. destruct (split_once c s) as [[a b]|] eqn:E.
  - apply split_once_some in E as [E1 E2]. eauto.
  - apply split_once_none in E. congruence.
Qed.
Lemma trim_right_part : forall n x, (forall c, In c n -> token_char c) -> n <> [] -> exists q, trim (n ++ 61 :: x) = n ++ 61 :: q /\ trim q = trim x.
Proof.
  intros n x T N. destruct (trim_end_by_prefix is_ws x) as (b & E & Hb). exists (trim_end_by is_ws x). split.
  - unfold trim, trim_by, trim_start_by. rewrite drop_while_id.
    + change (n ++ 61 :: x) with (n ++ [61] ++ x). change (n ++ 61 :: trim_end_by is_ws x) with (n ++ [61] ++ trim_end_by is_ws x). rewrite !app_assoc. rewrite HepProofs.trim_end_by_app. destruct (trim_end_by is_ws x); [|reflexivity]. rewrite app_nil_r, HepProofs.trim_end_by_app. reflexivity.
    + destruct n as [|c n]; [congruence|]. assert (H := token_small c (T c (or_introl eq_refl))). cbn. unfold is_ws, is_ascii_ws, in_range. lia.
  - rewrite E at 2. symmetry. now apply trim_right.
Qed.
Lemma pieces_whole : forall p ps, mem 59 (piece p) = false -> pieces (p :: ps) = piece p :: pieces ps.
Proof. intros p ps H. unfold pieces at 1. change (tail (p :: ps)) with (59 :: piece p ++ tail ps). exact (split_tail (piece p) ps H). Qed.
Lemma mem_app : forall x a b, mem x (a ++ b) = mem x a || mem x b.
Proof. intros. apply existsb_app. Qed.
Lemma pieces_cut : forall n a b ps, mem 59 n = false -> mem 59 a = false -> is_token (a ++ 59 :: b) = false ->
  exists r, pieces ((n, a ++ 59 :: b) :: ps) = (n ++ 61 :: 34 :: flat_map quote_c a) :: r.
Proof.
  intros n a b ps Hn Ha T. exists (split_on 59 ((flat_map quote_c b ++ [34]) ++ tail ps)). unfold pieces. change (tail ((n, a ++ 59 :: b) :: ps)) with (59 :: piece (n, a ++ 59 :: b) ++ tail ps). cbv iota.
  unfold piece. cbn [fst snd]. unfold show_value. rewrite T, flat_map_app. cbn [flat_map]. change (quote_c 59) with [59]. cbn [app].
  transitivity (split_on 59 ((n ++ 61 :: 34 :: flat_map quote_c a) ++ 59 :: ((flat_map quote_c b ++ [34]) ++ tail ps))).
  - f_equal. repeat (rewrite <- app_assoc; cbn [app]). reflexivity.
  - apply split_on_app. rewrite mem_app, Hn. change (61 :: 34 :: flat_map quote_c a) with ([61; 34] ++ flat_map quote_c a). rewrite mem_app, mem_quote. exact Ha.
Qed.
Lemma read_back : forall ps m, inv (mkMime (m_type m) (m_sub m) (m_params m ++ ps)) -> inv m ->
  (Forall (fun p => mem 59 (snd p) = false) ps -> read_params m (pieces ps) = Some (mkMime (m_type m) (m_sub m) (m_params m ++ ps)))
  /\ (Exists (fun p => mem 59 (snd p) = true) ps -> read_params m (pieces ps) = None).
Proof.
  induction ps as [|[n v] ps IH]; intros m HI Hm.
  - split; [intros _|inversion 1]. cbn. rewrite app_nil_r. now destruct m.
  - assert (HI' := HI). destruct HI' as (A & B & C & D & E). cbn [m_type m_sub m_params] in *. destruct (E n v) as [[T K] S]; [apply in_or_app; right; now left|].
    assert (Hl : (List.length (m_params m) < 20)%nat) by (rewrite app_length in C; cbn in C; lia).
    destruct T as (T1 & T2 & T3). assert (Tn : token 64 n) by (split; auto). assert (O := sorted_mid _ _ _ _ D).
    assert (Hn : mem 59 n = false) by (apply (token_nomem 59 n T2); notoken).
    pose proof (add_last m n v Hm Tn K S Hl O) as Ha. destruct (mem 59 v) eqn:Ev.
    + split; [intros F; apply Forall_inv in F; cbn [snd] in F; congruence|]. intros _.
      assert (Tv : is_token v = false). { destruct (is_token v) eqn:Tv; [|reflexivity]. apply is_token_iff in Tv as [_ Tv]. rewrite (token_nomem 59 v Tv) in Ev by notoken. discriminate. }
      destruct (split_on_first 59 v Ev) as (a & b & Eab & Na). assert (Er : exists r, pieces ((n, v) :: ps) = (n ++ 61 :: 34 :: flat_map quote_c a) :: r) by (subst v; exact (pieces_cut n a b ps Hn Na Tv)). destruct Er as [r Er]. rewrite Er.
      cbn [read_params]. destruct (trim_right_part n (34 :: flat_map quote_c a) T2 T1) as (q & Eq & Eq2). rewrite Eq. destruct (str_eqb (n ++ 61 :: q) []) eqn:X.
      { apply str_eqb_spec in X. destruct n; discriminate. }
      rewrite split_once_word by (apply token_nomem; [exact T2|notoken]). rewrite Eq2, (token_edgeless n T2). unfold add_param. rewrite cut_value. now destruct (_ && _ && _).
    + assert (Hp : mem 59 (piece (n, v)) = false). { unfold piece. cbn [fst snd]. rewrite mem_app, Hn. change (61 :: show_value v) with ([61] ++ show_value v). rewrite mem_app, mem_show. exact Ev. }
      rewrite (pieces_whole _ _ Hp). unfold piece. cbn [fst snd]. rewrite read_step by auto. rewrite Ha.
      assert (Hm' : inv (mkMime (m_type m) (m_sub m) (m_params m ++ [(n, v)]))) by exact (add_inv _ _ _ _ Hm Ha).
      specialize (IH (mkMime (m_type m) (m_sub m) (m_params m ++ [(n, v)]))). cbn [m_type m_sub m_params] in IH. rewrite <- app_assoc in IH. cbn [app] in IH. destruct (IH HI Hm') as [I1 I2]. split.
      * intros F. apply Forall_inv_tail in F. now apply I1.
      * intros F. apply Exists_cons in F as [F|F]; [cbn [snd] in F; congruence|now apply I2].
Qed.
Lemma parse_show : forall m, inv m -> parse (show m) = read_params (mkMime (m_type m) (m_sub m) []) (pieces (m_params m)).
Proof.
  intros m (([A1 [A2 A3]] & A4) & ([B1 [B2 B3]] & B4) & _). unfold parse. rewrite show_tail, split_tail.
  2:{ rewrite mem_app, (token_nomem 59 _ A2) by notoken. change (47 :: m_sub m) with ([47] ++ m_sub m). rewrite mem_app, (token_nomem 59 (m_sub m) B2) by notoken. reflexivity. }
  assert (Ex : edgeless (m_type m ++ 47 :: m_sub m)) by (apply (edgeless_ends (m_type m) [47] (m_sub m)); auto using token_edgeless). rewrite Ex.
  rewrite split_on_app by (apply token_nomem; [exact A2|notoken]). rewrite split_on_nomem by (apply token_nomem; [exact B2|notoken]).
  rewrite (token_edgeless _ A2), (token_edgeless _ B2). unfold mime_new.
  assert (TA : word_ok MAX_TYPE (m_type m) = true) by (apply word_iff; split; auto). assert (TB : word_ok MAX_SUBTYPE (m_sub m) = true) by (apply word_iff; split; auto).
  rewrite TA, TB. cbn [andb]. now rewrite (lower_same _ A4), (lower_same _ B4).
Qed.
Lemma inv_start : forall m, inv m -> inv (mkMime (m_type m) (m_sub m) []).
Proof. intros m (A & B & _). refine (conj A (conj B (conj _ (conj I _)))); cbn; [lia|contradiction]. Qed.
(** C162: a MIME type written and read again is the same if no parameter value holds a
    semicolon, and is refused otherwise *)
Theorem C162_roundtrip : forall m, built m ->
  ((forall n v, In (n, v) (m_params m) -> ~ In 59 v) -> parse (show m) = Some m)
  /\ ((exists n v, In (n, v) (m_params m) /\ In 59 v) -> parse (show m) = None).
Proof.
  intros m H. apply built_inv in H. rewrite (parse_show m H). assert (H0 := inv_start m H).
  assert (H1 : inv (mkMime (m_type m) (m_sub m) (m_params (mkMime (m_type m) (m_sub m) []) ++ m_params m))) by (cbn [m_params app]; now destruct m).
  destruct (read_back (m_params m) (mkMime (m_type m) (m_sub m) []) H1 H0) as [R1 R2]. split.
  - intros N. rewrite R1; [cbn; now destruct m|]. apply Forall_forall. intros [n v] Hp. apply mem_false. cbn [snd]. now apply (N n).
  - intros (n & v & Hp & Hv). apply R2. apply Exists_exists. exists (n, v). split; [exact Hp|]. now apply mem_In.
Qed.
Print Assumptions C162_roundtrip.
Lemma read_params_built : forall ps m m', built m -> read_params m ps = Some m' -> Forall (fun p => mem 59 p = false) ps -> (forall n v, In (n, v) (m_params m) -> ~ In 59 v) ->
  built m' /\ forall n v, In (n, v) (m_params m') -> ~ In 59 v.
Proof.
  induction ps as [|p ps IH]; intros m m' B H F N; cbn [read_params] in H; [assert (m' = m) as -> by congruence; auto|].
  inversion F as [|? ? F1 F2]; subst. destruct (str_eqb (trim p) []); [now apply (IH m)|]. destruct (split_once 61 (trim p)) as [[n v]|] eqn:E; [|discriminate].
  destruct (add_param m (trim n) (trim v)) as [m1|] eqn:Ea; [|discriminate]. apply (IH m1); auto; [now apply (b_add m (trim n) (trim v))|].
  intros k w Hw. unfold add_param in Ea. destruct (_ && _ && _); [|discriminate]. destruct (normalize (trim v)) as [x|] eqn:Ex; [|discriminate].
  assert (m1 = mkMime (m_type m) (m_sub m) (bput (lower (trim n)) x (m_params m))) as -> by congruence. cbn [m_params] in Hw. apply bput_in in Hw as [[= -> ->]|Hw]; [|now apply (N k)].
  intros H59. assert (Hin : In 59 (trim v)). { apply normalize_iff in Ex as [[[-> _]|[t [-> X]]] _]; [exact H59|]. cbn. right. apply in_or_app. left. now apply (escaped_in _ _ X). }
  apply mem_In, mem_trim_sub, mem_In in Hin. apply split_once_some in E as [E _].
  assert (mem 59 (trim p) = true) by (apply mem_In; rewrite E; apply in_or_app; right; now right). rewrite (trim_mem 59 p F1) in H0. discriminate.
Qed.
(** C162: what is read is within the limits, and is read back when it is written *)
Theorem C162_read : forall s m, parse s = Some m -> within m /\ parse (show m) = Some m.
Proof.
  intros s m H. unfold parse in H. destruct (split_on 59 s) as [|h ps] eqn:Es; [discriminate|]. destruct (split_on 47 (trim h)) as [|t [|u [|]]]; try discriminate.
  destruct (mime_new (trim t) (trim u)) as [m0|] eqn:E0; [|discriminate]. assert (B0 : built m0) by exact (b_new _ _ _ E0).
  destruct (read_params_built ps m0 m B0 H) as [B N].
  - apply Forall_forall. intros p Hp. apply (split_on_nomem_parts 59 s). rewrite Es. now right.
  - unfold mime_new in E0. destruct (_ && _); [|discriminate]. assert (m0 = mkMime (lower (trim t)) (lower (trim u)) []) as -> by congruence. contradiction.
  - split; [now apply C162_limits|now apply C162_roundtrip].
Qed.
Print Assumptions C162_read.
(** C162 fails for values with a semicolon: the written type is refused *)
Theorem C162_semicolon_refuted : exists m, built m /\ parse (show m) = None.
Proof.
  set (m0 := mkMime (lit "text") (lit "plain") []). set (m1 := mkMime (lit "text") (lit "plain") [(lit "x", lit "a;b")]). exists m1. split.
  - apply (b_add m0 (lit "x") (lit """a;b""")); [apply (b_new (lit "text") (lit "plain"))|]; vm_compute; reflexivity.
  - vm_compute. reflexivity.
Qed.
Print Assumptions C162_semicolon_refuted.
Example C162_ex : exists m, parse (lit "multipart/mixed;boundary=""a b\""c""") = Some m /\ built m /\ (forall n v, In (n, v) (m_params m) -> ~ In 59 v) /\ m_params m = [(lit "boundary", lit "a b""c")].
Proof.
  exists (mkMime (lit "multipart") (lit "mixed") [(lit "boundary", lit "a b""c")]). refine (conj _ (conj _ (conj _ _))); [vm_compute; reflexivity| | |reflexivity].
  - apply (b_add (mkMime (lit "multipart") (lit "mixed") []) (lit "boundary") (lit """a b\""c""")); [apply (b_new (lit "multipart") (lit "mixed"))|]; vm_compute; reflexivity.
  - intros n v [E|[]] H59. assert (v = lit "a b""c") as -> by congruence. cbn in H59. lia.
Qed.

(** ** Parameters *)
(** C163: a parameter is accepted iff its name is a token of at most 64 characters, not
    yet there in any spelling, fewer than 20 are there, and the value is a token or a
    quoted text; it is then what the name in any spelling stands for *)
Theorem C163_params : forall m n v, built m ->
  ((exists m', add_param m n v = Some m')
   <-> token 64 n /\ (List.length (m_params m) < 20)%nat /\ param m n = None /\ (exists w, writes v w) /\ printable v /\ blen v <= 256)
  /\ (forall m', add_param m n v = Some m' -> exists w, writes v w /\ m_type m' = m_type m /\ m_sub m' = m_sub m /\ List.length (m_params m') = Datatypes.S (List.length (m_params m))
        /\ forall k, param m' k = if eq_ic k n then Some w else param m k).
Proof.
  intros m n v B. unfold add_param, param. change MAX_NAME with 64. split.
  - destruct (word_ok 64 n && (llen (m_params m) <? MAX_COUNT) && is_none (bget (lower n) (m_params m))) eqn:G.
    + apply andb_prop in G as [G G3]. apply andb_prop in G as [G1 G2]. apply word_iff in G1. apply N.ltb_lt in G2. unfold llen, MAX_COUNT in G2.
      assert (Hn : bget (lower n) (m_params m) = None) by (destruct (bget _ _); [discriminate|reflexivity]). destruct (normalize v) as [w|] eqn:Ew.
      * split; [intros _|eauto]. apply normalize_iff in Ew as (W & P & L). refine (conj G1 (conj _ (conj Hn (conj (ex_intro _ w W) (conj P L))))). lia.
      * split; [intros [? ?]; discriminate|]. intros (_ & _ & _ & [w W] & P & L). assert (normalize v = Some w) by (apply normalize_iff; auto). congruence.
    + split; [intros [? ?]; discriminate|]. intros (T & L & N & _). exfalso. apply word_iff in T. rewrite T, N in G. cbn [is_none is_some negb] in G. rewrite andb_true_r in G. cbn [andb] in G.
      apply N.ltb_ge in G. unfold llen, MAX_COUNT in G. lia.
  - intros m' H. destruct (_ && _ && _) eqn:G; [|discriminate]. destruct (normalize v) as [w|] eqn:Ew; [|discriminate]. apply andb_prop in G as [_ G3].
    assert (m' = mkMime (m_type m) (m_sub m) (bput (lower n) w (m_params m))) as -> by congruence. exists w. cbn [m_type m_sub m_params].
    apply normalize_iff in Ew as (W & _). assert (Hn : bget (lower n) (m_params m) = None) by (destruct (bget _ _); [discriminate|reflexivity]).
    refine (conj W (conj eq_refl (conj eq_refl (conj _ _)))).
    + clear - Hn. induction (m_params m) as [|[k x] r IH]; [reflexivity|]. unfold bget in *. cbn [lookup bput] in *. destruct (str_eqb (lower n) k); [discriminate|].
      destruct (str_ltb (lower n) k); [reflexivity|]. cbn [List.length]. now rewrite IH.
    + intros k. destruct (eq_ic k n) eqn:E.
      * apply eq_ic_spec in E. rewrite E. apply bget_bput.
      * apply bget_bput_other. intros E'. apply eq_ic_spec in E'. congruence.
Qed.
Print Assumptions C163_params.
Example C163_ex : exists m m', built m /\ add_param m (lit "CharSet") (lit """utf 8""") = Some m' /\ param m' (lit "charset") = Some (lit "utf 8").
Proof.
  exists (mkMime (lit "text") (lit "plain") []), (mkMime (lit "text") (lit "plain") [(lit "charset", lit "utf 8")]).
  split; [apply (b_new (lit "text") (lit "plain"))|split]; vm_compute; reflexivity.
Qed.

(** C163: blanks round the separators do not matter, nor do empty parameters *)
Definition blanks_only (s : str) : Prop := forall c, In c s -> is_ws c = true.
(** blanks, name, blanks, "=", blanks, value, blanks *)
Record written := mkWritten { w1 : str; w_name : str; w2 : str; w3 : str; w_value : str; w4 : str }.
Definition written_text (p : written) : str := w1 p ++ w_name p ++ w2 p ++ 61 :: w3 p ++ w_value p ++ w4 p.
Definition written_ok (p : written) : Prop :=
  blanks_only (w1 p) /\ blanks_only (w2 p) /\ blanks_only (w3 p) /\ blanks_only (w4 p)
  /\ trim (w_name p) = w_name p /\ trim (w_value p) = w_value p /\ ~ In 61 (w_name p) /\ ~ In 59 (w_name p) /\ ~ In 59 (w_value p).
Fixpoint adding (m : mime) (ps : list written) : option mime :=
  match ps with [] => Some m | p :: r => match add_param m (w_name p) (w_value p) with Some m' => adding m' r | None => None end end.
Lemma blanks_of : forall s, blanks_only s -> blanks s.
Proof. intros s H. unfold blanks. apply forallb_forall. exact H. Qed.
Lemma blanks_nomem : forall x s, blanks_only s -> is_ws x = false -> mem x s = false.
Proof. intros x s H N. apply mem_false. intros Hx. apply H in Hx. congruence. Qed.
Lemma read_written : forall ps m, Forall written_ok ps -> read_params m (map written_text ps) = adding m ps.
Proof.
  induction ps as [|p ps IH]; intros m F; [reflexivity|]. inversion F as [|? ? (A & B & C & D & E1 & E2 & E3 & E4 & E5) F']; subst. cbn [map read_params adding].
  destruct p as [a n b c v d]. unfold written_text at 1 2 3. cbn [w1 w2 w3 w4 w_name w_value] in *.
  assert (X : exists y z, trim (a ++ n ++ b ++ 61 :: c ++ v ++ d) = y ++ 61 :: z /\ trim y = n /\ trim z = v /\ mem 61 y = false).
  { assert (T1 : trim (a ++ n ++ b) = n) by (rewrite trim_pad by (now apply blanks_of); exact E1).
    assert (T2 : trim (c ++ v ++ d) = v) by (rewrite trim_pad by (now apply blanks_of); exact E2).
    replace (a ++ n ++ b ++ 61 :: c ++ v ++ d) with ((a ++ n ++ b) ++ 61 :: (c ++ v ++ d)) by (repeat (rewrite <- app_assoc; cbn [app]); reflexivity).
    assert (N : mem 61 (a ++ n ++ b) = false) by (rewrite !mem_app, (blanks_nomem 61 a A eq_refl), (blanks_nomem 61 b B eq_refl); cbn [orb]; rewrite orb_false_r; now apply mem_false).
    set (x := a ++ n ++ b) in *. set (z := c ++ v ++ d) in *. destruct (trim_end_by_prefix is_ws z) as (q & Eq & Hq). destruct (drop_while_suffix is_ws x) as (r & Er & Hr).
    exists (drop_while is_ws x), (trim_end_by is_ws z). repeat split.
    - unfold trim, trim_by, trim_start_by. rewrite Er at 1. rewrite <- app_assoc, (drop_blanks r) by exact Hr.
      assert (drop_while is_ws (drop_while is_ws x ++ 61 :: z) = drop_while is_ws x ++ 61 :: z) as ->.
      { pose proof (drop_while_head is_ws x) as Hh. destruct (drop_while is_ws x) as [|e l]; [reflexivity|]. cbn [app drop_while]. cbn in Hh. now rewrite Hh. }
      rewrite HepProofs.trim_end_by_app. cbn [trim_end_by]. change (is_ws 61) with false. cbv iota. destruct (trim_end_by is_ws z); reflexivity.
    - rewrite <- T1. rewrite Er at 2. symmetry. now apply trim_left.
    - rewrite <- T2. rewrite Eq at 2. symmetry. now apply trim_right.
    - rewrite Er in N. rewrite mem_app in N. now apply orb_false_iff in N. }
  destruct X as (y & z & -> & Ty & Tz & My). destruct (str_eqb (y ++ 61 :: z) []) eqn:Z; [apply str_eqb_spec in Z; destruct y; discriminate|].
  rewrite split_once_word by exact My. rewrite Ty, Tz. destruct (add_param m n v); [now apply IH|reflexivity].
Qed.
Theorem C163_blanks : forall a t b c u d ps, blanks_only a -> blanks_only b -> blanks_only c -> blanks_only d -> token 64 t -> token 64 u -> Forall written_ok ps ->
  parse (a ++ t ++ b ++ 47 :: c ++ u ++ d ++ flat_map (fun p => 59 :: written_text p) ps)
  = match mime_new t u with Some m => adding m ps | None => None end.
Proof.
  intros a t b c u d ps A B C D (T1 & T2 & T3) (U1 & U2 & U3) F. unfold parse.
  assert (Ef : flat_map (fun p => 59 :: written_text p) ps = followed 59 (map written_text ps)). { clear F. unfold followed. induction ps as [|p ps IH]; [reflexivity|]. cbn [flat_map map]. now rewrite IH. }
  rewrite Ef. replace (a ++ t ++ b ++ 47 :: c ++ u ++ d ++ followed 59 (map written_text ps)) with ((a ++ (t ++ b ++ 47 :: c ++ u) ++ d) ++ followed 59 (map written_text ps)) by (repeat (rewrite <- app_assoc; cbn [app]); reflexivity).
  assert (M : forall x, is_ws x = false -> ~ token_char x -> x <> 47 -> mem x (a ++ (t ++ b ++ 47 :: c ++ u) ++ d) = false).
  { intros x W K X. repeat (rewrite mem_app || change (47 :: c ++ u) with ([47] ++ c ++ u)). rewrite (blanks_nomem x a A W), (blanks_nomem x b B W), (blanks_nomem x c C W), (blanks_nomem x d D W), (token_nomem x t T2 K), (token_nomem x u U2 K).
    cbn. rewrite !orb_false_r. now apply N.eqb_neq. }
  rewrite split_followed.
  - rewrite trim_pad by (now apply blanks_of). assert (edgeless (t ++ b ++ 47 :: c ++ u)) as ->.
    { replace (t ++ b ++ 47 :: c ++ u) with (t ++ (b ++ 47 :: c) ++ u) by (rewrite <- app_assoc; reflexivity). apply edgeless_ends; auto using token_edgeless. }
    rewrite (app_assoc t), split_on_app, split_on_nomem.
    + replace (t ++ b) with ([] ++ t ++ b) by reflexivity. rewrite trim_pad by (reflexivity || now apply blanks_of). replace (c ++ u) with (c ++ u ++ []) by (now rewrite app_nil_r).
      rewrite trim_pad by (reflexivity || now apply blanks_of). rewrite (token_edgeless t T2), (token_edgeless u U2). destruct (mime_new t u); [now apply read_written|reflexivity].
    + rewrite mem_app, (blanks_nomem 47 c C eq_refl). apply (token_nomem 47 u U2). notoken.
    + rewrite mem_app, (blanks_nomem 47 b B eq_refl), orb_false_r. apply (token_nomem 47 t T2). notoken.
  - apply M; [reflexivity|notoken|discriminate].
  - apply Forall_forall. intros x Hx. apply in_map_iff in Hx as (p & <- & Hp). rewrite Forall_forall in F. apply F in Hp as (P1 & P2 & P3 & P4 & _ & _ & _ & P5 & P6).
    unfold written_text. change (61 :: w3 p ++ w_value p ++ w4 p) with ([61] ++ w3 p ++ w_value p ++ w4 p). rewrite !mem_app, (blanks_nomem 59 _ P1 eq_refl), (blanks_nomem 59 _ P2 eq_refl), (blanks_nomem 59 _ P3 eq_refl), (blanks_nomem 59 _ P4 eq_refl).
    apply mem_false in P5, P6. now rewrite P5, P6.
Qed.
Print Assumptions C163_blanks.
Example C163_blanks_ex : exists m, parse (lit " text /plain; charset = utf-8 ") = Some m /\ param m (lit "charset") = Some (lit "utf-8")
  /\ written_ok (mkWritten (lit " ") (lit "charset") (lit " ") (lit " ") (lit "utf-8") (lit " ")).
Proof.
  exists (mkMime (lit "text") (lit "plain") [(lit "charset", lit "utf-8")]). refine (conj _ (conj _ _)); [vm_compute; reflexivity..|].
  repeat split; try (vm_compute; reflexivity); try (intros x [<-|[]]; reflexivity); cbn; lia.
Qed.
