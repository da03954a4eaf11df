(** Security agreement: limits, writing and reading, and the best match. *)
From Coq Require Import Arith NArith Bool String List Lia ZifyBool ZifyN ZifyNat Permutation.
Import ListNotations.
From Verif Require HepProofs.
From Verif Require Import Base BaseFacts Text TextFacts TypedFacts SecAgree SecAgreeSpec.
Open Scope N_scope.
Open Scope list_scope.

(** ** Limits *)
Lemma none_iff : forall (f : N -> bool) s, negb (existsb f s) = true <-> forall c, In c s -> f c = false.
Proof.
  intros f s. rewrite negb_true_iff. split.
  - intros H c Hc. destruct (f c) eqn:E; [|reflexivity]. assert (existsb f s = true) by (apply existsb_exists; eauto). congruence.
  - intros H. destruct (existsb f s) eqn:E; [|reflexivity]. apply existsb_exists in E as (c & Hc & E). rewrite (H c Hc) in E. discriminate.
Qed.
Lemma some_iff : forall s : str, negb (str_eqb s []) = true <-> s <> [].
Proof. intros s. rewrite negb_true_iff. apply str_eqb_neq. Qed.
Definition good_name (n : str) : Prop := word n /\ forall c, In c n -> c <> 59 /\ c <> 61 /\ c <> 44.
Lemma name_iff : forall n, name_ok n = true <-> good_name n.
Proof.
  intros n. unfold name_ok, good_name, word. rewrite !andb_true_iff, some_iff, N.leb_le, none_iff. change MAX_NAME with 64. split.
  - intros [[A B] C]. repeat split; auto; apply C in H; rewrite !orb_false_iff, !N.eqb_neq in H; tauto.
  - intros [(A & B & C) D]. repeat split; auto. intros c Hc. specialize (C c Hc). specialize (D c Hc). rewrite !orb_false_iff, !N.eqb_neq. tauto.
Qed.
Lemma mech_iff : forall n, mech_ok n = true <-> word n.
Proof.
  intros n. unfold mech_ok, word. rewrite !andb_true_iff, some_iff, N.leb_le, none_iff. change MAX_MECHANISM with 64. split.
  - intros [[A B] C]. repeat split; auto; apply C in H; rewrite orb_false_iff in H; tauto.
  - intros (A & B & C). repeat split; auto. intros c Hc. specialize (C c Hc). rewrite orb_false_iff. tauto.
Qed.
Definition good_value (v : option str) : Prop := forall t, v = Some t -> blen t <= 256 /\ forall c, In c t -> is_control c = false.
Lemma value_iff : forall v, match v with Some t => value_ok t | None => true end = true <-> good_value v.
Proof.
  intros [t|]; unfold good_value.
  - unfold value_ok. rewrite andb_true_iff, N.leb_le, none_iff. change MAX_VALUE with 256. split; [intros H u [= <-]; exact H|intros H; now apply H].
  - split; [discriminate|reflexivity].
Qed.
Lemma set_iff : forall e n v e', set_param e n v = Some e'
  <-> (List.length (e_params e) < 20)%nat /\ good_name n /\ good_value v /\ e' = mkEntry (e_mech e) (bput n v (e_params e)).
Proof.
  intros e n v e'. unfold set_param. destruct (MAX_PARAMS <=? llen (e_params e)) eqn:L.
  - split; [discriminate|]. intros (H & _). apply N.leb_le in L. unfold MAX_PARAMS, llen in L. lia.
  - apply N.leb_gt in L. unfold MAX_PARAMS, llen in L. destruct (name_ok n && _) eqn:G.
    + apply andb_prop in G as [A B]. apply name_iff in A. apply value_iff in B. split; [intros [= <-]; refine (conj _ (conj A (conj B eq_refl))); lia|]. intros (_ & _ & _ & ->). reflexivity.
    + split; [discriminate|]. intros (_ & A & B & _). apply name_iff in A. apply value_iff in B. rewrite A, B in G. discriminate.
Qed.
(** C164: every entry has at most 20 parameters with different names, names of at most 64
    bytes without blanks, control characters and separators, and values of at most 256
    bytes without control characters *)
Theorem C164_limits : forall e, built e -> within e.
Proof.
  induction 1 as [m|e n v e' _ IH H]; [refine (conj _ (conj I _)); cbn; [lia|contradiction]|]. apply set_iff in H as (L & A & B & ->). destruct IH as (I1 & I2 & I3).
  refine (conj _ (conj _ _)); cbn [e_params].
  - pose proof (bput_llen n v (e_params e)) as X. unfold llen in X. lia.
  - now apply bput_sorted.
  - intros k x Hx. apply bput_in in Hx as [[= -> ->]|Hx]; [|now apply I3]. split; [exact A|exact B].
Qed.
Print Assumptions C164_limits.

(** ** Texts that hold together *)
Definition pre (s : str) (l : list str) : list str := match l with h :: t => (s ++ h) :: t | [] => [s] end.
Lemma put_pre : forall c s l, put_first c (pre s l) = pre (c :: s) l.
Proof. intros c s [|h t]; reflexivity. Qed.
Lemma split_some : forall sep s q e, split_unquoted sep q e s <> [].
Proof.
  intros sep. induction s as [|c s IH]; intros q e; [discriminate|]. cbn [split_unquoted].
  destruct e; [|destruct (q && (c =? 92)); [|destruct (c =? 34); [|destruct ((c =? sep) && negb q); [discriminate|]]]];
    match goal with |- put_first _ ?l <> [] => destruct l; discriminate end.
Qed.
Lemma pre_nil : forall sep s q e, pre [] (split_unquoted sep q e s) = split_unquoted sep q e s.
Proof. intros. destruct (split_unquoted sep q e s) eqn:E; [now apply split_some in E|reflexivity]. Qed.
Lemma split_body : forall sep t r, body t -> split_unquoted sep true false (t ++ 34 :: r) = pre (t ++ [34]) (split_unquoted sep false false r).
Proof.
  intros sep t r H. induction H as [|c t A B H IH|c t H IH]; cbn [app].
  - cbn [split_unquoted andb]. change (34 =? 92) with false. change (34 =? 34) with true. cbn [andb negb]. cbv iota. rewrite <- (pre_nil sep r false false) at 1. apply put_pre.
  - cbn [split_unquoted andb]. apply N.eqb_neq in A, B. rewrite A, B. rewrite andb_false_r, IH. apply put_pre.
  - cbn [split_unquoted andb]. change (92 =? 92) with true. cbv iota. rewrite IH, !put_pre. reflexivity.
Qed.
Lemma split_over : forall sep no s r, settled no s -> In sep no -> split_unquoted sep false false (s ++ r) = pre s (split_unquoted sep false false r).
Proof.
  intros sep no s r H I. induction H as [|c s A B H IH|t s B H IH]; cbn [app].
  - symmetry. apply pre_nil.
  - cbn [split_unquoted andb]. assert (c <> sep) by congruence. apply N.eqb_neq in A, H0. rewrite A, H0. cbn [andb]. rewrite IH. apply put_pre.
  - cbn [split_unquoted andb]. change (34 =? 34) with true. cbv iota. cbn [negb]. rewrite <- app_assoc. cbn [app]. rewrite (split_body sep t _ B), IH.
    destruct (split_unquoted sep false false r); cbn [pre put_first app]; f_equal; rewrite ?app_assoc; cbn; now rewrite <- ?app_assoc.
Qed.
Lemma split_whole : forall sep no s, settled no s -> In sep no -> split_unquoted sep false false s = [s].
Proof. intros sep no s H I. rewrite <- (app_nil_r s) at 1. rewrite (split_over sep no) by auto. cbn. now rewrite app_nil_r. Qed.
Lemma split_sep : forall sep r, sep <> 34 -> split_unquoted sep false false (sep :: r) = [] :: split_unquoted sep false false r.
Proof. intros sep r H. cbn [split_unquoted andb]. apply N.eqb_neq in H. rewrite H, N.eqb_refl. reflexivity. Qed.
Lemma settled_app : forall no a b, settled no a -> settled no b -> settled no (a ++ b).
Proof.
  intros no a b H K. induction H as [|c s A B H IH|t s B H IH]; cbn [app]; [exact K|now apply s_char|]. rewrite <- app_assoc. cbn [app]. now apply s_quoted.
Qed.
Lemma settled_less : forall no no' s, (forall c, In c no' -> In c no) -> settled no s -> settled no' s.
Proof. intros no no' s I H. induction H; [constructor|apply s_char; auto|now apply s_quoted]. Qed.
(** pieces of a text that holds together *)
Lemma split_pieces : forall sep no s, settled no s -> Forall (settled (sep :: no)) (split_unquoted sep false false s).
Proof.
  intros sep no s H. induction H as [|c s A B H IH|t s B H IH].
  - repeat constructor.
  - cbn [split_unquoted andb]. apply N.eqb_neq in A. rewrite A. destruct (c =? sep) eqn:E; cbn [andb negb]; [constructor; [constructor|exact IH]|].
    destruct (split_unquoted sep false false s) as [|h l] eqn:X; [now apply split_some in X|]. inversion IH; subst. cbn [put_first]. constructor; [|assumption].
    apply s_char; auto; [now apply N.eqb_neq|]. intros [<-|K]; [now rewrite N.eqb_refl in E|contradiction].
  - cbn [split_unquoted andb]. change (34 =? 34) with true. cbv iota. cbn [negb]. rewrite (split_body sep t s B), put_pre.
    destruct (split_unquoted sep false false s) as [|h l] eqn:X; [now apply split_some in X|]. inversion IH; subst. cbn [pre]. constructor; [|assumption].
    cbn [app]. rewrite <- app_assoc. cbn [app]. now apply s_quoted.
Qed.
Lemma once_body : forall sep t r, body t -> split_once_unquoted sep true false (t ++ 34 :: r)
  = match split_once_unquoted sep false false r with Some (a, b) => Some (t ++ 34 :: a, b) | None => None end.
Proof.
  intros sep t r H. induction H as [|c t A B H IH|c t H IH]; cbn [app].
  - reflexivity.
  - cbn [split_once_unquoted andb]. apply N.eqb_neq in A, B. rewrite A, B, andb_false_r, IH. now destruct (split_once_unquoted sep false false r) as [[a b]|].
  - cbn [split_once_unquoted andb]. change (92 =? 92) with true. cbv iota. rewrite IH. now destruct (split_once_unquoted sep false false r) as [[a b]|].
Qed.
Lemma once_over : forall sep no s r, settled no s -> In sep no -> split_once_unquoted sep false false (s ++ r)
  = match split_once_unquoted sep false false r with Some (a, b) => Some (s ++ a, b) | None => None end.
Proof.
  intros sep no s r H I. induction H as [|c s A B H IH|t s B H IH]; cbn [app].
  - now destruct (split_once_unquoted sep false false r) as [[a b]|].
  - cbn [split_once_unquoted andb]. assert (c <> sep) by congruence. apply N.eqb_neq in A, H0. rewrite A, H0. cbn [andb]. rewrite IH. now destruct (split_once_unquoted sep false false r) as [[a b]|].
  - cbn [split_once_unquoted andb]. change (34 =? 34) with true. cbv iota. cbn [negb]. rewrite <- app_assoc. cbn [app]. rewrite (once_body sep t _ B), IH.
    destruct (split_once_unquoted sep false false r) as [[a b]|]; [|reflexivity]. now rewrite <- app_assoc.
Qed.
Lemma once_pieces : forall sep no s, settled no s ->
  match split_once_unquoted sep false false s with Some (a, b) => settled (sep :: no) a /\ settled no b | None => settled (sep :: no) s end.
Proof.
  intros sep no s H. induction H as [|c s A B H IH|t s B H IH].
  - constructor.
  - cbn [split_once_unquoted andb]. pose proof A as A'. apply N.eqb_neq in A. rewrite A. destruct (c =? sep) eqn:E; cbn [andb negb]; [split; [constructor|exact H]|]. apply N.eqb_neq in E.
    assert (~ In c (sep :: no)) by (intros [<-|K]; auto).
    destruct (split_once_unquoted sep false false s) as [[a b]|]; [destruct IH|]; try split; auto; now apply s_char.
  - cbn [split_once_unquoted andb]. change (34 =? 34) with true. cbv iota. cbn [negb]. rewrite (once_body sep t s B).
    destruct (split_once_unquoted sep false false s) as [[a b]|]; [destruct IH; split; auto|]; now apply s_quoted.
Qed.
Lemma settled_drop : forall no s, settled no s -> settled no (drop_while is_ws s).
Proof.
  intros no s H. induction H as [|c s A B H IH|t s B H IH]; cbn [drop_while]; [constructor| |].
  - destruct (is_ws c); [exact IH|now apply s_char].
  - change (is_ws 34) with false. now apply s_quoted.
Qed.
Lemma settled_end : forall no s, settled no s -> settled no (trim_end_by is_ws s).
Proof.
  intros no s H. induction H as [|c s A B H IH|t s B H IH]; [constructor| |].
  - cbn [trim_end_by]. destruct (trim_end_by is_ws s) eqn:E; [destruct (is_ws c); [constructor|apply s_char; auto; constructor]|]. now apply s_char.
  - change (34 :: t ++ 34 :: s) with ([34] ++ t ++ [34] ++ s). rewrite !app_assoc, HepProofs.trim_end_by_app. destruct (trim_end_by is_ws s) as [|x l] eqn:E.
    + rewrite HepProofs.trim_end_by_app. cbn [trim_end_by]. change (is_ws 34) with false. cbv iota. rewrite <- app_assoc. cbn [app]. apply s_quoted; [exact B|constructor].
    + rewrite <- !app_assoc. cbn [app]. now apply s_quoted.
Qed.
Lemma settled_trim : forall no s, settled no s -> settled no (trim s).
Proof. intros no s H. unfold trim, trim_by, trim_start_by. now apply settled_end, settled_drop. Qed.

(** ** Writing and reading *)
Definition param_piece (p : str * option str) : str := fst p ++ match snd p with Some v => 61 :: v | None => [] end.
Definition tidy_param {F} (ops : q_ops F) (p : str * option str) : Prop :=
  settled (lit ",;=") (fst p) /\ forall t, snd p = Some t -> settled (lit ",;") t /\ trim t = t /\ (lower (fst p) = lit "q" -> q_read ops t <> None).
Lemma show_entry_pieces : forall e, show_entry e = mech_text (e_mech e) ++ followed 59 (map param_piece (e_params e)).
Proof.
  intros e. unfold show_entry. f_equal. induction (e_params e) as [|p r IH]; [reflexivity|]. cbn [flat_map map]. unfold followed in *. cbn [flat_map]. rewrite <- IH. reflexivity.
Qed.
Lemma split_entry : forall ps m, settled (lit ",;") m -> Forall (settled (lit ",;")) ps -> split_unquoted 59 false false (m ++ followed 59 ps) = m :: ps.
Proof.
  induction ps as [|p ps IH]; intros m Hm Hp.
  - cbn [followed flat_map]. rewrite app_nil_r. apply (split_whole 59 (lit ",;")); [exact Hm|cbn; auto].
  - inversion Hp; subst. rewrite (split_over 59 (lit ",;")) by (exact Hm || (cbn; auto)). unfold followed. cbn [flat_map app]. fold (followed 59 ps). rewrite split_sep by discriminate.
    rewrite IH by assumption. cbn [pre]. now rewrite app_nil_r.
Qed.
Lemma word_edgeless : forall n, word n -> edgeless n.
Proof. intros n (_ & _ & H). apply edgeless_words. rewrite forallb_forall. intros c Hc. apply H in Hc as [_ ->]. reflexivity. Qed.
Lemma piece_settled : forall F (ops : q_ops F) p, tidy_param ops p -> settled (lit ",;") (param_piece p).
Proof.
  intros F ops [n v] [A B]. unfold param_piece. cbn [fst snd] in *. apply settled_app.
  - apply (settled_less (lit ",;=")); [cbn; tauto|exact A].
  - destruct v as [t|]; [|constructor]. apply s_char; [discriminate| |now apply B]. cbn. lia.
Qed.
Lemma piece_edges : forall F (ops : q_ops F) p, good_name (fst p) -> tidy_param ops p -> param_piece p <> [] /\ edgeless (param_piece p).
Proof.
  intros F ops [n v] [W _] [_ B]. unfold param_piece. cbn [fst snd] in *. assert (E := word_edgeless n W). destruct W as (N & _). split; [destruct n; [congruence|discriminate]|].
  destruct v as [t|]; [|now rewrite app_nil_r]. destruct (B t eq_refl) as (_ & T & _). destruct t as [|c t].
  - apply (edgeless_app n [61]); auto; [discriminate|reflexivity].
  - apply (edgeless_ends n [61] (c :: t)); auto. discriminate.
Qed.
Lemma read_piece : forall F (ops : q_ops F) e p, good_name (fst p) -> tidy_param ops p -> read_param ops e (param_piece p) = set_param e (fst p) (snd p).
Proof.
  intros F ops e [n v] G T. destruct (piece_edges F ops (n, v) G T) as [N E]. unfold read_param. cbv zeta. unfold edgeless in E. rewrite !E. apply str_eqb_neq in N. rewrite N. clear N E.
  destruct G as [W _]. destruct T as [A B]. unfold param_piece. cbn [fst snd] in *. rewrite (once_over 61 (lit ",;=") n) by (exact A || (cbn; auto)). destruct v as [t|].
  - destruct (B t eq_refl) as (_ & T & Q). cbn [split_once_unquoted andb negb]. change (61 =? 34) with false. change (61 =? 61) with true. cbn [andb]. cbv iota. rewrite app_nil_r, (word_edgeless n W), T.
    destruct (eq_ic n (lit "q")) eqn:X; [|reflexivity]. apply eq_ic_spec in X. destruct (q_read ops t); [reflexivity|]. exfalso. now apply Q.
  - cbn [split_once_unquoted]. now rewrite app_nil_r.
Qed.
Lemma keys_app : forall V (a b : list (str * V)), keys (a ++ b) = keys a ++ keys b.
Proof. intros. apply map_app. Qed.
Lemma sorted_mid : forall V (a : list (str * V)) n v b, sorted_keys (a ++ (n, v) :: b) -> forall k, In k (keys a) -> str_ltb k n = true.
Proof.
  induction a as [|[x w] a IH]; intros n v b S k Hk; [contradiction|]. cbn [app] in S. destruct S as [S1 S2]. destruct Hk as [<-|Hk].
  - cbn [fst]. apply S1. rewrite keys_app. apply in_or_app. right. now left.
  - now apply (IH n v b).
Qed.
Lemma read_pieces : forall F (ops : q_ops F) ps m acc, sorted_keys (acc ++ ps) -> (List.length (acc ++ ps) <= 20)%nat ->
  (forall p, In p ps -> good_name (fst p) /\ good_value (snd p) /\ tidy_param ops p) ->
  read_params ops (mkEntry m acc) (map param_piece ps) = Some (mkEntry m (acc ++ ps)).
Proof.
  intros F ops. induction ps as [|[n v] ps IH]; intros m acc S L H; [cbn; now rewrite app_nil_r|]. cbn [map read_params]. destruct (H (n, v) (or_introl eq_refl)) as (G & V & T).
  rewrite read_piece by auto. cbn [fst snd] in *. assert (X : set_param (mkEntry m acc) n v = Some (mkEntry m (acc ++ [(n, v)]))).
  { apply set_iff. refine (conj _ (conj G (conj V _))); cbn [e_params e_mech]; [rewrite app_length in L; cbn in L; lia|]. f_equal. symmetry. apply bput_last. now apply (sorted_mid _ acc n v ps). }
  rewrite X. assert (Z : (acc ++ [(n, v)]) ++ ps = acc ++ (n, v) :: ps) by (rewrite <- app_assoc; reflexivity).
  rewrite IH; rewrite ?Z; auto. intros p Hp. apply H. now right.
Qed.
Lemma tidy_params : forall F (ops : q_ops F) e, built e -> tidy ops e -> forall p, In p (e_params e) -> good_name (fst p) /\ good_value (snd p) /\ tidy_param ops p.
Proof.
  intros F ops e B (_ & _ & T) [n v] Hp. apply C164_limits in B as (_ & _ & W). destruct (W n v Hp) as [W1 W2]. destruct (T n v Hp) as [T1 T2]. cbn [fst snd]. refine (conj W1 (conj W2 (conj T1 T2))).
Qed.
Lemma mech_word : forall m, mech_parse (mech_text m) = Some m -> word (mech_text m).
Proof. intros m H. unfold mech_parse in H. destruct (mech_ok (mech_text m)) eqn:E; [|discriminate]. now apply mech_iff. Qed.
Lemma read_entry_back : forall F (ops : q_ops F) e, built e -> tidy ops e -> read_entry ops (show_entry e) = Some e.
Proof.
  intros F ops e B T. assert (P := tidy_params F ops e B T). destruct T as (M & S & _). unfold read_entry. rewrite show_entry_pieces, split_entry.
  - assert (W := mech_word _ M). rewrite (word_edgeless _ W). destruct W as (N & _). apply str_eqb_neq in N. rewrite N, M. unfold entry_new. apply C164_limits in B as (L & O & _).
    rewrite read_pieces; [now destruct e| | |]; auto.
  - exact S.
  - apply Forall_forall. intros x Hx. apply in_map_iff in Hx as (p & <- & Hp). apply (piece_settled F ops). now apply P.
Qed.
Lemma edgeless_followed : forall ps m, m <> [] -> edgeless m -> Forall (fun p => p <> [] /\ edgeless p) ps -> edgeless (m ++ followed 59 ps).
Proof.
  induction ps as [|p ps IH]; intros m N E H; [cbn; now rewrite app_nil_r|]. inversion H as [|? ? [P1 P2] P3]; subst. unfold followed. cbn [flat_map]. fold (followed 59 ps).
  replace (m ++ (59 :: p) ++ followed 59 ps) with ((m ++ [59] ++ p) ++ followed 59 ps) by (rewrite <- !app_assoc; reflexivity). apply IH; [destruct m; [congruence|discriminate]| |exact P3].
  now apply edgeless_ends.
Qed.
Lemma entry_edges : forall F (ops : q_ops F) e, built e -> tidy ops e -> show_entry e <> [] /\ edgeless (show_entry e).
Proof.
  intros F ops e B T. assert (P := tidy_params F ops e B T). destruct T as (M & _). assert (W := mech_word _ M). rewrite show_entry_pieces. assert (E := word_edgeless _ W). destruct W as (N & _). split.
  - destruct (mech_text (e_mech e)); [congruence|discriminate].
  - apply edgeless_followed; auto. apply Forall_forall. intros x Hx. apply in_map_iff in Hx as (p & <- & Hp). apply P in Hp as (G & _ & T). now apply (piece_edges F ops).
Qed.
Lemma settled_followed : forall ps m, settled [44] m -> Forall (settled (lit ",;")) ps -> settled [44] (m ++ followed 59 ps).
Proof.
  intros ps m Hm H. apply settled_app; [exact Hm|]. induction H as [|p ps Hp _ IH]; [constructor|]. unfold followed. cbn [flat_map app]. apply s_char; [discriminate|cbn; lia|].
  apply settled_app; [|exact IH]. apply (settled_less (lit ",;")); [cbn; tauto|exact Hp].
Qed.
Lemma entry_settled : forall F (ops : q_ops F) e, built e -> tidy ops e -> settled [44] (show_entry e).
Proof.
  intros F ops e B T. assert (P := tidy_params F ops e B T). destruct T as (_ & S & _). rewrite show_entry_pieces. apply settled_followed.
  - apply (settled_less (lit ",;")); [cbn; tauto|exact S].
  - apply Forall_forall. intros x Hx. apply in_map_iff in Hx as (p & <- & Hp). apply (piece_settled F ops). now apply P.
Qed.
Lemma split_header : forall l x, settled [44] x -> Forall (settled [44]) l -> split_unquoted 44 false false (join (lit ", ") (x :: l)) = x :: map (cons 32) l.
Proof.
  induction l as [|y l IH]; intros x Hx Hl; [apply (split_whole 44 [44]); [exact Hx|now left]|]. inversion Hl; subst.
  change (join (lit ", ") (x :: y :: l)) with (x ++ 44 :: 32 :: join (lit ", ") (y :: l)). rewrite (split_over 44 [44]) by (exact Hx || now left). rewrite split_sep by discriminate. cbn [pre map]. rewrite app_nil_r. f_equal.
  change (32 :: join (lit ", ") (y :: l)) with ([32] ++ join (lit ", ") (y :: l)). rewrite (split_over 44 [44]); [|apply s_char; [discriminate|cbn; lia|constructor]|now left]. rewrite IH by assumption. reflexivity.
Qed.
Lemma read_all : forall F (ops : q_ops F) es acc ps, Forall2 (fun p e => trim p = show_entry e) ps es -> Forall (fun e => built e /\ tidy ops e) es -> (List.length (acc ++ es) <= 10)%nat ->
  read_entries ops acc ps = Some (acc ++ es).
Proof.
  intros F ops. induction es as [|e es IH]; intros acc ps H T L; inversion H as [|p ? ps' ? Hp Hr]; subst; [cbn; now rewrite app_nil_r|]. inversion T as [|? ? [B1 T1] T2]; subst. cbn [read_entries].
  destruct (MAX_ENTRIES <=? llen acc) eqn:X. { apply N.leb_le in X. unfold MAX_ENTRIES, llen in X. rewrite app_length in L. cbn in L. lia. }
  rewrite Hp. destruct (entry_edges F ops e B1 T1) as [N _]. apply str_eqb_neq in N. rewrite N, (read_entry_back F ops e B1 T1). rewrite (IH (acc ++ [e])); auto; rewrite <- app_assoc; auto.
Qed.
(** C164: headers whose texts hold together are read as they were written *)
Theorem C164_roundtrip : forall F (ops : q_ops F) es, es <> [] -> (List.length es <= 10)%nat -> (forall e, In e es -> built e /\ tidy ops e) -> parse ops (show es) = Some es.
Proof.
  intros F ops es N L H. destruct es as [|e es]; [congruence|]. assert (H' : Forall (fun e => built e /\ tidy ops e) (e :: es)) by (now apply Forall_forall).
  unfold parse, show. cbn [map]. rewrite split_header.
  - rewrite (read_all F ops (e :: es) []); auto.
    + cbn [app]. unfold header_new. destruct (MAX_ENTRIES <? llen (e :: es)) eqn:X; [|reflexivity]. apply N.ltb_lt in X. unfold MAX_ENTRIES, llen in X. lia.
    + inversion H' as [|? ? [B T] H2]; subst. constructor; [now apply (entry_edges F ops)|]. clear - H2. induction H2 as [|x l [B T] _ IH]; [constructor|]. constructor; [|exact IH].
      change (32 :: show_entry x) with ([32] ++ show_entry x). rewrite trim_left by reflexivity. now apply (entry_edges F ops).
  - inversion H' as [|? ? [B T] _]; subst. now apply (entry_settled F ops).
  - inversion H' as [|? ? _ H2]; subst. clear - H2. induction H2 as [|x l [B T] _ IH]; [constructor|]. constructor; [now apply (entry_settled F ops)|exact IH].
Qed.
Print Assumptions C164_roundtrip.

(** ** What is read *)
Lemma mech_back : forall s m, mech_parse s = Some m -> mech_parse (mech_text m) = Some m /\ (mech_text m = s \/ mech_text m = lit "tls" \/ mech_text m = lit "digest" \/ mech_text m = lit "ipsec-ike" \/ mech_text m = lit "ipsec-man").
Proof.
  intros s m H. pose proof H as H0. unfold mech_parse in H. destruct (mech_ok s); [|discriminate]. cbv zeta in H.
  destruct (str_eqb (fold_case s) (lit "tls")); [assert (m = Tls) as -> by congruence; split; [reflexivity|tauto]|].
  destruct (str_eqb (fold_case s) (lit "digest")); [assert (m = Digest) as -> by congruence; split; [reflexivity|tauto]|].
  destruct (str_eqb (fold_case s) (lit "ipsec-ike")); [assert (m = IpsecIke) as -> by congruence; split; [reflexivity|tauto]|].
  destruct (str_eqb (fold_case s) (lit "ipsec-man")); [assert (m = IpsecMan) as -> by congruence; split; [reflexivity|tauto]|].
  assert (m = Other s) as -> by congruence. split; [exact H0|now left].
Qed.
Lemma settled_plain : forall no s, (forall c, In c s -> c <> 34 /\ ~ In c no) -> settled no s.
Proof. induction s as [|c s IH]; intros H; [constructor|]. apply s_char; [now apply H; left|now apply H; left|]. apply IH. intros x Hx. apply H. now right. Qed.
Lemma mech_settled : forall s m, mech_parse s = Some m -> settled (lit ",;") s -> settled (lit ",;") (mech_text m).
Proof.
  intros s m H S. apply mech_back in H as [_ [->|[->|[->|[->| ->]]]]]; [exact S|..]; apply settled_plain; cbn; intros c Hc; lia.
Qed.
Definition all_tidy {F} (ops : q_ops F) (e : entry) : Prop := forall p, In p (e_params e) -> tidy_param ops p.
Lemma read_param_built : forall F (ops : q_ops F) e p e', read_param ops e p = Some e' -> built e -> built e' /\ e_mech e' = e_mech e /\ (settled [59; 44] p -> all_tidy ops e -> all_tidy ops e').
Proof.
  intros F ops e p e' H B. unfold read_param in H. cbv zeta in H. destruct (str_eqb (trim p) []); [assert (e' = e) as -> by congruence; auto|].
  assert (K : forall n v, set_param e n v = Some e' -> built e' /\ e_mech e' = e_mech e /\ (tidy_param ops (n, v) -> all_tidy ops e -> all_tidy ops e')).
  { intros n v X. split; [now apply (b_set e n v)|]. apply set_iff in X as (_ & _ & _ & ->). split; [reflexivity|]. intros T A q Hq. cbn [e_params] in Hq. apply bput_in in Hq as [->|Hq]; [exact T|now apply A]. }
  destruct (split_once_unquoted 61 false false (trim p)) as [[k v]|] eqn:E.
  - assert (X : set_param e (trim k) (Some (trim v)) = Some e' /\ (lower (trim k) = lit "q" -> q_read ops (trim v) <> None) \/ e' = e).
    { destruct (eq_ic (trim k) (lit "q")) eqn:Q.
      - destruct (q_read ops (trim v)) eqn:R; [left; split; [exact H|discriminate]|right; congruence].
      - left. split; [exact H|]. intros X. assert (Y : eq_ic (trim k) (lit "q") = true) by (apply eq_ic_spec; rewrite X; reflexivity). congruence. }
    destruct X as [[X Q]| ->]; [|auto]. destruct (K _ _ X) as (K1 & K2 & K3). refine (conj K1 (conj K2 _)). intros S A. apply K3; [|exact A].
    pose proof (once_pieces 61 [59; 44] (trim p) (settled_trim _ _ S)) as Z. rewrite E in Z. destruct Z as [Z1 Z2]. split; cbn [fst snd].
    + apply (settled_less [61; 59; 44]); [cbn; tauto|]. now apply settled_trim.
    + intros t Ht. assert (t = trim v) as -> by congruence. refine (conj _ (conj (trim_idem v) Q)). apply (settled_less [59; 44]); [cbn; tauto|]. now apply settled_trim.
  - destruct (K _ _ H) as (K1 & K2 & K3). refine (conj K1 (conj K2 _)). intros S A. apply K3; [|exact A]. pose proof (once_pieces 61 [59; 44] (trim p) (settled_trim _ _ S)) as Z. rewrite E in Z. split; cbn [fst snd]; [|discriminate].
    apply (settled_less [61; 59; 44]); [cbn; tauto|exact Z].
Qed.
Lemma read_params_built : forall F (ops : q_ops F) ps e e', read_params ops e ps = Some e' -> built e ->
  built e' /\ e_mech e' = e_mech e /\ (Forall (settled [59; 44]) ps -> all_tidy ops e -> all_tidy ops e').
Proof.
  intros F ops. induction ps as [|p ps IH]; intros e e' H B; cbn [read_params] in H; [assert (e' = e) as -> by congruence; auto|]. destruct (read_param ops e p) as [e1|] eqn:E; [|discriminate].
  destruct (read_param_built F ops e p e1 E B) as (B1 & M1 & T1). destruct (IH e1 e' H B1) as (B2 & M2 & T2). refine (conj B2 (conj _ _)); [congruence|]. intros S A. inversion S; subst. auto.
Qed.
Lemma read_entry_built : forall F (ops : q_ops F) s e, read_entry ops s = Some e -> built e /\ (settled [44] s -> tidy ops e).
Proof.
  intros F ops s e H. unfold read_entry in H. destruct (split_unquoted 59 false false s) as [|m ps] eqn:Es; [discriminate|]. destruct (str_eqb (trim m) []); [discriminate|].
  destruct (mech_parse (trim m)) as [k|] eqn:M; [|discriminate]. destruct (read_params_built F ops ps _ e H (b_new k)) as (B & Em & T). split; [exact B|]. intros S.
  pose proof (split_pieces 59 [44] s S) as Z. rewrite Es in Z. inversion Z as [|? ? Z1 Z2]; subst. unfold entry_new in Em. cbn [e_mech] in Em. unfold tidy. rewrite Em. refine (conj _ (conj _ _)).
  - now apply (mech_back (trim m)).
  - apply (mech_settled (trim m) k M). apply (settled_less [59; 44]); [cbn; tauto|]. now apply settled_trim.
  - intros n v Hp. assert (X : tidy_param ops (n, v)) by (apply T; auto; intros q []). exact X.
Qed.
Lemma read_entries_built : forall F (ops : q_ops F) ps acc es, read_entries ops acc ps = Some es -> (List.length acc <= 10)%nat -> Forall built acc ->
  (List.length es <= 10)%nat /\ Forall built es /\ (Forall (settled [44]) ps -> Forall (tidy ops) acc -> Forall (tidy ops) es).
Proof.
  intros F ops. induction ps as [|p ps IH]; intros acc es H L B; cbn [read_entries] in H; [assert (es = acc) as -> by congruence; auto|].
  destruct (MAX_ENTRIES <=? llen acc) eqn:X; [discriminate|]. apply N.leb_gt in X. unfold MAX_ENTRIES, llen in X. destruct (str_eqb (trim p) []).
  - destruct (IH acc es H L B) as (A & C & D). refine (conj A (conj C _)). intros S. inversion S; auto.
  - destruct (read_entry ops (trim p)) as [e|] eqn:E; [|discriminate]. apply read_entry_built in E as [E1 E2]. destruct (IH _ es H) as (A & C & D).
    + rewrite app_length. cbn. lia.
    + apply Forall_app. auto.
    + refine (conj A (conj C _)). intros S T. inversion S; subst. apply D; [assumption|]. apply Forall_app. split; [exact T|]. constructor; [|constructor]. apply E2. now apply settled_trim.
Qed.
(** C164: what is read has between one and ten entries, each within the limits; if all
    quotes in the text are closed then it is read back when it is written *)
Theorem C164_read : forall F (ops : q_ops F) s es, parse ops s = Some es ->
  es <> [] /\ (List.length es <= 10)%nat /\ (forall e, In e es -> within e) /\ (settled [] s -> parse ops (show es) = Some es).
Proof.
  intros F ops s es H. unfold parse in H. destruct (read_entries ops [] (split_unquoted 44 false false s)) as [es'|] eqn:E; [|discriminate].
  assert (es' = es /\ es <> []) as [-> N]. { destruct es' as [|e r]; [discriminate|]. unfold header_new in H. destruct (_ <? _); [discriminate|]. split; congruence. }
  clear H. apply read_entries_built in E as (L & B & T); [|cbn; lia|constructor]. rewrite Forall_forall in B. refine (conj N (conj L (conj _ _))).
  - intros e He. now apply C164_limits, B.
  - intros S. specialize (T (split_pieces 44 [] s S) (Forall_nil _)). rewrite Forall_forall in T. apply C164_roundtrip; auto.
Qed.
Print Assumptions C164_read.
(** C164 fails for texts with an open quote: the parameters are sorted, and the quote
    then swallows the next one *)
Theorem C164_reread_refuted : forall F (ops : q_ops F), exists s es, parse ops s = Some es /\ parse ops (show es) <> Some es.
Proof.
  intros F ops. exists (lit "tls;b=1;a=""x"), [mkEntry Tls [(lit "a", Some (lit """x")); (lit "b", Some (lit "1"))]]. split; [vm_compute; reflexivity|].
  assert (X : parse ops (show [mkEntry Tls [(lit "a", Some (lit """x")); (lit "b", Some (lit "1"))]]) = Some [mkEntry Tls [(lit "a", Some (lit """x;b=1"))]]) by (vm_compute; reflexivity).
  rewrite X. intros H. assert (Y : [(lit "a", Some (lit """x;b=1"))] = [(lit "a", Some (lit """x")); (lit "b", Some (lit "1"))]) by congruence. discriminate Y.
Qed.
Print Assumptions C164_reread_refuted.
(** C164 fails for values with separators: a value can add a mechanism that nobody set *)
Theorem C164_values_refuted : forall F (ops : q_ops F), exists e es e', built e /\ e_mech e = Digest /\ parse ops (show [e]) = Some es /\ In e' es /\ e_mech e' = Tls.
Proof.
  intros F ops. exists (mkEntry Digest [(lit "d-alg", Some (lit "MD5, tls"))]), [mkEntry Digest [(lit "d-alg", Some (lit "MD5"))]; mkEntry Tls []], (mkEntry Tls []).
  refine (conj _ (conj eq_refl (conj _ (conj _ eq_refl)))); [|vm_compute; reflexivity|right; now left].
  apply (b_set (entry_new Digest) (lit "d-alg") (Some (lit "MD5, tls"))); [apply b_new|vm_compute; reflexivity].
Qed.
Print Assumptions C164_values_refuted.
Example C164_ex : let e := mkEntry Digest [(lit "d-alg", Some (lit """a, b""")); (lit "q", Some (lit "0.5"))] in built e /\ tidy milli_ops e /\ settled [] (lit "digest;d-alg=""a, b"";q=0.5").
Proof.
  cbv zeta. refine (conj _ (conj (conj _ (conj _ _)) _)).
  - apply (b_set (mkEntry Digest [(lit "d-alg", Some (lit """a, b"""))]) (lit "q") (Some (lit "0.5"))); [|vm_compute; reflexivity].
    apply (b_set (entry_new Digest) (lit "d-alg") (Some (lit """a, b"""))); [apply b_new|vm_compute; reflexivity].
  - reflexivity.
  - apply settled_plain. cbn. intros c Hc. lia.
  - intros n v [H|[H|[]]]; inversion H; subst; clear H.
    + split; [apply settled_plain; cbn; intros c Hc; lia|]. intros t Ht. assert (t = lit """a, b""") as -> by congruence. refine (conj _ (conj eq_refl _)); [|discriminate].
      apply (s_quoted _ (lit "a, b") []); [|constructor]. repeat (apply y_char; [discriminate..|]). constructor.
    + split; [apply settled_plain; cbn; intros c Hc; lia|]. intros t Ht. assert (t = lit "0.5") as -> by congruence. refine (conj _ (conj eq_refl _)); [|discriminate].
      apply settled_plain. cbn. intros c Hc. lia.
  - change (lit "digest;d-alg=""a, b"";q=0.5") with (lit "digest;d-alg=" ++ (34 :: lit "a, b" ++ 34 :: lit ";q=0.5")). apply settled_app; [apply settled_plain; cbn; intros c Hc; lia|].
    apply s_quoted; [repeat (apply y_char; [discriminate..|]); constructor|]. apply settled_plain. cbn. intros c Hc. lia.
Qed.

(** ** Parameters and preferences *)
(** C165: a parameter is accepted iff the entry has fewer than 20 of them, the name has at
    most 64 bytes without blanks, control characters and separators, and the value at most
    256 bytes without control characters *)
Theorem C165_params : forall e n v, built e ->
  ((exists e', set_param e n v = Some e') <-> (List.length (e_params e) < 20)%nat /\ (word n /\ forall c, In c n -> c <> 59 /\ c <> 61 /\ c <> 44)
     /\ forall t, v = Some t -> blen t <= 256 /\ forall c, In c t -> is_control c = false)
  /\ forall e', set_param e n v = Some e' -> e_mech e' = e_mech e
     /\ ((forall k, In k (keys (e_params e)) -> eq_ic k n = true -> k = n) -> forall k, get_param e' k = if eq_ic n k then Some v else get_param e k).
Proof.
  intros e n v B. apply C164_limits in B as (_ & SK & _). split.
  - split.
    + intros [e' H]. apply set_iff in H as (A & C & D & _). auto.
    + intros (A & C & D). exists (mkEntry (e_mech e) (bput n v (e_params e))). apply set_iff. auto.
  - intros e' H. apply set_iff in H as (_ & _ & _ & ->). split; [reflexivity|]. intros U k. unfold get_param. cbn [e_params]. clear - U. induction (e_params e) as [|[x w] r IH].
    + cbn [bput find fst]. now destruct (eq_ic n k).
    + cbn [bput]. destruct (str_eqb n x) eqn:E.
      * apply str_eqb_spec in E. subst x. cbn [find fst]. now destruct (eq_ic n k).
      * assert (Hx : eq_ic x n = false). { destruct (eq_ic x n) eqn:Y; [|reflexivity]. rewrite (U x (or_introl eq_refl) Y), str_eqb_refl in E. discriminate. }
        destruct (str_ltb n x).
        -- cbn [find fst]. now destruct (eq_ic n k).
        -- cbn [find fst]. destruct (eq_ic x k) eqn:Xk.
           ++ cbn [snd]. destruct (eq_ic n k) eqn:Nk; [|reflexivity]. apply eq_ic_spec in Xk, Nk. assert (eq_ic x n = true) by (apply eq_ic_spec; congruence). congruence.
           ++ apply IH. intros y Hy. apply U. now right.
Qed.
Print Assumptions C165_params.
(** C165: the preference that is set is the one that is read, unless the entry has a "Q"
    parameter *)
Theorem C165_preference : forall F (ops : q_ops F) e q e', built e -> set_preference ops e q = Some e' -> (forall v, ~ In (lit "Q", v) (e_params e)) -> preference ops e' = q_read ops (q_show ops q).
Proof.
  intros F ops e q e' B H N. unfold set_preference in H. destruct (q_valid ops q); [|discriminate]. apply (C165_params e (lit "q") (Some (q_show ops q)) B) in H as [_ H]. unfold preference.
  rewrite H; [reflexivity|]. intros k Hk E. apply eq_ic_spec in E. change (lower (lit "q")) with [113] in E. destruct k as [|c [|]]; try discriminate E. cbn [lower map] in E. assert (lower_c c = 113) by congruence.
  unfold lower_c, is_upper, in_range in H0. destruct ((65 <=? c) && (c <=? 90)) eqn:X; [|now subst c]. assert (c = 81) by lia. subst c. apply in_map_iff in Hk as ([k' v] & E1 & E2). cbn in E1. subst k'. exfalso. exact (N v E2).
Qed.
Print Assumptions C165_preference.
(** C165 fails for entries read with a "Q" parameter, which hides the preference that is
    set afterwards *)
Theorem C165_spelling_refuted : exists e e', parse milli_ops (lit "tls;Q=0.1") = Some [e] /\ set_preference milli_ops e 900 = Some e' /\ preference milli_ops e' = Some 100.
Proof. exists (mkEntry Tls [(lit "Q", Some (lit "0.1"))]), (mkEntry Tls [(lit "Q", Some (lit "0.1")); (lit "q", Some (lit "0.9"))]). repeat split; vm_compute; reflexivity. Qed.
Print Assumptions C165_spelling_refuted.
(** C165 fails for full entries: a parameter that is there cannot be changed *)
Theorem C165_full_refuted : exists e, built e /\ (List.length (e_params e) = 20)%nat /\ forall n v, set_param e n v = None.
Proof.
  assert (X : forall k, (k <= 20)%nat -> exists e, built e /\ List.length (e_params e) = k /\ forall n, In n (keys (e_params e)) -> (List.length n <= k)%nat).
  { induction k as [|k IH]; intros Hk; [exists (entry_new Tls); split; [apply b_new|]; split; [reflexivity|contradiction]|]. destruct (IH ltac:(lia)) as (e & B & L & K).
    assert (S0 := proj1 (proj2 (C164_limits e B))). set (n := List.repeat 97 (Datatypes.S k)). assert (Ln : List.length n = Datatypes.S k) by apply repeat_length.
    assert (C97 : forall c, In c n -> c = 97) by (intros c Hc; exact (repeat_spec _ _ _ Hc)).
    assert (Bn : forall j, blen (List.repeat 97 j) = N.of_nat j). { induction j as [|j IHj]; [reflexivity|]. cbn [List.repeat blen]. rewrite IHj. change (len_utf8 97) with 1. lia. }
    assert (H : set_param e n None = Some (mkEntry (e_mech e) (bput n None (e_params e)))).
    { apply set_iff. refine (conj _ (conj (conj (conj _ (conj _ _)) _) (conj _ eq_refl))); [lia|discriminate|unfold n; rewrite Bn; lia|intros c Hc; apply C97 in Hc; subst c; now split|intros c Hc; apply C97 in Hc; lia|discriminate]. }
    exists (mkEntry (e_mech e) (bput n None (e_params e))). split; [exact (b_set _ _ _ _ B H)|]. cbn [e_params]. split.
    - rewrite <- L. clear - K Ln. induction (e_params e) as [|[x w] r IH]; [reflexivity|]. cbn [bput]. destruct (str_eqb n x) eqn:E.
      + apply str_eqb_spec in E. subst x. specialize (K n (or_introl eq_refl)). lia.
      + destruct (str_ltb n x); [reflexivity|]. cbn [List.length]. rewrite IH; [reflexivity|]. intros y Hy. apply K. now right.
    - intros y Hy. apply bput_keys in Hy as [->|Hy]; [lia|]. apply K in Hy. lia. }
  destruct (X 20%nat ltac:(lia)) as (e & B & L & _). exists e. refine (conj B (conj L _)). intros n v. destruct (set_param e n v) eqn:E; [|reflexivity]. apply set_iff in E as (H & _). lia.
Qed.
Print Assumptions C165_full_refuted.

(** ** The best match *)
Lemma mech_eqb_iff : forall a b, mech_eqb a b = true <-> a = b.
Proof.
  intros [] []; cbn; split; intros H; try discriminate; try reflexivity; [apply str_eqb_spec in H; now subst|apply str_eqb_spec; congruence].
Qed.
Lemma partner_some : forall client s c, partner client s = Some c <-> answers client s c.
Proof.
  intros client s c. unfold partner, answers. split.
  - induction client as [|x r IH]; [discriminate|]. cbn [find]. destruct (mech_eqb (e_mech x) (e_mech s)) eqn:E.
    + intros [= <-]. exists [], r. split; [reflexivity|]. split; [now apply mech_eqb_iff|contradiction].
    + intros H. destruct (IH H) as (a & b & -> & M & N). exists (x :: a), b. split; [reflexivity|]. split; [exact M|]. intros y [<-|Hy]; [|now apply N]. intros K. apply mech_eqb_iff in K. congruence.
  - intros (a & b & -> & M & N). induction a as [|x a IH]; cbn [app find].
    + apply mech_eqb_iff in M. now rewrite M.
    + destruct (mech_eqb (e_mech x) (e_mech s)) eqn:E; [apply mech_eqb_iff in E; exfalso; exact (N x (or_introl eq_refl) E)|]. apply IH. intros y Hy. apply N. now right.
Qed.
Lemma partner_none : forall client s, partner client s = None <-> forall c, In c client -> e_mech c <> e_mech s.
Proof.
  intros client s. unfold partner. split.
  - intros H c Hc K. apply mech_eqb_iff in K. pose proof (find_none _ _ H c Hc) as X. cbn in X. congruence.
  - intros H. destruct (find _ client) as [c|] eqn:E; [|reflexivity]. apply find_some in E as [A B]. apply mech_eqb_iff in B. exfalso. exact (H c A B).
Qed.
(** [e] with score [q] is the best of [l]: the first of those that none is above *)
Definition best_of {F} (ops : q_ops F) (client l : list entry) (o : option (entry * F)) : Prop :=
  match o with
  | None => forall s, In s l -> partner client s = None
  | Some (e, q) => exists a b c, l = a ++ e :: b /\ partner client e = Some c /\ q = q_mul ops (weight ops e) (weight ops c)
      /\ (forall s d, In s a -> partner client s = Some d -> q_gt ops q (q_mul ops (weight ops s) (weight ops d)) = true)
      /\ (forall s d, In s b -> partner client s = Some d -> q_gt ops (q_mul ops (weight ops s) (weight ops d)) q = false)
  end.
Lemma best_step : forall F (ops : q_ops F) client server l o, ranks (q_gt ops) -> best_of ops client l o -> best_of ops client (l ++ server) (best_from ops o server client).
Proof.
  intros F ops client. induction server as [|s r IH]; intros l o R H; [cbn; now rewrite app_nil_r|]. cbn [best_from]. replace (l ++ s :: r) with ((l ++ [s]) ++ r) by (rewrite <- app_assoc; reflexivity).
  destruct (partner client s) as [d|] eqn:P.
  - cbv zeta. destruct o as [[e q]|].
    + destruct (q_gt ops (q_mul ops (weight ops s) (weight ops d)) q) eqn:G; apply IH; auto.
      * destruct H as (a & b & c & -> & Hc & -> & H1 & H2). exists (a ++ e :: b), [], d. refine (conj eq_refl (conj P (conj eq_refl (conj _ _)))); [|contradiction].
        destruct R as [R1 R2]. intros x y Hx Hy. apply in_app_iff in Hx as [Hx|[<-|Hx]].
        -- destruct (R2 _ (q_mul ops (weight ops x) (weight ops y)) _ G) as [K|K]; [exact K|]. apply R1 in K. rewrite (H1 x y Hx Hy) in K. discriminate.
        -- assert (y = c) as -> by congruence. exact G.
        -- destruct (R2 _ (q_mul ops (weight ops x) (weight ops y)) _ G) as [K|K]; [exact K|]. rewrite (H2 x y Hx Hy) in K. discriminate.
      * destruct H as (a & b & c & -> & Hc & -> & H1 & H2). exists a, (b ++ [s]), c. refine (conj _ (conj Hc (conj eq_refl (conj H1 _)))); [rewrite <- app_assoc; reflexivity|].
        intros x y Hx Hy. apply in_app_iff in Hx as [Hx|[<-|[]]]; [now apply (H2 x)|]. assert (y = d) as -> by congruence. exact G.
    + apply IH; auto. exists l, [], d. refine (conj eq_refl (conj P (conj eq_refl (conj _ _)))); [|contradiction]. intros x y Hx Hy. rewrite (H x Hx) in Hy. discriminate.
  - apply IH; auto. destruct o as [[e q]|].
    + destruct H as (a & b & c & -> & Hc & -> & H1 & H2). exists a, (b ++ [s]), c. refine (conj _ (conj Hc (conj eq_refl (conj H1 _)))); [rewrite <- app_assoc; reflexivity|].
      intros x y Hx Hy. apply in_app_iff in Hx as [Hx|[<-|[]]]; [now apply (H2 x)|]. congruence.
    + intros x Hx. apply in_app_iff in Hx as [Hx|[<-|[]]]; auto.
Qed.
(** C165: the best match is none iff no mechanism is in both lists, and otherwise the first
    server entry whose preference, multiplied by that of the client's first entry for the
    same mechanism, is the highest *)
Theorem C165_best : forall F (ops : q_ops F) server client, ranks (q_gt ops) ->
  match find_best_match ops server client with
  | None => forall s c, In s server -> In c client -> e_mech c <> e_mech s
  | Some e => exists a b c, server = a ++ e :: b /\ answers client e c
      /\ (forall s d, In s a -> answers client s d -> q_gt ops (q_mul ops (weight ops e) (weight ops c)) (q_mul ops (weight ops s) (weight ops d)) = true)
      /\ (forall s d, In s b -> answers client s d -> q_gt ops (q_mul ops (weight ops s) (weight ops d)) (q_mul ops (weight ops e) (weight ops c)) = false)
  end.
Proof.
  intros F ops server client R. pose proof (best_step F ops client server [] None R) as H. assert (H0 : best_of ops client [] None) by (intros ? []). specialize (H H0). cbn [app] in H. unfold find_best_match.
  destruct (best_from ops None server client) as [[e q]|].
  - destruct H as (a & b & c & -> & Hc & -> & H1 & H2). exists a, b, c. refine (conj eq_refl (conj _ (conj _ _))); [now apply partner_some|..]; intros s d Hs Hd; apply partner_some in Hd; eauto.
  - intros s c Hs Hc. specialize (H s Hs). apply partner_none with (client := client); auto.
Qed.
Print Assumptions C165_best.
Example C165_best_ex : ranks (q_gt milli_ops)
  /\ find_best_match milli_ops [mkEntry Tls [(lit "q", Some (lit "0.2"))]; mkEntry Digest [(lit "q", Some (lit "0.5"))]] [mkEntry Digest []; mkEntry Tls [(lit "q", Some (lit "1"))]]
     = Some (mkEntry Tls [(lit "q", Some (lit "0.2"))]).
Proof. split; [|vm_compute; reflexivity]. split; cbn; intros; lia. Qed.
(** C165 fails if the client lists a mechanism twice: only the first entry counts *)
Theorem C165_twice_refuted : exists server client e c, In e server /\ In c client /\ e_mech c = e_mech e
  /\ exists b, find_best_match milli_ops server client = Some b
  /\ forall d, In d client -> e_mech d = e_mech b -> q_gt milli_ops (q_mul milli_ops (weight milli_ops e) (weight milli_ops c)) (q_mul milli_ops (weight milli_ops b) (weight milli_ops d)) = true.
Proof.
  set (e := mkEntry Tls [(lit "q", Some (lit "1"))]). set (b := mkEntry Digest [(lit "q", Some (lit "1"))]). set (c1 := mkEntry Tls [(lit "q", Some (lit "0.1"))]). set (c3 := mkEntry Digest [(lit "q", Some (lit "0.5"))]).
  exists [e; b], [c1; e; c3], e, e. refine (conj (or_introl eq_refl) (conj (or_intror (or_introl eq_refl)) (conj eq_refl _))). exists b. split; [vm_compute; reflexivity|].
  intros d [<-|[<-|[<-|[]]]] H; try discriminate H. vm_compute. reflexivity.
Qed.
Print Assumptions C165_twice_refuted.
(** C165: verification succeeds iff the mechanism is listed, whatever its parameters *)
Theorem C165_verify : forall verify s, matches verify s = true <-> exists e, In e verify /\ e_mech e = e_mech s.
Proof.
  intros verify s. unfold matches. rewrite existsb_exists. split; intros (e & A & B); exists e; split; auto; now apply mech_eqb_iff.
Qed.
Print Assumptions C165_verify.

(** ** Order of preference *)
Lemma insert_perm : forall F (ops : q_ops F) e l, Permutation (insert ops e l) (e :: l).
Proof. intros F ops e l. induction l as [|x r IH]; [reflexivity|]. cbn [insert]. destruct (q_above _ _ _); [|reflexivity]. rewrite IH. apply perm_swap. Qed.
Fixpoint descending {F} (ops : q_ops F) (l : list entry) : Prop :=
  match l with [] => True | e :: r => (forall x, In x r -> q_above ops (weight ops x) (weight ops e) = false) /\ descending ops r end.
Lemma insert_sorted : forall F (ops : q_ops F) e l, ranks (q_above ops) -> descending ops l -> descending ops (insert ops e l).
Proof.
  intros F ops e l [R1 R2]. induction l as [|x r IH]; [cbn; tauto|]. intros [D1 D2]. cbn [insert]. destruct (q_above ops (weight ops x) (weight ops e)) eqn:E; cbn [descending].
  - split; [|now apply IH]. intros y Hy. apply (Permutation_in _ (insert_perm F ops e r)) in Hy as [<-|Hy]; [now apply R1|now apply D1].
  - split; [|split; assumption]. intros y [<-|Hy]; [exact E|]. destruct (q_above ops (weight ops y) (weight ops e)) eqn:Y; [|reflexivity]. destruct (R2 _ (weight ops x) _ Y) as [K|K]; [rewrite (D1 y Hy) in K|]; congruence.
Qed.
Lemma insert_filter : forall F (ops : q_ops F) q e l, ranks (q_above ops) ->
  filter (fun x => same_rank (q_above ops) q (weight ops x)) (insert ops e l) = filter (fun x => same_rank (q_above ops) q (weight ops x)) (e :: l).
Proof.
  intros F ops q e l [R1 R2]. induction l as [|x r IH]; [reflexivity|]. cbn [insert]. destruct (q_above ops (weight ops x) (weight ops e)) eqn:E; [|reflexivity]. cbn [filter] in *. rewrite IH.
  destruct (same_rank (q_above ops) q (weight ops x)) eqn:A, (same_rank (q_above ops) q (weight ops e)) eqn:B; try reflexivity. exfalso. unfold same_rank in A, B. apply andb_prop in A as [A1 A2], B as [B1 B2].
  apply negb_true_iff in A1, A2, B1, B2. destruct (R2 _ q _ E); congruence.
Qed.
(** C165: the entries sorted by preference are the same entries, none below one that is
    less preferred, and equals in the order they had *)
Theorem C165_sorted : forall F (ops : q_ops F) l, ranks (q_above ops) ->
  Permutation (sorted_by_preference ops l) l
  /\ (forall a x b y c, sorted_by_preference ops l = a ++ x :: b ++ y :: c -> q_above ops (weight ops y) (weight ops x) = false)
  /\ forall q, filter (fun x => same_rank (q_above ops) q (weight ops x)) (sorted_by_preference ops l) = filter (fun x => same_rank (q_above ops) q (weight ops x)) l.
Proof.
  intros F ops l R. refine (conj _ (conj _ _)).
  - induction l as [|e l IH]; [reflexivity|]. cbn [sorted_by_preference]. rewrite insert_perm. now constructor.
  - assert (D : descending ops (sorted_by_preference ops l)). { induction l as [|e l IH]; [exact I|]. cbn [sorted_by_preference]. now apply insert_sorted. }
    intros a x b y c E. rewrite E in D. clear E. induction a as [|z a IH]; [|apply IH; exact (proj2 D)]. destruct D as [D _]. apply D. apply in_or_app. right. now left.
  - intros q. induction l as [|e l IH]; [reflexivity|]. cbn [sorted_by_preference]. rewrite (insert_filter F ops q e _ R). cbn [filter]. now rewrite IH.
Qed.
Print Assumptions C165_sorted.
(** C165: an entry counts with its "q", and with the lowest preference if it has none *)
Theorem C165_weight : forall F (ops : q_ops F) e,
  (forall v q, get_param e (lit "q") = Some (Some v) -> q_read ops v = Some q -> weight ops e = q)
  /\ ((forall n v, In (n, v) (e_params e) -> lower n <> lit "q") -> weight ops e = q_default ops).
Proof.
  intros F ops e. unfold weight, preference. split.
  - intros v q -> E. now rewrite E.
  - intros H. unfold get_param. destruct (find (fun p => eq_ic (fst p) (lit "q")) (e_params e)) as [[n v]|] eqn:E; [|reflexivity]. apply find_some in E as (A & B). apply eq_ic_spec in B. elim (H n v A). exact B.
Qed.
Print Assumptions C165_weight.
Lemma one_part : forall sep s, ~ In 34 s -> ~ In sep s -> split_unquoted sep false false s = [s].
Proof.
  intros sep s. induction s as [|c s IH]; intros A B; [reflexivity|]. cbn [split_unquoted andb]. destruct (N.eqb_spec c 34); [subst; elim A; now left|]. destruct (N.eqb_spec c sep); [subst; elim B; now left|]. cbn [andb]. rewrite IH; [reflexivity|intros X; apply A; now right|intros X; apply B; now right].
Qed.
(** C164: a "q" that is no number is left out, and the entry is kept without it *)
Theorem C164_bad_q : forall F (ops : q_ops F) v, ~ In 34 v -> ~ In 44 v -> ~ In 59 v -> trim v = v -> v <> [] -> q_read ops v = None -> parse ops (lit "tls;q=" ++ v) = Some [mkEntry Tls []].
Proof.
  intros F ops v A B C T N0 Q. assert (S1 : split_unquoted 44 false false (lit "tls;q=" ++ v) = [lit "tls;q=" ++ v]).
  { apply one_part; intros X; apply in_app_or in X as [X|X]; try contradiction; cbn in X; lia. }
  assert (S2 : split_unquoted 59 false false (lit "tls;q=" ++ v) = [lit "tls"; lit "q=" ++ v]).
  { assert (X : split_unquoted 59 false false (lit "q=" ++ v) = [lit "q=" ++ v]) by (apply one_part; intros X; apply in_app_or in X as [X|X]; try contradiction; cbn in X; lia). change (split_unquoted 59 false false (lit "tls;q=" ++ v)) with (put_first 116 (put_first 108 (put_first 115 ([] :: split_unquoted 59 false false (lit "q=" ++ v))))). now rewrite X. }
  assert (E1 : trim (lit "tls;q=" ++ v) = lit "tls;q=" ++ v) by (apply edgeless_app; [discriminate|exact N0|reflexivity|exact T]).
  assert (E2 : trim (lit "q=" ++ v) = lit "q=" ++ v) by (apply edgeless_app; [discriminate|exact N0|reflexivity|exact T]).
  unfold parse. rewrite S1. cbn [read_entries]. change (MAX_ENTRIES <=? llen []) with false. cbn iota. rewrite E1. change (str_eqb (lit "tls;q=" ++ v) []) with false. cbn iota. unfold read_entry. rewrite S2. change (str_eqb (trim (lit "tls")) []) with false. cbn iota. change (mech_parse (trim (lit "tls"))) with (Some Tls). cbn [read_params]. unfold read_param. rewrite E2. cbv zeta. change (str_eqb (lit "q=" ++ v) []) with false. cbn iota.
  change (split_once_unquoted 61 false false (lit "q=" ++ v)) with (Some (lit "q", v)). cbn iota. rewrite T. change (eq_ic (trim (lit "q")) (lit "q")) with true. cbn iota. rewrite Q. reflexivity.
Qed.
Print Assumptions C164_bad_q.
Example C164_bad_q_ex : q_read milli_ops (lit "high") = None /\ parse milli_ops (lit "tls;q=high") = Some [mkEntry Tls []].
Proof. split; vm_compute; reflexivity. Qed.
