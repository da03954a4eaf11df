(** Properties of asserted and preferred identities, access and visited networks. *)
From Coq Require Import Arith NArith Bool String List Lia ZifyBool ZifyN ZifyNat.
Import ListNotations.
From Verif Require Import Base Text BaseFacts TextFacts TypedFacts Uri UriProofs AnyUri Auth History HistorySpec P_History PIdent PIdentSpec.
Open Scope N_scope.
Open Scope list_scope.

(** ** What can be built keeps the limits *)
Lemma plain_iff : forall s, negb (existsb is_ascii_control s) = true <-> forall c, In c s -> 32 <= c /\ c <> 127.
Proof.
  intros s. rewrite negb_true_iff, <- not_true_iff_false, existsb_exists. split.
  - intros H c Hc. assert (X : is_ascii_control c <> true) by (intros X; apply H; now exists c). unfold is_ascii_control in X. lia.
  - intros H (c & Hc & X). apply H in Hc. unfold is_ascii_control in X. lia.
Qed.
Lemma text_iff : forall s, pvalue_ok s = true <-> blen s <= 256 /\ forall c, In c s -> 32 <= c /\ c <> 127.
Proof. intros s. unfold pvalue_ok. rewrite andb_true_iff, plain_iff, N.leb_le. tauto. Qed.
Lemma lower_name : forall n, good_name n -> good_name (lower n).
Proof.
  intros n (A & B & C). refine (conj _ (conj _ _)); [destruct n; [contradiction|discriminate]|rewrite blen_lower; exact B|]. intros c Hc. unfold lower in Hc. apply in_map_iff in Hc as (x & <- & Hx). apply C in Hx. unfold lower_c. destruct (is_upper x) eqn:E; [|exact Hx]. unfold is_upper, in_range in E. left. lia.
Qed.
Definition well (i : pident) : Prop := within_limits i /\ sorted_keys (pi_params i).
Lemma well_from : forall u, well (pi_from u).
Proof. intros u. split; [|exact I]. refine (conj _ (conj _ _)); [cbn; lia|discriminate|intros k v []]. Qed.
Lemma well_name : forall i n i', well i -> pi_with_name i n = Some i' -> well i'.
Proof.
  intros i n i' ((A & B & C) & D) H. unfold pi_with_name in H. destruct (name_ok n) eqn:E; [|discriminate]. injection H as <-. split; [|exact D]. refine (conj A (conj _ C)). intros m X. cbn [pi_name] in X. assert (m = n) by congruence. subst m. now apply text_iff.
Qed.
Lemma well_add : forall i n v i', well i -> pi_add i n v = Some i' -> well i'.
Proof.
  intros i n v i' ((A & B & C) & D) H. unfold pi_add in H. destruct (add_param pvalue_ok (pi_params i) n v) as [m|] eqn:E; [|discriminate]. injection H as <-. apply add_iff in E as (E1 & E2 & E3 & E4 & ->). split; [|now apply bput_sorted]. refine (conj _ (conj B _)); cbn [pi_params].
  - pose proof (bput_llen (lower n) v (pi_params i)) as X. unfold llen in X. lia.
  - intros k w X. apply bput_in in X as [X|X]; [|now apply C]. assert (k = lower n /\ w = v) as (-> & ->) by (split; congruence). refine (conj (lower_name n E1) (conj (lower_idem n) _)). destruct v; [now apply text_iff|exact I].
Qed.
(** C174: whatever is built from a URI, a name and parameters keeps the limits *)
Theorem C174_built : forall i, pid_built i -> within_limits i.
Proof. intros i H. apply (proj1 (A := within_limits i) (B := sorted_keys (pi_params i))). change (well i). induction H; [apply well_from|now apply (well_name i n)|now apply (well_add i n v)]. Qed.
Print Assumptions C174_built.
Lemma built_well : forall i, pid_built i -> well i.
Proof. intros i H. induction H; [apply well_from|now apply (well_name i n)|now apply (well_add i n v)]. Qed.

(** ** Cutting a list of identities *)
Fixpoint walk (q a : bool) (s : str) : option (bool * bool) :=
  match s with
  | [] => Some (q, a)
  | c :: r => if (c =? 44) && negb q && negb a then None
              else walk (if c =? 34 then negb q else q) (if q then a else if c =? 60 then true else if c =? 62 then false else a) r
  end.
Lemma walk_app : forall s t q a q' a', walk q a s = Some (q', a') -> walk q a (s ++ t) = walk q' a' t.
Proof. induction s as [|c s IH]; intros t q a q' a' H; cbn [walk app] in *; [now assert (q = q' /\ a = a') as (-> & ->) by (split; congruence)|]. destruct ((c =? 44) && negb q && negb a); [discriminate|]. now apply IH. Qed.
Lemma cut_some : forall s q a, exists h t, cut_ids q a s = h :: t.
Proof. induction s as [|c s IH]; intros q a; cbn [cut_ids]; [now exists [], []|]. destruct ((c =? 44) && negb q && negb a); [eexists; eexists; reflexivity|]. match goal with |- context [cut_ids ?x ?y s] => destruct (IH x y) as (h & t & ->) end. eexists; eexists; reflexivity. Qed.
Lemma cut_walk : forall s q a q' a' r h t, walk q a s = Some (q', a') -> cut_ids q' a' r = h :: t -> cut_ids q a (s ++ r) = (s ++ h) :: t.
Proof.
  induction s as [|c s IH]; intros q a q' a' r h t H K; cbn [walk app cut_ids] in *; [now assert (q = q' /\ a = a') as (-> & ->) by (split; congruence)|].
  destruct ((c =? 44) && negb q && negb a); [discriminate|]. now rewrite (IH _ _ _ _ _ _ _ H K).
Qed.
Lemma walk_quoted : forall s a, without (lit """") s -> walk true a s = Some (true, a).
Proof.
  induction s as [|c s IH]; intros a H; [reflexivity|]. cbn [walk]. rewrite andb_false_r. cbn [andb]. replace (c =? 34) with false; [apply IH; intros x Hx; apply H; now right|]. symmetry. apply N.eqb_neq. intros ->. apply (H 34); [now left|now left].
Qed.
Lemma walk_angle : forall s, without (lit """<>") s -> walk false true s = Some (false, true).
Proof.
  induction s as [|c s IH]; intros H; [reflexivity|]. cbn [walk negb]. rewrite andb_false_r. replace (c =? 34) with false; [|symmetry; apply N.eqb_neq; intros ->; apply (H 34); [now left|now left]].
  replace (c =? 62) with false; [|symmetry; apply N.eqb_neq; intros ->; apply (H 62); [now left|right; right; now left]]. replace (if c =? 60 then true else true) with true by (now destruct (c =? 60)). apply IH. intros x Hx. apply H. now right.
Qed.
Lemma walk_plain : forall s, without (lit """<,") s -> walk false false s = Some (false, false).
Proof.
  induction s as [|c s IH]; intros H; [reflexivity|]. cbn [walk negb]. replace (c =? 34) with false; [|symmetry; apply N.eqb_neq; intros ->; apply (H 34); [now left|now left]].
  replace (c =? 60) with false; [|symmetry; apply N.eqb_neq; intros ->; apply (H 60); [now left|right; now left]]. replace (c =? 44) with false; [|symmetry; apply N.eqb_neq; intros ->; apply (H 44); [now left|right; right; now left]].
  cbn [andb]. replace (if c =? 62 then false else false) with false by (now destruct (c =? 62)). apply IH. intros x Hx. apply H. now right.
Qed.
Lemma without_app : forall b s t, without b s -> without b t -> without b (s ++ t).
Proof. intros b s t A B c Hc. apply in_app_iff in Hc as [Hc|Hc]; auto. Qed.
Lemma without_less : forall b b' s, without b s -> (forall c, In c b' -> In c b) -> without b' s.
Proof. intros b b' s A B c Hc X. apply (A c Hc). now apply B. Qed.
Lemma name_without : forall n, good_name n -> without (lit """<>,;= ") n.
Proof. intros n (_ & _ & H) c Hc X. apply H in Hc. unfold letter in Hc. cbn in X, Hc. lia. Qed.
Lemma tail_plain : forall k v, good_name k -> (forall t, v = Some t -> clean_value t) -> without (lit """<,") (show_param (k, v)).
Proof.
  intros k v K V. unfold show_param. cbn [fst snd]. apply without_app; [intros c [<-|[]]; cbn; lia|]. apply without_app; [apply (without_less _ _ _ (name_without k K)); cbn; tauto|].
  destruct v as [t|]; [|intros c []]. apply without_app; [intros c [<-|[]]; cbn; lia|]. destruct (V t eq_refl) as (_ & W). apply (without_less _ _ _ W). cbn. tauto.
Qed.
Lemma params_plain : forall ps, (forall k v, In (k, v) ps -> good_name k /\ forall t, v = Some t -> clean_value t) -> without (lit """<,") (flat_map show_param ps).
Proof.
  induction ps as [|(k, v) ps IH]; intros H; [intros c []|]. cbn [flat_map]. apply without_app; [|apply IH; intros k' v' X; apply H; now right]. destruct (H k v (or_introl eq_refl)) as (A & B). now apply tail_plain.
Qed.
Definition ready (i : pident) : Prop := well i /\ clean i.
Lemma ready_params : forall i, ready i -> forall k v, In (k, v) (pi_params i) -> good_name k /\ forall t, v = Some t -> clean_value t.
Proof. intros i (((_ & _ & A) & _) & (_ & _ & B)) k v H. split; [now apply (A k v)|]. intros t ->. now apply (B k). Qed.
Lemma show_walk : forall i, ready i -> walk false false (pi_show i) = Some (false, false).
Proof.
  intros i R. assert (P := params_plain _ (ready_params i R)). destruct R as (_ & ((_ & _ & U) & N0 & _)). unfold pi_show.
  assert (T : walk false false (lit "<" ++ any_text (pi_uri i) ++ lit ">" ++ flat_map show_param (pi_params i)) = Some (false, false)).
  { cbn [lit app]. change (walk false true (any_text (pi_uri i) ++ 62 :: flat_map show_param (pi_params i)) = Some (false, false)). rewrite (walk_app _ _ _ _ _ _ (walk_angle _ U)). change (walk false false (flat_map show_param (pi_params i)) = Some (false, false)). now apply walk_plain. }
  destruct (pi_name i) as [n|]; [|exact T]. destruct (N0 n eq_refl) as (_ & N1). rewrite <- !app_assoc. change (walk true false (n ++ lit """ " ++ lit "<" ++ any_text (pi_uri i) ++ lit ">" ++ flat_map show_param (pi_params i)) = Some (false, false)). rewrite (walk_app _ _ _ _ _ _ (walk_quoted n false N1)). exact T.
Qed.
Lemma cut_shown : forall l, l <> [] -> (forall i, In i l -> ready i) -> cut_ids false false (ids_show l) = match map pi_show l with [] => [] | h :: t => h :: map (fun x => 32 :: x) t end.
Proof.
  induction l as [|i l IH]; intros N0 H; [contradiction|]. unfold ids_show in *. destruct l as [|j l].
  - cbn [map join]. rewrite <- (app_nil_r (pi_show i)) at 1. rewrite (cut_walk (pi_show i) false false false false [] [] [] (show_walk i (H i (or_introl eq_refl))) eq_refl). now rewrite app_nil_r.
  - cbn [map] in *. change (join (lit ", ") (pi_show i :: pi_show j :: map pi_show l)) with (pi_show i ++ lit ", " ++ join (lit ", ") (pi_show j :: map pi_show l)).
    assert (IH' := IH ltac:(discriminate) (fun x Hx => H x (or_intror Hx))). rewrite (cut_walk (pi_show i) false false false false _ [] ((32 :: pi_show j) :: map (fun x => 32 :: x) (map pi_show l)) (show_walk i (H i (or_introl eq_refl)))).
    + now rewrite app_nil_r.
    + set (J := join (lit ", ") (pi_show j :: map pi_show l)) in *. change (lit ", " ++ J) with (44 :: 32 :: J). change (cut_ids false false (44 :: 32 :: J)) with ([] :: (match cut_ids false false J with h :: t => (32 :: h) :: t | [] => [[32]] end)). now rewrite IH'.
Qed.

(** ** One identity *)
Lemma letter_ws : forall c, letter c -> is_ws c = false.
Proof. intros c H. unfold letter in H. unfold is_ws, in_range. cbn in H. lia. Qed.
Lemma name_edgeless : forall n, good_name n -> edgeless n.
Proof. intros n (_ & _ & H). apply edgeless_words. apply forallb_forall. intros c Hc. rewrite (letter_ws c); [reflexivity|now apply H]. Qed.
Definition tail (p : str * option str) : str := fst p ++ match snd p with Some v => lit "=" ++ v | None => [] end.
Lemma tail_edgeless : forall k v, good_name k -> (forall t, v = Some t -> clean_value t) -> edgeless (tail (k, v)) /\ tail (k, v) <> [] /\ mem 59 (tail (k, v)) = false.
Proof.
  intros k v K V. assert (E := name_edgeless k K). assert (W := name_without k K). destruct K as (N0 & _). unfold tail. cbn [fst snd]. refine (conj _ (conj _ _)).
  - destruct v as [t|]; [|now rewrite app_nil_r]. destruct (V t eq_refl) as (T & _). destruct t as [|c t].
    + rewrite app_nil_r. apply edgeless_app; [exact N0|discriminate|exact E|reflexivity].
    + apply edgeless_ends; [exact N0|discriminate|exact E|exact T].
  - destruct k; [contradiction|discriminate].
  - apply not_true_iff_false. rewrite mem_In. intros X. apply in_app_iff in X as [X|X]; [apply (W 59 X); cbn; tauto|]. destruct v as [t|]; [|destruct X]. destruct X as [X|X]; [discriminate|]. destruct (V t eq_refl) as (_ & T). apply (T 59 X). cbn. tauto.
Qed.
Lemma tails_split : forall ps, (forall k v, In (k, v) ps -> good_name k /\ forall t, v = Some t -> clean_value t) -> split_on 59 (flat_map show_param ps) = [] :: map tail ps.
Proof.
  assert (G : forall ps a, mem 59 a = false -> (forall k v, In (k, v) ps -> good_name k /\ forall t, v = Some t -> clean_value t) -> split_on 59 (a ++ flat_map show_param ps) = a :: map tail ps).
  { induction ps as [|(k, v) ps IH]; intros a A H; cbn [flat_map map].
    - rewrite app_nil_r. now apply split_on_nomem.
    - change (show_param (k, v)) with (59 :: tail (k, v)). change ((59 :: tail (k, v)) ++ flat_map show_param ps) with (59 :: (tail (k, v) ++ flat_map show_param ps)). rewrite split_on_app by exact A. f_equal. apply IH; [|intros k' v' X; apply H; now right]. destruct (H k v (or_introl eq_refl)) as (H1 & H2). now apply tail_edgeless. }
  intros ps H. exact (G ps [] eq_refl H).
Qed.
Lemma add_tails : forall ps i, settled (pi_params i ++ ps) -> (List.length (pi_params i ++ ps) <= 20)%nat ->
  (forall k v, In (k, v) ps -> good_name k /\ forall t, v = Some t -> clean_value t /\ pvalue_ok t = true) ->
  add_parts i (map tail ps) = Some (mkPid (pi_name i) (pi_uri i) (pi_params i ++ ps)).
Proof.
  induction ps as [|(k, v) ps IH]; intros i S1 L H; cbn [map add_parts].
  - rewrite app_nil_r. now destruct i.
  - destruct (H k v (or_introl eq_refl)) as (K & V). destruct (tail_edgeless k v K (fun t X => proj1 (V t X))) as (T1 & T2 & _). rewrite T1. destruct (tail (k, v)) as [|c t0] eqn:E; [contradiction|]. rewrite <- E.
    assert (NX : pi_params i ++ (k, v) :: ps = (pi_params i ++ [(k, v)]) ++ ps) by (now rewrite <- app_assoc).
    assert (LN : lower k = k) by (apply (proj2 S1 k v); apply in_elt). assert (AB := sorted_split (pi_params i) ps k v (proj1 S1)).
    assert (A : pi_add i k v = Some (mkPid (pi_name i) (pi_uri i) (pi_params i ++ [(k, v)]))).
    { unfold pi_add. assert (Z : add_param pvalue_ok (pi_params i) k v = Some (pi_params i ++ [(k, v)])); [|now rewrite Z]. apply add_iff. refine (conj K (conj _ (conj _ (conj _ _)))).
      - destruct v as [t|]; [now apply (V t)|exact I].
      - rewrite app_length in L. cbn [List.length] in L. lia.
      - rewrite LN. now apply above.
      - rewrite LN. symmetry. now apply bput_last. }
    assert (Q : (match split_once 61 (tail (k, v)) with Some (n, v0) => pi_add i (trim n) (Some (trim v0)) | None => pi_add i (tail (k, v)) None end) = pi_add i k v).
    { assert (NM : mem 61 k = false) by (apply not_true_iff_false; rewrite mem_In; intros X; apply (name_without k K 61 X); cbn; tauto). unfold tail. cbn [fst snd]. destruct v as [t|].
      - assert (Z : split_once 61 (k ++ lit "=" ++ t) = Some (k, t)) by exact (split_once_app 61 k t NM). rewrite Z. rewrite (name_edgeless k K : trim k = k). destruct (V t eq_refl) as ((T & _) & _). now rewrite T.
      - rewrite app_nil_r. apply split_once_none in NM. now rewrite NM. }
    rewrite Q, A. rewrite IH; cbn [pi_params pi_name pi_uri]; [now rewrite <- NX|now rewrite <- NX|now rewrite <- NX|]. intros k' v' X. apply H. now right.
Qed.
Lemma open_quoted : forall s r, without (lit """") s -> to_open true (s ++ 34 :: r) = match to_open false r with Some (Some (a, b)) => Some (Some (s ++ 34 :: a, b)) | o => o end.
Proof.
  induction s as [|c s IH]; intros r H; cbn [app to_open negb andb].
  - cbn. destruct (to_open false r) as [[(a, b)|]|]; reflexivity.
  - replace (c =? 34) with false; [|symmetry; apply N.eqb_neq; intros ->; apply (H 34); [now left|now left]]. rewrite IH; [|intros x Hx; apply H; now right]. destruct (to_open false r) as [[(a, b)|]|]; reflexivity.
Qed.
Lemma close_plain : forall s r, without (lit """<>") s -> to_close false (s ++ 62 :: r) = Some (s, r).
Proof.
  induction s as [|c s IH]; intros r H; cbn [app to_close negb andb]; [reflexivity|]. replace (c =? 34) with false; [|symmetry; apply N.eqb_neq; intros ->; apply (H 34); [now left|now left]].
  replace (c =? 60) with false; [|symmetry; apply N.eqb_neq; intros ->; apply (H 60); [now left|right; now left]]. replace (c =? 62) with false; [|symmetry; apply N.eqb_neq; intros ->; apply (H 62); [now left|right; right; now left]]. rewrite IH; [reflexivity|intros x Hx; apply H; now right].
Qed.
Lemma edgeless_cat : forall a b, edgeless a -> edgeless b -> edgeless (a ++ b).
Proof. intros [|x a] b A B; [exact B|]. destruct b as [|y b]; [now rewrite app_nil_r|]. apply edgeless_app; [discriminate|discriminate|exact A|exact B]. Qed.
Lemma params_edgeless : forall ps, (forall k v, In (k, v) ps -> good_name k /\ forall t, v = Some t -> clean_value t) -> edgeless (flat_map show_param ps).
Proof.
  induction ps as [|(k, v) ps IH]; intros H; [reflexivity|]. cbn [flat_map]. apply edgeless_cat; [|apply IH; intros k' v' X; apply H; now right]. destruct (H k v (or_introl eq_refl)) as (A & B). change (edgeless ([59] ++ tail (k, v))). apply edgeless_cat; [reflexivity|]. now apply tail_edgeless.
Qed.
Lemma show_edgeless : forall i, ready i -> edgeless (pi_show i).
Proof.
  intros i R. assert (P := params_edgeless _ (ready_params i R)). unfold pi_show. set (F := flat_map show_param (pi_params i)) in *. destruct (pi_name i) as [n|].
  - replace ((lit """" ++ n ++ lit """ ") ++ lit "<" ++ any_text (pi_uri i) ++ lit ">" ++ F) with ((lit """" ++ (n ++ lit """ <" ++ any_text (pi_uri i)) ++ lit ">") ++ F) by (rewrite <- !app_assoc; reflexivity). apply edgeless_cat; [|exact P]. apply edgeless_ends; [discriminate|discriminate|reflexivity|reflexivity].
  - change ([] ++ lit "<" ++ any_text (pi_uri i) ++ lit ">" ++ F) with (lit "<" ++ any_text (pi_uri i) ++ lit ">" ++ F). replace (lit "<" ++ any_text (pi_uri i) ++ lit ">" ++ F) with ((lit "<" ++ any_text (pi_uri i) ++ lit ">") ++ F) by (rewrite <- !app_assoc; reflexivity). apply edgeless_cat; [|exact P]. apply edgeless_ends; [discriminate|discriminate|reflexivity|reflexivity].
Qed.
Lemma show_some : forall i, pi_show i <> [].
Proof. intros i. unfold pi_show. destruct (pi_name i); discriminate. Qed.
Lemma trim_space : forall s, trim (32 :: s) = trim s.
Proof. reflexivity. Qed.
Lemma quotes_off : forall n, clean_name n -> trim_by (N.eqb 34) (trim (34 :: n ++ [34; 32])) = n.
Proof.
  intros n (N0 & N1). assert (T : trim (34 :: n ++ [34; 32]) = 34 :: n ++ [34]).
  { change (34 :: n ++ [34; 32]) with ([34] ++ (n ++ [34; 32])). replace ([34] ++ (n ++ [34; 32])) with (([34] ++ n ++ [34]) ++ [32]) by (rewrite <- !app_assoc; reflexivity).
    assert (E : edgeless ([34] ++ n ++ [34])) by (apply edgeless_ends; [discriminate|discriminate|reflexivity|reflexivity]). unfold trim, trim_by, trim_start_by. unfold edgeless, trim, trim_by, trim_start_by in E. rewrite !trim_end_by_rev in *.
    assert (D : forall x, drop_while is_ws (([34] ++ n ++ [34]) ++ x) = ([34] ++ n ++ [34]) ++ x) by reflexivity. rewrite D, rev_app_distr. cbn [rev app drop_while]. change (is_ws 32) with true. cbv iota. exact E. }
  rewrite T. unfold trim_by, trim_start_by. rewrite trim_end_by_rev. change (34 :: n ++ [34]) with ([34] ++ n ++ [34]). cbn [app drop_while N.eqb Pos.eqb].
  assert (G : forall s r, without (lit """") s -> s <> [] -> drop_while (N.eqb 34) (s ++ r) = s ++ r).
  { intros [|c s] r H X; [contradiction|]. cbn [app drop_while]. replace (34 =? c) with false; [reflexivity|]. symmetry. apply N.eqb_neq. intros <-. apply (H 34); now left. }
  rewrite G by assumption. rewrite rev_app_distr. cbn [rev app drop_while N.eqb Pos.eqb]. rewrite <- (app_nil_r (rev n)). rewrite G.
  - rewrite app_nil_r. apply rev_involutive.
  - intros c Hc. apply in_rev in Hc. now apply N1.
  - intros X. apply N0. apply (f_equal (@rev N)) in X. rewrite rev_involutive in X. exact X.
Qed.
Lemma pid_read : forall i s, ready i -> trim s = pi_show i -> parse_pid s = Some i.
Proof.
  intros i s R T. unfold parse_pid. rewrite T. assert (NS0 := show_some i). destruct (pi_show i) as [|c0 s0] eqn:SH; [contradiction|]. rewrite <- SH. clear c0 s0 SH NS0 T s.
  assert (RP := ready_params i R). assert (PE := params_edgeless _ RP). destruct R as (((L & LN & LP) & SK) & ((U1 & U2 & U3) & N0 & CV)).
  set (F := flat_map show_param (pi_params i)) in *. set (u := any_text (pi_uri i)) in *.
  assert (CL : to_close false (u ++ 62 :: F) = Some (u, F)) by now apply close_plain.
  assert (AD : forall nm, (match trim F with [] => Some (mkPid nm (pi_uri i) []) | ps => add_params (mkPid nm (pi_uri i) []) ps end) = Some (mkPid nm (pi_uri i) (pi_params i))).
  { intros nm. rewrite PE. assert (A : add_params (mkPid nm (pi_uri i) []) F = Some (mkPid nm (pi_uri i) (pi_params i))).
    { unfold add_params, F. rewrite (tails_split _ RP). cbn [add_parts]. change (trim []) with (@nil N). cbv iota. apply add_tails; cbn [pi_params app].
      - split; [exact SK|]. intros k v X. now apply (LP k v).
      - exact L.
      - intros k v X. split; [now apply (LP k v)|]. intros t ->. split; [now apply (CV k)|]. apply text_iff. now apply (LP k (Some t)). }
    destruct F as [|c0 s0] eqn:E; [|exact A]. destruct (pi_params i) as [|(k, v) ps]; [reflexivity|discriminate E]. }
  destruct (pi_name i) as [n|] eqn:NM.
  - destruct (N0 n eq_refl) as (NA & NB). assert (OP : to_open false (pi_show i) = Some (Some (34 :: n ++ [34; 32], u ++ 62 :: F))).
    { unfold pi_show. rewrite NM. fold u F. rewrite <- !app_assoc. change (lit """" ++ n ++ lit """ " ++ lit "<" ++ u ++ lit ">" ++ F) with (34 :: (n ++ 34 :: 32 :: 60 :: (u ++ 62 :: F))). cbn [to_open negb andb]. cbn [N.eqb Pos.eqb]. rewrite open_quoted by exact NB. reflexivity. }
    rewrite OP, CL. cbv zeta. rewrite quotes_off by (now split). rewrite U2, U1. destruct n as [|c n]; [contradiction|]. unfold pi_with_name. assert (OK : name_ok (c :: n) = true) by (apply text_iff; now apply LN). rewrite OK. cbn [pi_from pi_uri pi_params]. rewrite AD. destruct i. cbn in NM |- *. now subst.
  - assert (OP : to_open false (pi_show i) = Some (Some ([], u ++ 62 :: F))) by (unfold pi_show; rewrite NM; reflexivity).
    rewrite OP, CL. cbv zeta. change (trim []) with (@nil N). change (trim_by (N.eqb 34) []) with (@nil N). cbv iota. rewrite U2, U1. unfold pi_from. rewrite AD. destruct i. cbn in NM |- *. now subst.
Qed.

(** ** Reading what was written *)
Theorem C174_roundtrip_partial : forall l, ids_new l = Some l -> (forall i, In i l -> pid_built i /\ clean i) -> parse_identities [ids_show l] = Some (Some l).
Proof.
  intros l H C. assert (R : forall i, In i l -> ready i) by (intros i Hi; destruct (C i Hi); split; [now apply built_well|assumption]). assert (N0 : l <> []) by (intros ->; discriminate).
  assert (SP : split_ids (ids_show l) = map pi_show l).
  { unfold split_ids. rewrite cut_shown by assumption. destruct l as [|i l]; [reflexivity|]. cbn [map]. rewrite (show_edgeless i (R i (or_introl eq_refl))). cbn [filter]. replace (str_eqb (pi_show i) []) with false by (symmetry; apply str_eqb_neq, show_some). cbn [negb]. f_equal.
    assert (R' : forall j, In j l -> ready j) by (intros j Hj; apply R; now right). clear - R'. induction l as [|j l IH]; [reflexivity|]. cbn [map]. rewrite trim_space, (show_edgeless j (R' j (or_introl eq_refl))). cbn [filter]. replace (str_eqb (pi_show j) []) with false by (symmetry; apply str_eqb_neq, show_some). cbn [negb]. f_equal. apply IH. intros x Hx. apply R'. now right. }
  assert (PL : parse_list (map pi_show l) = Some l).
  { clear - R. induction l as [|i l IH]; [reflexivity|]. cbn [map parse_list]. rewrite (pid_read i (pi_show i) (R i (or_introl eq_refl))); [|apply show_edgeless; apply R; now left]. rewrite IH; [reflexivity|intros x Hx; apply R; now right]. }
  unfold parse_identities. cbn [parse_pids]. rewrite SP, PL, app_nil_r. destruct l as [|i l]; [contradiction|]. now rewrite H.
Qed.
Print Assumptions C174_roundtrip_partial.
Lemma parts_well : forall ps i i', well i -> add_parts i ps = Some i' -> well i'.
Proof.
  induction ps as [|p ps IH]; intros i i' W H; cbn [add_parts] in H; [now assert (i = i') as <- by congruence|]. destruct (trim p) as [|c t]; [now apply (IH i)|]. destruct (split_once 61 (c :: t)) as [(n, v)|].
  - destruct (pi_add i (trim n) (Some (trim v))) as [j|] eqn:E; [|discriminate]. apply (IH j); [now apply (well_add i (trim n) (Some (trim v)))|exact H].
  - destruct (pi_add i (c :: t) None) as [j|] eqn:E; [|discriminate]. apply (IH j); [now apply (well_add i (c :: t) None)|exact H].
Qed.
Lemma pid_well : forall s i, parse_pid s = Some i -> well i.
Proof.
  intros s i H. unfold parse_pid in H. destruct (trim s) as [|c t]; [discriminate|]. destruct (to_open false (c :: t)) as [[(b, r)|]|]; [| |discriminate].
  - destruct (to_close false r) as [(u, f)|]; [|discriminate]. cbv zeta in H. destruct (parse_any (trim u)) as [x|]; [|discriminate].
    assert (G : forall j, well j -> (match trim f with [] => Some j | ps => add_params j ps end) = Some i -> well i).
    { intros j W X. destruct (trim f) as [|f0 f']; [now assert (j = i) as <- by congruence|]. exact (parts_well _ j i W X). }
    destruct (trim_by (N.eqb 34) (trim b)) as [|d0 d]; [now apply (G (pi_from x) (well_from x))|]. destruct (pi_with_name (pi_from x) (d0 :: d)) as [j|] eqn:E; [|discriminate]. apply (G j); [now apply (well_name (pi_from x) (d0 :: d) j (well_from x))|exact H].
  - destruct (split_once 59 (c :: t)) as [(u, ps)|].
    + destruct (parse_any (trim u)) as [x|]; [|discriminate]. exact (parts_well _ (pi_from x) i (well_from x) H).
    + destruct (parse_any (trim (c :: t))) as [x|]; [|discriminate]. assert (pi_from x = i) as <- by congruence. apply well_from.
Qed.
(** what is read has one to ten identities within the limits *)
Theorem C174_read : forall vs l, parse_identities vs = Some (Some l) -> (1 <= List.length l <= 10)%nat /\ forall i, In i l -> within_limits i.
Proof.
  assert (G : forall ps l, parse_list ps = Some l -> forall i, In i l -> well i).
  { induction ps as [|p ps IH]; intros l H i Hi; cbn [parse_list] in H; [assert (l = []) by congruence; subst; destruct Hi|]. destruct (parse_pid p) as [j|] eqn:E; [|discriminate]. destruct (parse_list ps) as [l'|]; [|discriminate]. assert (j :: l' = l) as <- by congruence. destruct Hi as [<-|Hi]; [now apply (pid_well p)|now apply (IH l')]. }
  assert (V : forall vs l, parse_pids vs = Some l -> forall i, In i l -> well i).
  { induction vs as [|v vs IH]; intros l H i Hi; cbn [parse_pids] in H; [assert (l = []) by congruence; subst; destruct Hi|]. destruct (parse_list (split_ids v)) as [a|] eqn:E; [|discriminate]. destruct (parse_pids vs) as [b|]; [|discriminate]. assert (a ++ b = l) as <- by congruence. apply in_app_iff in Hi as [Hi|Hi]; [now apply (G (split_ids v) a)|now apply (IH b)]. }
  intros vs l H. unfold parse_identities in H. destruct (parse_pids vs) as [m|] eqn:E; [|discriminate]. destruct m as [|i m]; [discriminate|]. unfold ids_new in H. destruct (10 <? llen (i :: m)) eqn:L; [discriminate|]. assert (i :: m = l) as <- by congruence. unfold llen in L. split; [cbn [List.length] in *; lia|]. intros j Hj. now apply (V vs (i :: m) E j).
Qed.
Print Assumptions C174_read.
(** the SIP identity and the telephone identity are the first of their kind *)
Theorem C174_first : forall f l, match first_text f l with
  | Some t => exists a i b, l = a ++ i :: b /\ f i = true /\ t = any_text (pi_uri i) /\ forall j, In j a -> f j = false
  | None => forall i, In i l -> f i = false
  end.
Proof.
  intros f l. unfold first_text. induction l as [|i l IH]; [intros i []|]. cbn [find]. destruct (f i) eqn:E.
  - exists [], i, l. repeat split; [exact E|intros j []].
  - destruct (find f l) as [x|].
    + destruct IH as (a & j & b & -> & A & B & C). exists (i :: a), j, b. repeat split; [exact A|exact B|]. intros k [<-|Hk]; auto.
    + intros j [<-|Hj]; auto.
Qed.
Print Assumptions C174_first.
Definition alice_uri : any_uri := match parse_any (lit "sip:alice@example.org") with Some u => u | None => AAbs [] end.
(** a name with a quotation mark is accepted and not escaped: who can choose the name can
    put another identity in front of the asserted one *)
Theorem C174_injected_refuted : exists i l, pid_built i /\ any_text (pi_uri i) = lit "sip:alice@example.org" /\ sip_identity [i] = Some (lit "sip:alice@example.org")
  /\ parse_identities [ids_show [i]] = Some (Some l) /\ sip_identity l = Some (lit "sip:mallory@example.net").
Proof.
  set (n := lit "x"" <sip:mallory@example.net>, ""y"). exists (mkPid (Some n) alice_uri []).
  destruct (parse_identities [ids_show [mkPid (Some n) alice_uri []]]) as [[l|]|] eqn:E; try (exfalso; vm_compute in E; discriminate). exists l. refine (conj _ (conj _ (conj _ (conj eq_refl _)))).
  - apply (pb_name (pi_from alice_uri) n); [apply pb_from|vm_compute; reflexivity].
  - vm_compute. reflexivity.
  - vm_compute. reflexivity.
  - pose proof (f_equal (fun o => match o with Some (Some l) => sip_identity l | _ => None end) E) as X. cbv beta iota in X. rewrite <- X. vm_compute. reflexivity.
Qed.
Print Assumptions C174_injected_refuted.
Example C174_case : exists i, pi_add (mkPid (Some (lit "Alice, A.")) alice_uri []) (lit "Screen") (Some (lit "yes")) = Some i /\ pid_built i /\ clean i /\ ids_new [i] = Some [i].
Proof.
  eexists. split; [vm_compute; reflexivity|]. refine (conj _ (conj _ eq_refl)).
  - apply (pb_add (mkPid (Some (lit "Alice, A.")) alice_uri []) (lit "Screen") (Some (lit "yes"))); [|vm_compute; reflexivity]. apply (pb_name (pi_from alice_uri) (lit "Alice, A.")); [apply pb_from|vm_compute; reflexivity].
  - refine (conj (conj _ (conj _ _)) (conj _ _)).
    + vm_compute. reflexivity.
    + vm_compute. reflexivity.
    + intros c Hc X. vm_compute in Hc, X. intuition congruence.
    + intros n X. cbn [pi_name] in X. injection X as <-. split; [discriminate|]. intros c Hc X. vm_compute in Hc, X. intuition congruence.
    + intros k v [X|[]]. injection X as <- <-. split; [vm_compute; reflexivity|]. intros c Hc X. vm_compute in Hc, X. intuition congruence.
Qed.

(** ** Access and visited networks *)
Definition fine_type (t : str) : Prop := t <> [] /\ blen t <= 64 /\ (forall c, In c t -> 32 <= c /\ c <> 127) /\ edgeless t /\ ~ In 59 t.
Lemma bounded_iff : forall mx s, bounded mx s = true <-> s <> [] /\ blen s <= mx /\ forall c, In c s -> 32 <= c /\ c <> 127.
Proof. intros mx s. unfold bounded. rewrite <- andb_assoc, andb_true_iff, andb_true_iff, blank_iff, plain_iff, N.leb_le. tauto. Qed.
Lemma quotes_id : forall v, without (lit """") v -> trim_by (N.eqb 34) v = v.
Proof.
  intros v H. apply trim_by_id. split.
  - destruct v as [|c v]; [exact I|]. apply N.eqb_neq. intros <-. apply (H 34); now left.
  - destruct (rev v) as [|c r] eqn:E; [exact I|]. apply N.eqb_neq. intros <-. apply (H 34); [|now left]. apply in_rev. rewrite E. now left.
Qed.
Lemma access_tails : forall ps a, settled (ac_params a ++ ps) -> (List.length (ac_params a ++ ps) <= 20)%nat ->
  (forall k v, In (k, v) ps -> good_name k /\ forall t, v = Some t -> clean_value t /\ pvalue_ok t = true) ->
  access_parts a (map tail ps) = Some (mkAccess (ac_type a) (ac_params a ++ ps)).
Proof.
  induction ps as [|(k, v) ps IH]; intros i S1 L H; cbn [map access_parts].
  - rewrite app_nil_r. now destruct i.
  - destruct (H k v (or_introl eq_refl)) as (K & V). destruct (tail_edgeless k v K (fun t X => proj1 (V t X))) as (T1 & T2 & _). rewrite T1. destruct (tail (k, v)) as [|c t0] eqn:E; [contradiction|]. rewrite <- E.
    assert (NX : ac_params i ++ (k, v) :: ps = (ac_params i ++ [(k, v)]) ++ ps) by (now rewrite <- app_assoc).
    assert (LN : lower k = k) by (apply (proj2 S1 k v); apply in_elt). assert (AB := sorted_split (ac_params i) ps k v (proj1 S1)).
    assert (A : access_add i k v = Some (mkAccess (ac_type i) (ac_params i ++ [(k, v)]))).
    { unfold access_add. assert (Z : add_param pvalue_ok (ac_params i) k v = Some (ac_params i ++ [(k, v)])); [|now rewrite Z]. apply add_iff. refine (conj K (conj _ (conj _ (conj _ _)))).
      - destruct v as [t|]; [now apply (V t)|exact I].
      - rewrite app_length in L. cbn [List.length] in L. lia.
      - rewrite LN. now apply above.
      - rewrite LN. symmetry. now apply bput_last. }
    assert (Q : (match split_once 61 (tail (k, v)) with Some (n, v0) => access_add i (trim n) (Some (trim_by (N.eqb 34) (trim v0))) | None => access_add i (tail (k, v)) None end) = access_add i k v).
    { assert (NM : mem 61 k = false) by (apply not_true_iff_false; rewrite mem_In; intros X; apply (name_without k K 61 X); cbn; tauto). unfold tail. cbn [fst snd]. destruct v as [t|].
      - assert (Z : split_once 61 (k ++ lit "=" ++ t) = Some (k, t)) by exact (split_once_app 61 k t NM). rewrite Z. rewrite (name_edgeless k K : trim k = k). destruct (V t eq_refl) as ((T & W) & _). rewrite T, quotes_id; [reflexivity|]. apply (without_less _ _ _ W). cbn. tauto.
      - rewrite app_nil_r. apply split_once_none in NM. now rewrite NM. }
    rewrite Q, A. rewrite IH; cbn [ac_params ac_type]; [now rewrite <- NX|now rewrite <- NX|now rewrite <- NX|]. intros k' v' X. apply H. now right.
Qed.
(** C175: an access type with distinct parameters (sorted, in lower case) is read as written *)
Theorem C175_access : forall t ps, fine_type t -> sorted_keys ps -> (List.length ps <= 20)%nat ->
  (forall k v, In (k, v) ps -> good_name k /\ lower k = k /\ forall x, v = Some x -> clean_value x /\ blen x <= 256 /\ forall c, In c x -> 32 <= c /\ c <> 127) ->
  parse_access (t ++ flat_map show_param ps) = Some (mkAccess t ps).
Proof.
  intros t ps (T1 & T2 & T3 & T4 & T5) S1 L H. unfold parse_access.
  assert (SP : split_on 59 (t ++ flat_map show_param ps) = t :: map tail ps).
  { assert (M : mem 59 t = false) by (apply not_true_iff_false; rewrite mem_In; exact T5). assert (P : forall k v, In (k, v) ps -> good_name k /\ forall x, v = Some x -> clean_value x) by (intros k v X; destruct (H k v X) as (A & _ & B); split; [exact A|]; intros x Y; now apply (B x)).
    pose proof (tails_split ps P) as Q. destruct ps as [|(k, v) ps]; [cbn [flat_map map]; rewrite app_nil_r; now apply split_on_nomem|]. cbn [flat_map] in *. change (show_param (k, v)) with (59 :: tail (k, v)) in *. change ((59 :: tail (k, v)) ++ flat_map show_param ps) with (59 :: (tail (k, v) ++ flat_map show_param ps)) in *. rewrite split_on_app by exact M. f_equal.
    cbn [split_on] in Q. rewrite N.eqb_refl in Q. injection Q as Q. exact Q. }
  rewrite SP, T4. unfold access_new. assert (B : bounded 64 t = true) by (apply bounded_iff; auto). rewrite B. apply (access_tails ps (mkAccess t [])).
  - split; [exact S1|]. intros k v X. now apply (H k v).
  - exact L.
  - intros k v X. destruct (H k v X) as (A & _ & C). split; [exact A|]. intros x Y. destruct (C x Y) as (C1 & C2). split; [exact C1|now apply text_iff].
Qed.
Print Assumptions C175_access.
(** what is read keeps the limits *)
Theorem C175_limits : forall s a, parse_access s = Some a ->
  (ac_type a <> [] /\ blen (ac_type a) <= 64 /\ forall c, In c (ac_type a) -> 32 <= c /\ c <> 127) /\ within_limits (mkPid None alice_uri (ac_params a)).
Proof.
  intros s a H. unfold parse_access in H. destruct (split_on 59 s) as [|t ps]; [discriminate|]. unfold access_new in H. destruct (bounded 64 (trim t)) eqn:B; [|discriminate]. apply bounded_iff in B.
  assert (G : forall ps x y, well (mkPid None alice_uri (ac_params x)) -> access_parts x ps = Some y -> ac_type y = ac_type x /\ well (mkPid None alice_uri (ac_params y))).
  { assert (AD : forall x n v y, well (mkPid None alice_uri (ac_params x)) -> access_add x n v = Some y -> ac_type y = ac_type x /\ well (mkPid None alice_uri (ac_params y))).
    { intros x n v y W X. unfold access_add in X. destruct (add_param pvalue_ok (ac_params x) n v) as [m|] eqn:E; [|discriminate]. injection X as <-. split; [reflexivity|]. apply (well_add (mkPid None alice_uri (ac_params x)) n v); [exact W|]. unfold pi_add. cbn [pi_params pi_name pi_uri ac_params]. now rewrite E. }
    clear - AD. induction ps as [|p ps IH]; intros x y W X; cbn [access_parts] in X; [assert (x = y) as <- by congruence; now split|]. destruct (trim p) as [|c t]; [now apply (IH x)|]. destruct (split_once 61 (c :: t)) as [(n, v)|].
    - destruct (access_add x (trim n) (Some (trim_by (N.eqb 34) (trim v)))) as [z|] eqn:E; [|discriminate]. apply AD in E as (E1 & E2); [|exact W]. destruct (IH z y E2 X) as (F1 & F2). split; [congruence|exact F2].
    - destruct (access_add x (c :: t) None) as [z|] eqn:E; [|discriminate]. apply AD in E as (E1 & E2); [|exact W]. destruct (IH z y E2 X) as (F1 & F2). split; [congruence|exact F2]. }
  apply (G ps (mkAccess (trim t) []) a (well_from alice_uri)) in H as (H1 & (H2 & _)). cbn [ac_type] in H1. rewrite H1. split; [exact B|exact H2].
Qed.
Print Assumptions C175_limits.
Theorem C175_visited : forall s l, parse_visited s = Some l -> (1 <= List.length l <= 20)%nat /\ forall x, In x l -> x <> [] /\ blen x <= 256 /\ edgeless x /\ forall c, In c x -> 32 <= c /\ c <> 127.
Proof.
  intros s l H. unfold parse_visited in H. destruct (split_quoted_commas 64 s) as [ps|]; [|discriminate]. set (m := filter _ _) in H. assert (E : forall x, In x m -> edgeless x) by (intros x Hx; apply filter_In in Hx as (Hx & _); apply in_map_iff in Hx as (y & <- & _); apply trim_edgeless).
  clearbody m. unfold visited_new in H. destruct m as [|x m]; [discriminate|]. destruct (20 <? llen (x :: m)) eqn:L; [discriminate|]. destruct (forallb (bounded 256) (x :: m)) eqn:F; [|discriminate]. assert (x :: m = l) as <- by congruence. unfold llen in L. split; [cbn [List.length] in *; lia|].
  intros y Hy. rewrite forallb_forall in F. specialize (F y Hy). apply bounded_iff in F as (A & B & C). refine (conj A (conj B (conj (E y Hy) C))).
Qed.
Print Assumptions C175_visited.
(** a semicolon inside quotation marks ends a parameter: a legal header is refused, or one parameter is read as two *)
Theorem C175_quoted_refuted : parse_access (lit "3GPP-UTRAN-TDD; utran-cell-id=""a;b""") = None
  /\ parse_access (lit "3GPP-UTRAN-TDD; utran-cell-id=""a;b=c""") = Some (mkAccess (lit "3GPP-UTRAN-TDD") [(lit "b", Some (lit "c")); (lit "utran-cell-id", Some (lit "a"))]).
Proof. split; vm_compute; reflexivity. Qed.
Print Assumptions C175_quoted_refuted.
Example C175_case : fine_type (lit "IEEE-802.11") /\ parse_access (lit "IEEE-802.11; Network=x; i-wlan-node-id=""00ff""") = Some (mkAccess (lit "IEEE-802.11") [(lit "i-wlan-node-id", Some (lit "00ff")); (lit "network", Some (lit "x"))])
  /\ parse_visited (lit """a, b"", other.net") = Some [lit "a, b"; lit "other.net"].
Proof.
  refine (conj _ (conj _ _)); [|vm_compute; reflexivity|vm_compute; reflexivity]. refine (conj _ (conj _ (conj _ (conj _ _)))); [discriminate|vm_compute; discriminate| |reflexivity|].
  - intros c Hc. vm_compute in Hc. lia.
  - intros X. vm_compute in X. lia.
Qed.
(** ** C174: the constructors for telephone numbers *)
Lemma tel_kept : forall s t, tel_parse s = Some t -> t_raw t = s.
Proof.
  intros s t H. unfold tel_parse in H. destruct (strip_prefix (lit "tel:") s) as [r|]; [|discriminate]. cbv zeta in H. destruct (negb (validate_number _)); [discriminate|].
  destruct (fold_opt _ _ _) as [[ps c]|]; [|discriminate]. destruct (negb _ && _); [discriminate|]. destruct (_ && _); [discriminate|]. injection H as <-. reflexivity.
Qed.
(** A number may be given with or without "tel:"; the header has this one identity, or
    the SIP identity and then this one. *)
Theorem C174_tel : forall number u l, starts_with (lit "tel:") number = false ->
  single_tel number = single_tel (lit "tel:" ++ number) /\ sip_and_tel u number = sip_and_tel u (lit "tel:" ++ number)
  /\ (single_tel number = Some l -> (List.length l = 1)%nat /\ tel_identity l = Some (lit "tel:" ++ number) /\ sip_identity l = None /\ ids_show l = lit "<tel:" ++ number ++ lit ">")
  /\ (sip_and_tel u number = Some l -> (List.length l = 2)%nat /\ tel_identity l = Some (lit "tel:" ++ number) /\ sip_identity l = Some (u_raw u)
      /\ ids_show l = lit "<" ++ u_raw u ++ lit ">, <tel:" ++ number ++ lit ">")
  /\ (single_tel number <> None <-> tel_parse (lit "tel:" ++ number) <> None) /\ (sip_and_tel u number <> None <-> tel_parse (lit "tel:" ++ number) <> None).
Proof.
  intros number u l H. assert (E : tel_of number = tel_of (lit "tel:" ++ number)) by (unfold tel_of; now rewrite H, starts_with_app).
  unfold single_tel, sip_and_tel. rewrite <- E. split; [reflexivity|]. split; [reflexivity|]. unfold tel_of. rewrite H.
  destruct (tel_parse (lit "tel:" ++ number)) as [t|] eqn:T.
  - apply tel_kept in T.
    split; [|split; [|split; split; intros; discriminate]]; intros G; injection G as <-; (split; [reflexivity|]).
    + unfold tel_identity, sip_identity, first_text. cbn [find is_tel is_sip pi_from pi_uri any_text]. rewrite T. split; [reflexivity|]. split; [reflexivity|].
      unfold ids_show. cbn [map join]. unfold pi_show. cbn [pi_name pi_uri pi_from pi_params any_text flat_map app]. rewrite T, app_nil_r. reflexivity.
    + unfold tel_identity, sip_identity, first_text. cbn [find is_tel is_sip pi_from pi_uri any_text]. rewrite T. split; [reflexivity|]. split; [reflexivity|].
      unfold ids_show. cbn [map join]. unfold pi_show. cbn [pi_name pi_uri pi_from pi_params any_text flat_map app]. rewrite T, !app_nil_r. rewrite <- !app_assoc. reflexivity.
  - split; [discriminate|]. split; [discriminate|]. split; split; intros X; now elim X.
Qed.
Print Assumptions C174_tel.
Example C174_tel_case : exists l, single_tel (lit "+15551234") = Some l /\ starts_with (lit "tel:") (lit "+15551234") = false.
Proof. eexists. split; vm_compute; reflexivity. Qed.
