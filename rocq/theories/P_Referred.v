(** Property C178: who referred the caller. *)
From Coq Require Import Arith NArith Bool String List Lia ZifyBool ZifyN ZifyNat.
Import ListNotations.
From Verif Require Import Base Text BaseFacts TextFacts TypedFacts Uri UriProofs AnyUri Msg History HistorySpec P_History PIdent PIdentSpec P_PIdent Referred ReferredSpec.
Open Scope N_scope.
Open Scope list_scope.

(** ** Reading never cuts out of range *)
Fixpoint odd (s : str) : bool := match s with [] => false | c :: r => if c =? 34 then negb (odd r) else odd r end.
Lemma open_odd : forall s q a b, to_open q s = Some (Some (a, b)) -> odd a = q.
Proof.
  induction s as [|c s IH]; intros q a b H; cbn [to_open] in H; [discriminate|]. destruct (negb q && (c =? 60)) eqn:E; [assert (a = []) as -> by congruence; destruct q; [discriminate|reflexivity]|]. destruct (negb q && (c =? 62)); [discriminate|].
  destruct (to_open (if c =? 34 then negb q else q) s) as [[(a', b')|]|] eqn:T; [|discriminate|discriminate]. assert (a = c :: a') as -> by congruence. apply IH in T. cbn [odd]. rewrite T. destruct (c =? 34); [apply negb_involutive|reflexivity].
Qed.
Lemma odd_app : forall a b, odd (a ++ b) = xorb (odd a) (odd b).
Proof. induction a as [|c a IH]; intros b; [cbn [app odd]; symmetry; apply xorb_false_l|]. cbn [app odd]. rewrite IH. destruct (c =? 34); [|reflexivity]. now destruct (odd a), (odd b). Qed.
Lemma odd_ws : forall w, forallb is_ws w = true -> odd w = false.
Proof. induction w as [|c w IH]; intros H; [reflexivity|]. cbn [forallb] in H. apply andb_true_iff in H as (A & B). cbn [odd]. replace (c =? 34) with false; [now apply IH|]. unfold is_ws, in_range in A. lia. Qed.
Lemma odd_trim : forall s, odd (trim s) = odd s.
Proof.
  intros s. unfold trim, trim_by, trim_start_by. rewrite trim_end_by_rev.
  assert (D : forall t, exists w, t = w ++ drop_while is_ws t /\ forallb is_ws w = true).
  { induction t as [|c t (w & E & W)]; [now exists []|]. cbn [drop_while]. destruct (is_ws c) eqn:C; [|now exists []]. exists (c :: w). cbn [app forallb]. rewrite C, W. split; [f_equal; exact E|reflexivity]. }
  assert (R : forall t, odd (rev t) = odd t) by (induction t as [|c t IH]; [reflexivity|]; cbn [rev]; rewrite odd_app, IH; cbn [odd]; destruct (c =? 34); now destruct (odd t)).
  rewrite R. destruct (D (rev (drop_while is_ws s))) as (w & E & W). destruct (D s) as (w' & E' & W'). pose proof (f_equal odd E) as X. rewrite odd_app, (odd_ws w W), R in X. pose proof (f_equal odd E') as Y. rewrite odd_app, (odd_ws w' W') in Y. rewrite !xorb_false_l in *. congruence.
Qed.
(** C178: reading never panics, whatever the text *)
Theorem C178_no_panic : forall s, parse_referred s <> Panics.
Proof.
  intros s. unfold parse_referred. destruct (2048 <? blen s); [discriminate|]. cbv zeta. destruct (to_open false (trim s)) as [[(b, r)|]|] eqn:O; [|discriminate|discriminate]. destruct (to_close false r) as [(u, f)|]; [|discriminate].
  apply open_odd in O. rewrite <- odd_trim in O. destruct (trim b) as [|c t] eqn:T; [cbn [display]; discriminate|]. unfold display. destruct (quoted (c :: t)) eqn:Q; [|discriminate]. destruct (llen (c :: t) =? 1) eqn:L; [|discriminate]. exfalso.
  destruct t as [|d t]; [|unfold llen in L; cbn [List.length] in L; lia]. cbn [odd] in O. destruct (c =? 34) eqn:C; [discriminate|]. apply N.eqb_neq in C. unfold quoted in Q. apply andb_true_iff in Q as (Q & _). apply starts_with_spec in Q as (r0 & Q). injection Q as Q _. now apply C.
Qed.
Print Assumptions C178_no_panic.

(** ** Limits *)
Lemma sorted_nodup : forall (m : list (str * str)), sorted_keys m -> NoDup (map fst m).
Proof.
  induction m as [|(k, v) m IH]; intros H; [constructor|]. destruct H as (A & B). cbn [map fst]. constructor; [|now apply IH]. intros X. assert (Z := A k X). now rewrite str_ltb_irrefl in Z.
Qed.
Lemma ctl_iff : forall s, negb (existsb is_ascii_control s) = true <-> no_controls s.
Proof. exact plain_iff. Qed.
Lemma cid_iff : forall s, cid_ok s = true <-> s <> [] /\ blen s <= 256 /\ no_controls s.
Proof. intros [|c s]; [split; [discriminate|intros (X & _); now elim X]|]. unfold cid_ok. rewrite andb_true_iff, ctl_iff, N.leb_le. split; [intros (A & B); split; [discriminate|tauto]|tauto]. Qed.
Lemma key_iff : forall s, key_ok s = true <-> s <> [] /\ blen s <= 64 /\ no_controls s.
Proof. intros [|c s]; [split; [discriminate|intros (X & _); now elim X]|]. unfold key_ok. rewrite andb_true_iff, ctl_iff, N.leb_le. split; [intros (A & B); split; [discriminate|tauto]|tauto]. Qed.
Lemma val_iff : forall s, val_ok s = true <-> blen s <= 256 /\ no_controls s.
Proof. intros s. unfold val_ok. rewrite andb_true_iff, ctl_iff, N.leb_le. tauto. Qed.
Lemma lower_controls : forall s, no_controls s -> no_controls (lower s).
Proof. intros s H c Hc. unfold lower in Hc. apply in_map_iff in Hc as (x & <- & Hx). apply H in Hx. unfold lower_c. destruct (is_upper x) eqn:E; [|exact Hx]. unfold is_upper, in_range in E. lia. Qed.
Definition pairs_ok (m : list (str * str)) : Prop :=
  sorted_keys m /\ (List.length m <= 20)%nat /\ forall k v, In (k, v) m -> k <> [] /\ blen k <= 64 /\ no_controls k /\ lower k = k /\ blen v <= 256 /\ no_controls v.
Lemma pairs_put : forall m n v, pairs_ok m -> (llen m < 20) -> key_ok n = true -> val_ok v = true -> pairs_ok (bput (lower n) v m).
Proof.
  intros m n v (A & B & C) L K V. apply key_iff in K as (K1 & K2 & K3). apply val_iff in V as (V1 & V2). refine (conj (bput_sorted _ _ _ A) (conj _ _)).
  - pose proof (bput_llen (lower n) v m) as X. unfold llen in *. lia.
  - intros k w X. apply bput_in in X as [X|X]; [|now apply C]. assert (k = lower n /\ w = v) as (-> & ->) by (split; congruence). refine (conj _ (conj _ (conj (lower_controls n K3) (conj (lower_idem n) (conj V1 V2))))); [destruct n; [contradiction|discriminate]|now rewrite blen_lower].
Qed.
Definition cid_fine (o : option str) : Prop := forall c, o = Some c -> c <> [] /\ blen c <= 256 /\ no_controls c.
Lemma part_ok : forall a p a', rf_part a p = Some a' -> cid_fine (fst a) /\ pairs_ok (snd a) -> cid_fine (fst a') /\ pairs_ok (snd a').
Proof.
  intros (c, m) p a' H (C & P). unfold rf_part in H. cbn [fst snd] in *. destruct (trim p) as [|x t]; [assert ((c, m) = a') as <- by congruence; now split|]. destruct (20 <=? llen m) eqn:L; [discriminate|]. destruct (split_once 61 (x :: t)) as [(k, v)|]; [|discriminate]. cbv zeta in H. set (w := if _ && _ then _ else _) in H. clearbody w.
  destruct (eq_ic (trim k) (lit "cid")).
  - destruct (cid_ok w) eqn:O; [|discriminate]. destruct c; [discriminate|]. assert ((Some w, m) = a') as <- by congruence. split; [|exact P]. intros d X. cbn [fst] in X. assert (w = d) as <- by congruence. now apply cid_iff.
  - destruct (key_ok (trim k) && val_ok w) eqn:O; [|discriminate]. apply andb_true_iff in O as (O1 & O2). destruct (bget (lower (trim k)) m); [discriminate|]. assert ((c, bput (lower (trim k)) w m) = a') as <- by congruence. split; [exact C|]. cbn [snd]. apply pairs_put; [exact P|lia|exact O1|exact O2].
Qed.
Lemma parts_ok : forall ps a a', rf_parts a ps = Some a' -> cid_fine (fst a) /\ pairs_ok (snd a) -> cid_fine (fst a') /\ pairs_ok (snd a').
Proof. induction ps as [|p ps IH]; intros a a' H G; cbn [rf_parts] in H; [now assert (a = a') as <- by congruence|]. destruct (rf_part a p) as [b|] eqn:E; [|discriminate]. apply (IH b); [exact H|]. now apply (part_ok a p). Qed.
Lemma make_ok : forall d u h, rf_make d u = Some h <-> (forall n, d = Some n -> blen n <= 256 /\ no_controls n) /\ h = mkRef d u None [].
Proof.
  intros d u h. unfold rf_make, na_new. cbn [forallb]. change (llen (@nil (str * option str)) <=? 64) with true. rewrite !andb_true_r. destruct d as [n|].
  - destruct (na_text 256 n) eqn:E; unfold na_text in E.
    + apply andb_true_iff in E as (E1 & E2). apply ctl_iff in E2. apply N.leb_le in E1. split; [intros X; split; [intros m Y; assert (m = n) as -> by congruence; now split|cbn [na_display na_uri] in X; congruence]|intros (_ & ->); reflexivity].
    + split; [discriminate|]. intros (X & _). destruct (X n eq_refl) as (X1 & X2). apply ctl_iff in X2. rewrite X2 in E. lia.
  - split; [intros X; split; [discriminate|cbn [na_display na_uri] in X; congruence]|intros (_ & ->); reflexivity].
Qed.
Lemma none_ok : cid_fine None /\ pairs_ok [].
Proof. split; [discriminate|]. refine (conj _ (conj _ _)); [exact I|cbn; lia|intros k v []]. Qed.
Lemma finish_ok : forall d u ps h, rf_finish d u ps = Some h -> rf_limits h.
Proof.
  intros d u ps h H. unfold rf_finish in H. destruct (parse_any u) as [x|]; [|discriminate]. destruct (rf_make d x) as [g|] eqn:M; [|discriminate]. apply make_ok in M as (M & ->). cbn [rf_name rf_uri] in H.
  assert (G : forall c m, (match ps with [] => Some (None, []) | _ => rf_parts (None, []) (split_on 59 ps) end) = Some (c, m) -> cid_fine c /\ pairs_ok m).
  { intros c m X. destruct ps as [|p0 ps]; [assert (c = None /\ m = []) as (-> & ->) by (split; congruence); apply none_ok|]. apply (parts_ok _ _ _ X). apply none_ok. }
  destruct (match ps with [] => Some (None, []) | _ => rf_parts (None, []) (split_on 59 ps) end) as [(c, m)|]; [|discriminate]. destruct (G c m eq_refl) as (C & (P1 & P2 & P3)). assert (mkRef d x c m = h) as <- by congruence. refine (conj M (conj C (conj P2 (conj (sorted_nodup m P1) P3)))).
Qed.
(** C178: whatever is read keeps the limits *)
Theorem C178_read : forall s h, parse_referred s = Ret (Some h) -> rf_limits h.
Proof.
  intros s h H. unfold parse_referred in H. destruct (2048 <? blen s); [discriminate|]. cbv zeta in H. destruct (to_open false (trim s)) as [[(b, r)|]|]; [| |discriminate].
  - destruct (to_close false r) as [(u, f)|]; [|discriminate]. destruct (display (trim b)) as [d|]; [|discriminate]. apply (finish_ok d u (trim f)). congruence.
  - destruct (split_once 59 (trim s)) as [(u, f)|]; [apply (finish_ok None u (trim (59 :: f)))|apply (finish_ok None (trim s) [])]; congruence.
Qed.
Print Assumptions C178_read.
Lemma built_ok : forall h, rf_built h -> (forall n, rf_name h = Some n -> blen n <= 256 /\ no_controls n) /\ cid_fine (rf_cid h) /\ pairs_ok (rf_params h).
Proof.
  intros h H. induction H as [d t h H|h c h' _ IH H|h n v h' _ IH H].
  - unfold rf_new in H. destruct (parse_uri t) as [u|]; [|discriminate]. apply make_ok in H as (H & ->). refine (conj H none_ok).
  - unfold rf_with_cid in H. destruct (cid_ok c) eqn:E; [|discriminate]. assert (mkRef (rf_name h) (rf_uri h) (Some c) (rf_params h) = h') as <- by congruence. destruct IH as (A & _ & B). refine (conj A (conj _ B)). intros x X. cbn [rf_cid] in X. assert (x = c) as -> by congruence. now apply cid_iff.
  - unfold rf_add, put_param in H. destruct (key_ok n && val_ok v && negb (20 <=? llen (rf_params h))) eqn:E; [|discriminate]. apply andb_true_iff in E as (E & L). apply andb_true_iff in E as (E1 & E2). destruct (bget (lower n) (rf_params h)); [discriminate|]. assert (mkRef (rf_name h) (rf_uri h) (rf_cid h) (bput (lower n) v (rf_params h)) = h') as <- by congruence.
    destruct IH as (A & B & C). refine (conj A (conj B _)). cbn [rf_params]. apply pairs_put; [exact C|lia|exact E1|exact E2].
Qed.
(** and so does whatever the API builds *)
Theorem C178_built : forall h, rf_built h -> rf_limits h.
Proof. intros h H. apply built_ok in H as (A & B & (C1 & C2 & C3)). refine (conj A (conj B (conj C2 (conj (sorted_nodup _ C1) C3)))). Qed.
Print Assumptions C178_built.

(** ** Writing and reading *)
Lemma pair_part : forall k v, without (lit "=;") k -> trim k = k -> k <> [] -> trim v = v -> without (lit ";") v ->
  edgeless (k ++ lit "=" ++ v) /\ mem 59 (k ++ lit "=" ++ v) = false /\ split_once 61 (k ++ lit "=" ++ v) = Some (k, v).
Proof.
  intros k v K T N0 V W. refine (conj _ (conj _ _)).
  - destruct v as [|c v]; [rewrite app_nil_r; apply edgeless_app; [exact N0|discriminate|exact T|reflexivity]|]. apply edgeless_ends; [exact N0|discriminate|exact T|exact V].
  - apply not_true_iff_false. rewrite mem_In. intros X. apply in_app_iff in X as [X|X]; [apply (K 59 X); cbn; tauto|]. destruct X as [X|X]; [discriminate|]. apply (W 59 X). cbn. tauto.
  - apply (split_once_app 61 k v). apply not_true_iff_false. rewrite mem_In. intros X. apply (K 61 X). cbn. tauto.
Qed.
Lemma ends_with_spec : forall p s, ends_with p s = true <-> exists r, s = r ++ p.
Proof.
  intros p s. unfold ends_with. rewrite starts_with_spec. split; intros (r & H).
  - exists (rev r). apply (f_equal (@rev N)) in H. now rewrite rev_app_distr, !rev_involutive in H.
  - exists (rev r). rewrite H. apply rev_app_distr.
Qed.
Lemma quoted_inv : forall s, quoted s = true -> s = [34] \/ exists x, s = 34 :: x ++ [34].
Proof.
  intros s H. unfold quoted in H. apply andb_true_iff in H as (A & B). apply starts_with_spec in A as (r & ->). change (lit """" ++ r) with (34 :: r) in *. apply ends_with_spec in B as (x & B). destruct x as [|c x]; cbn [app] in B.
  - left. exact B.
  - right. exists x. injection B as <- B. now rewrite B.
Qed.
Lemma inner_q : forall x, inner (34 :: x ++ [34]) = x.
Proof. intros x. unfold inner. cbn [tl]. apply removelast_last. Qed.
Lemma sorted_above : forall (a b : list (str * str)) n v, sorted_keys (a ++ (n, v) :: b) -> forall k, In k (keys a) -> str_ltb k n = true.
Proof.
  induction a as [|(k0, v0) a IH]; intros b n v S1 k Hk; [destruct Hk|]. cbn [app sorted_keys] in S1. destruct S1 as (A & B). destruct Hk as [<-|Hk]; [|now apply (IH b n v)]. apply A. unfold keys. rewrite map_app. apply in_app_iff. right. now left.
Qed.
Lemma not_there : forall (m : list (str * str)) k, (forall k', In k' (keys m) -> str_ltb k' k = true) -> bget k m = None.
Proof.
  induction m as [|(k0, v0) m IH]; intros k H; [reflexivity|]. unfold bget in *. cbn [lookup]. destruct (str_eqb k k0) eqn:E.
  - apply str_eqb_spec in E. subst k0. assert (X : str_ltb k k = true) by (apply H; now left). now rewrite str_ltb_irrefl in X.
  - apply IH. intros k' X. apply H. now right.
Qed.
Definition pair_clean (p : str * str) : Prop :=
  let (k, v) := p in trim k = k /\ without (lit "=;") k /\ k <> lit "cid" /\ trim v = v /\ without (lit ";") v /\ (forall x, v <> 34 :: x ++ [34]).
Definition pair_text (p : str * str) : str := fst p ++ lit "=" ++ snd p.
Lemma parts_read : forall ps c m, pairs_ok (m ++ ps) -> Forall pair_clean ps -> rf_parts (c, m) (map pair_text ps) = Some (c, m ++ ps).
Proof.
  induction ps as [|(k, v) ps IH]; intros c m P F; cbn [map rf_parts]; [now rewrite app_nil_r|]. assert (X0 := Forall_inv F); unfold pair_clean in X0; destruct X0 as (T & K & NC & TV & V & NQ); assert (F' := Forall_inv_tail F). destruct P as (S1 & L & P). destruct (P k v (in_elt _ _ _)) as (N0 & K2 & K3 & K4 & V1 & V2).
  destruct (pair_part k v K T N0 TV V) as (E & _ & SO). unfold rf_part, pair_text at 1. cbn [fst snd]. rewrite E. assert (NE : k ++ lit "=" ++ v <> []) by (destruct k; [now elim N0|discriminate]). destruct (k ++ lit "=" ++ v) as [|c0 s0] eqn:EQ; [now elim NE|]. rewrite app_length in L. cbn [List.length] in L. replace (20 <=? llen m) with false by (unfold llen; lia). rewrite SO. cbv zeta. rewrite T, TV.
  assert (Q : (2 <=? llen v) && quoted v = false). { destruct (quoted v) eqn:Q; [|apply andb_false_r]. apply quoted_inv in Q as [->|(x & Q)]; [reflexivity|]. exfalso. now apply (NQ x). }
  rewrite Q. replace (eq_ic k (lit "cid")) with false by (symmetry; apply not_true_iff_false; intros X; apply eq_ic_spec in X; rewrite K4 in X; now apply NC).
  assert (KO : key_ok k = true) by (apply key_iff; auto). assert (VO : val_ok v = true) by (apply val_iff; auto). rewrite KO, VO. cbn [andb]. rewrite K4. assert (AB := sorted_above m ps k v S1). rewrite not_there by exact AB. rewrite (bput_last k v m AB).
  assert (NX : m ++ (k, v) :: ps = (m ++ [(k, v)]) ++ ps) by (now rewrite <- app_assoc). rewrite NX. apply IH; [|exact F']. rewrite <- NX. refine (conj S1 (conj _ P)). rewrite app_length. cbn [List.length]. lia.
Qed.
Definition cid_text (o : option str) : str := match o with Some c => lit ";cid=""" ++ c ++ lit """" | None => [] end.
Lemma texts_split : forall ps a, mem 59 a = false -> Forall pair_clean ps -> (forall k v, In (k, v) ps -> k <> []) -> split_on 59 (a ++ flat_map show_pair ps) = a :: map pair_text ps.
Proof.
  induction ps as [|(k, v) ps IH]; intros a A F N0; cbn [flat_map map]; [rewrite app_nil_r; now apply split_on_nomem|]. assert (X0 := Forall_inv F); unfold pair_clean in X0; destruct X0 as (T & K & NC & TV & V & NQ); assert (F' := Forall_inv_tail F).
  change (show_pair (k, v)) with (59 :: pair_text (k, v)). change ((59 :: pair_text (k, v)) ++ flat_map show_pair ps) with (59 :: (pair_text (k, v) ++ flat_map show_pair ps)). rewrite split_on_app by exact A. f_equal. apply IH; [|exact F'|intros k' v' X; apply (N0 k' v'); now right]. now apply (pair_part k v K T (N0 k v (or_introl eq_refl)) TV V).
Qed.
Lemma texts_edgeless : forall ps, Forall pair_clean ps -> (forall k v, In (k, v) ps -> k <> []) -> edgeless (flat_map show_pair ps).
Proof.
  induction ps as [|(k, v) ps IH]; intros F N0; [reflexivity|]. assert (X0 := Forall_inv F); unfold pair_clean in X0; destruct X0 as (T & K & NC & TV & V & NQ); assert (F' := Forall_inv_tail F). cbn [flat_map]. apply edgeless_cat; [|apply IH; [exact F'|intros k' v' X; apply (N0 k' v'); now right]]. change (edgeless ([59] ++ pair_text (k, v))). apply edgeless_cat; [reflexivity|]. now apply (pair_part k v K T (N0 k v (or_introl eq_refl)) TV V).
Qed.
Lemma cid_part : forall c, cid_fine (Some c) -> without (lit ";") c -> rf_part (None, []) (lit "cid=""" ++ c ++ lit """") = Some (Some c, []) /\ mem 59 (lit "cid=""" ++ c ++ lit """") = false.
Proof.
  intros c C W. split.
  - unfold rf_part. assert (E : edgeless (lit "cid=""" ++ c ++ lit """")) by (apply edgeless_ends; [discriminate|discriminate|reflexivity|reflexivity]). rewrite E. destruct (lit "cid=""" ++ c ++ lit """") as [|c0 s0] eqn:EQ; [discriminate|]. rewrite <- EQ. cbn [fst snd]. change (20 <=? llen []) with false. cbv iota.
    assert (SO : split_once 61 (lit "cid=""" ++ c ++ lit """") = Some (lit "cid", 34 :: c ++ [34])) by reflexivity. rewrite SO. cbv zeta. change (trim (lit "cid")) with (lit "cid"). assert (T : trim (34 :: c ++ [34]) = 34 :: c ++ [34]) by (exact (edgeless_ends [34] c [34] ltac:(discriminate) ltac:(discriminate) eq_refl eq_refl)).
    rewrite T. assert (Q : quoted (34 :: c ++ [34]) = true) by (unfold quoted; apply andb_true_iff; split; [exact (starts_with_app [34] (c ++ [34]))|apply ends_with_spec; now exists (34 :: c)]). rewrite Q. replace (2 <=? llen (34 :: c ++ [34])) with true by (symmetry; apply N.leb_le; unfold llen; cbn [List.length]; rewrite app_length; cbn [List.length]; lia). cbn [andb]. rewrite inner_q. change (eq_ic (lit "cid") (lit "cid")) with true. cbv iota. destruct (C c eq_refl) as (C1 & C2 & C3). assert (O : cid_ok c = true) by (apply cid_iff; auto). now rewrite O.
  - apply not_true_iff_false. rewrite mem_In. intros X. apply in_app_iff in X as [X|X]; [vm_compute in X; lia|]. apply in_app_iff in X as [X|X]; [apply (W 59 X); now left|]. vm_compute in X. lia.
Qed.
(** C178: a clean header, written and read, is the same header *)
Theorem C178_roundtrip_partial : forall h, rf_built h -> rf_clean h -> blen (rf_show h) <= 2048 -> parse_referred (rf_show h) = Ret (Some h).
Proof.
  intros h B ((U1 & U2) & N0 & C & P) L. apply built_ok in B as (BN & BC & BP). assert (F : Forall pair_clean (rf_params h)) by (apply Forall_forall; intros (k, v) X; exact (P k v X)).
  assert (NE : forall k v, In (k, v) (rf_params h) -> k <> []) by (intros k v X; now apply (proj2 (proj2 BP) k v)).
  set (tailp := cid_text (rf_cid h) ++ flat_map show_pair (rf_params h)).
  assert (TE : edgeless tailp). { unfold tailp. apply edgeless_cat; [|now apply texts_edgeless]. destruct (rf_cid h) as [c|]; [|reflexivity]. apply edgeless_ends; [discriminate|discriminate|reflexivity|reflexivity]. }
  assert (FI : forall d, (forall n, d = Some n -> blen n <= 256 /\ no_controls n) -> rf_finish d (any_text (rf_uri h)) (trim tailp) = Some (mkRef d (rf_uri h) (rf_cid h) (rf_params h))).
  { intros d D. unfold rf_finish. rewrite U1. assert (M : rf_make d (rf_uri h) = Some (mkRef d (rf_uri h) None [])) by now apply make_ok. rewrite M. rewrite TE.
    assert (R : (match tailp with [] => Some (None, []) | _ => rf_parts (None, []) (split_on 59 tailp) end) = Some (rf_cid h, rf_params h)).
    { assert (R0 : tailp <> [] -> rf_parts (None, []) (split_on 59 tailp) = Some (rf_cid h, rf_params h)).
      { intros _. unfold tailp. destruct (rf_cid h) as [c|] eqn:EC; cbn [cid_text].
        - destruct (cid_part c BC (C c eq_refl)) as (R1 & R2). change (lit ";cid=""" ++ c ++ lit """") with (59 :: (lit "cid=""" ++ c ++ lit """")). change ((59 :: (lit "cid=""" ++ c ++ lit """")) ++ flat_map show_pair (rf_params h)) with ([] ++ 59 :: ((lit "cid=""" ++ c ++ lit """") ++ flat_map show_pair (rf_params h))). rewrite split_on_app by reflexivity. rewrite texts_split by assumption. cbn [rf_parts]. change (rf_part (None, []) []) with (Some (@None str, @nil (str * str))). cbv iota. rewrite R1. exact (parts_read (rf_params h) (Some c) [] BP F).
        - rewrite app_nil_l. assert (TS := texts_split (rf_params h) [] eq_refl F NE). cbn [app] in TS. rewrite TS. cbn [rf_parts]. change (rf_part (None, []) []) with (Some (@None str, @nil (str * str))). cbv iota. exact (parts_read (rf_params h) None [] BP F). }
      destruct tailp as [|c0 s0] eqn:E; [|apply R0; discriminate]. unfold tailp in E. destruct (rf_cid h); [discriminate|]. destruct (rf_params h) as [|p ps]; [reflexivity|discriminate]. }
    rewrite R. reflexivity. }
  assert (SH : rf_show h = match rf_name h with Some n => 34 :: (n ++ 34 :: 32 :: 60 :: (any_text (rf_uri h) ++ 62 :: tailp)) | None => 60 :: (any_text (rf_uri h) ++ 62 :: tailp) end).
  { unfold rf_show, tailp, cid_text. destruct (rf_name h); [rewrite <- !app_assoc|]; reflexivity. }
  assert (SE : edgeless (rf_show h)).
  { rewrite SH. destruct (rf_name h) as [n|].
    - replace (34 :: (n ++ 34 :: 32 :: 60 :: (any_text (rf_uri h) ++ 62 :: tailp))) with (([34] ++ (n ++ 34 :: 32 :: 60 :: any_text (rf_uri h)) ++ [62]) ++ tailp) by (cbn [app]; repeat (rewrite <- app_assoc; cbn [app]); reflexivity). apply edgeless_cat; [|exact TE]. apply edgeless_ends; [discriminate|discriminate|reflexivity|reflexivity].
    - replace (60 :: (any_text (rf_uri h) ++ 62 :: tailp)) with (([60] ++ any_text (rf_uri h) ++ [62]) ++ tailp) by (cbn [app]; rewrite <- app_assoc; reflexivity). apply edgeless_cat; [|exact TE]. apply edgeless_ends; [discriminate|discriminate|reflexivity|reflexivity]. }
  unfold parse_referred. replace (2048 <? blen (rf_show h)) with false by lia. cbv zeta. rewrite SE, SH. assert (CL := close_plain (any_text (rf_uri h)) tailp U2). destruct (rf_name h) as [n|] eqn:NM.
  - cbn [to_open negb andb N.eqb Pos.eqb]. rewrite open_quoted by now apply N0. cbn [to_open negb andb N.eqb Pos.eqb]. rewrite CL.
    assert (T : trim (34 :: n ++ [34; 32]) = 34 :: n ++ [34]).
    { change (34 :: n ++ [34; 32]) with ([34] ++ (n ++ [34; 32])). replace ([34] ++ (n ++ [34; 32])) with (([34] ++ n ++ [34]) ++ [32]) by (rewrite <- !app_assoc; reflexivity).
      assert (E : edgeless ([34] ++ n ++ [34])) by (apply edgeless_ends; [discriminate|discriminate|reflexivity|reflexivity]). unfold trim, trim_by, trim_start_by. unfold edgeless, trim, trim_by, trim_start_by in E. rewrite !trim_end_by_rev in *.
      assert (D : forall x, drop_while is_ws (([34] ++ n ++ [34]) ++ x) = ([34] ++ n ++ [34]) ++ x) by reflexivity. rewrite D, rev_app_distr. cbn [rev app drop_while]. change (is_ws 32) with true. cbv iota. exact E. }
    rewrite T. unfold display. assert (Q : quoted (34 :: n ++ [34]) = true) by (unfold quoted; apply andb_true_iff; split; [exact (starts_with_app [34] (n ++ [34]))|apply ends_with_spec; now exists (34 :: n)]). rewrite Q. replace (llen (34 :: n ++ [34]) =? 1) with false by (symmetry; apply N.eqb_neq; unfold llen; cbn [List.length]; rewrite app_length; cbn [List.length]; lia). rewrite inner_q, (FI (Some n) BN). destruct h. cbn in NM |- *. now subst.
  - cbn [to_open negb andb N.eqb Pos.eqb]. rewrite CL. change (display (trim [])) with (@Ret (option str) None). cbv iota beta. rewrite (FI None BN). destruct h. cbn in NM |- *. now subst.
Qed.
Print Assumptions C178_roundtrip_partial.
(** a Content-ID with a semicolon changes the Content-ID and adds a parameter; a parameter named
    cid comes back as a reference to a signature that was never there; a name with a quotation
    mark names another referrer *)
Theorem C178_injected_refuted :
  (exists h h', rf_built h /\ rf_cid h = Some (lit "a;b=c") /\ rf_params h = [] /\ parse_referred (rf_show h) = Ret (Some h') /\ rf_cid h' = Some (lit """a") /\ rf_get h' (lit "b") = Some (lit "c"""))
  /\ (exists h h', rf_built h /\ rf_signed h = false /\ parse_referred (rf_show h) = Ret (Some h') /\ rf_cid h' = Some (lit "forged"))
  /\ exists h h', rf_built h /\ any_text (rf_uri h) = lit "sip:eve@x" /\ parse_referred (rf_show h) = Ret (Some h') /\ any_text (rf_uri h') = lit "sip:boss@x".
Proof.
  refine (conj _ (conj _ _)).
  - destruct (rf_new None (lit "sip:al@x")) as [h0|] eqn:E0; [|vm_compute in E0; discriminate]. destruct (rf_with_cid h0 (lit "a;b=c")) as [h|] eqn:E1; [|unfold rf_with_cid in E1; vm_compute in E1; discriminate].
    exists h. assert (B : rf_built h) by exact (rb_cid h0 _ h (rb_new _ _ _ E0) E1). assert (X : h = mkRef (rf_name h0) (rf_uri h0) (Some (lit "a;b=c")) (rf_params h0)) by (unfold rf_with_cid in E1; change (cid_ok (lit "a;b=c")) with true in E1; cbv iota in E1; congruence).
    vm_compute in E0. injection E0 as <-. rewrite X in *. eexists. refine (conj B (conj eq_refl (conj eq_refl (conj _ (conj _ _))))); [vm_compute; reflexivity|reflexivity|vm_compute; reflexivity].
  - destruct (rf_new None (lit "sip:al@x")) as [h0|] eqn:E0; [|vm_compute in E0; discriminate]. destruct (rf_add h0 (lit "cid") (lit "forged")) as [h|] eqn:E1; [|vm_compute in E0; injection E0 as <-; vm_compute in E1; discriminate].
    exists h. assert (B : rf_built h) by exact (rb_add h0 _ _ h (rb_new _ _ _ E0) E1). vm_compute in E0. injection E0 as <-. vm_compute in E1. injection E1 as <-. eexists. refine (conj B (conj eq_refl (conj _ _))); [vm_compute; reflexivity|reflexivity].
  - destruct (rf_new (Some (lit "B"" <sip:boss@x>;y=""")) (lit "sip:eve@x")) as [h|] eqn:E0; [|vm_compute in E0; discriminate]. exists h. assert (B : rf_built h) by exact (rb_new _ _ _ E0). vm_compute in E0. injection E0 as <-. eexists. refine (conj B (conj eq_refl (conj _ _))); [vm_compute; reflexivity|reflexivity].
Qed.
Print Assumptions C178_injected_refuted.
(** parameters come before a Content-ID or after it: with twenty of them only the second is read *)
Theorem C178_order_refuted : let ps := flat_map (fun i => lit ";p" ++ print_N (N.of_nat i) ++ lit "=1") (seq 10 20) in
  (exists h, parse_referred (lit "<sip:al@x>;cid=c" ++ ps) = Ret (Some h)) /\ parse_referred (lit "<sip:al@x>" ++ ps ++ lit ";cid=c") = Ret None.
Proof. cbv zeta. split; [eexists|]; vm_compute; reflexivity. Qed.
Print Assumptions C178_order_refuted.
Example C178_case : exists h, parse_referred (lit """Al, <b>"" <sip:al@x>;cid=""s@x"";Tag=1") = Ret (Some h) /\ rf_name h = Some (lit "Al, <b>") /\ rf_cid h = Some (lit "s@x") /\ rf_get h (lit "TAG") = Some (lit "1") /\ rf_show h = lit """Al, <b>"" <sip:al@x>;cid=""s@x"";tag=1".
Proof. eexists. refine (conj _ (conj _ (conj _ (conj _ _)))); [vm_compute; reflexivity|reflexivity|reflexivity|vm_compute; reflexivity|vm_compute; reflexivity]. Qed.
Example C178_clean_case : exists h, rf_built h /\ rf_clean h /\ rf_cid h = Some (lit "s@x").
Proof.
  destruct (rf_new (Some (lit "Al")) (lit "sip:al@x")) as [h0|] eqn:E0; [|vm_compute in E0; discriminate]. destruct (rf_with_cid h0 (lit "s@x")) as [h1|] eqn:E1; [|unfold rf_with_cid in E1; vm_compute in E1; discriminate]. assert (B1 : rf_built h1) by exact (rb_cid h0 _ h1 (rb_new _ _ _ E0) E1). vm_compute in E0. injection E0 as <-. vm_compute in E1. injection E1 as <-.
  eexists. refine (conj B1 (conj _ eq_refl)). refine (conj (conj _ _) (conj _ (conj _ _))).
  - vm_compute. reflexivity.
  - intros c Hc X. vm_compute in Hc, X. lia.
  - intros n X c Hc Y. injection X as <-. vm_compute in Hc, Y. lia.
  - intros n X c Hc Y. injection X as <-. vm_compute in Hc, Y. lia.
  - intros k v [].
Qed.
