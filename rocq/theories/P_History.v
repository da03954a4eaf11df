(** Properties of History-Info and Geolocation headers. *)
From Coq Require Import Arith NArith Bool String List Lia ZifyBool ZifyN ZifyNat.
Import ListNotations.
From Verif Require Import Base Text BaseFacts TextFacts Uri AnyUri Auth History HistorySpec.
Open Scope N_scope.
Open Scope list_scope.

(** ** Checks *)
Lemma letter_iff : forall c, token_c c = true <-> letter c.
Proof. intros c. unfold token_c, letter. rewrite orb_true_iff, mem_In. unfold is_alnum, is_alpha, is_digit, is_lower, is_upper, in_range. intuition lia. Qed.
Lemma letters_iff : forall s, negb (existsb is_ascii_control s) && forallb token_c s = true <-> forall c, In c s -> letter c.
Proof.
  intros s. rewrite andb_true_iff, negb_true_iff, <- not_true_iff_false, existsb_exists, forallb_forall. split.
  - intros (_ & H) c Hc. apply letter_iff. now apply H.
  - intros H. split; [|intros c Hc; apply letter_iff; now apply H]. intros (c & Hc & K). apply H in Hc. destruct Hc as [X|[X|[X|X]]]; unfold is_ascii_control in K; [lia|lia|lia|]. cbn in X. lia.
Qed.
Lemma blank_iff : forall s, negb (str_eqb s []) = true <-> s <> [].
Proof. intros s. rewrite negb_true_iff. apply str_eqb_neq. Qed.
Lemma pname_iff : forall s, pname_ok s = true <-> good_name s.
Proof. intros s. unfold pname_ok, good_name. rewrite <- andb_assoc, andb_true_iff, andb_true_iff, letters_iff, blank_iff. rewrite and_assoc. apply and_iff_compat_l. apply and_iff_compat_r. lia. Qed.
Lemma value_iff : forall s, hvalue_ok s = true <-> good_value s.
Proof. intros s. unfold hvalue_ok, good_value. rewrite <- andb_assoc, andb_true_iff, letters_iff. apply and_iff_compat_r. lia. Qed.
Lemma gvalue_iff : forall s, gvalue_ok s = true <-> good_value s /\ s <> [].
Proof. intros s. unfold gvalue_ok. now rewrite andb_true_iff, value_iff, blank_iff. Qed.
Lemma add_iff : forall vok m n v m', add_param vok m n v = Some m' <-> good_name n /\ match v with Some t => vok t = true | None => True end /\ (List.length m < 20)%nat /\ bget (lower n) m = None /\ m' = bput (lower n) v m.
Proof.
  intros vok m n v m'. unfold add_param. rewrite <- pname_iff. destruct (pname_ok n); cbn [negb]; [|split; [discriminate|intros (X & _); discriminate]].
  destruct v as [t|].
  - destruct (vok t); cbn [negb]; [|split; [discriminate|intros (_ & X & _); discriminate]]. destruct (20 <=? llen m) eqn:E; unfold llen in E; [split; [discriminate|intros (_ & _ & X & _); lia]|]. destruct (bget (lower n) m); split; intros H; try discriminate; try (destruct H as (_ & _ & _ & X & _); discriminate).
    + refine (conj eq_refl (conj eq_refl (conj _ (conj eq_refl _)))); [lia|congruence].
    + destruct H as (_ & _ & _ & _ & ->). reflexivity.
  - destruct (20 <=? llen m) eqn:E; unfold llen in E; [split; [discriminate|intros (_ & _ & X & _); lia]|]. destruct (bget (lower n) m); split; intros H; try discriminate; try (destruct H as (_ & _ & _ & X & _); discriminate).
    + refine (conj eq_refl (conj I (conj _ (conj eq_refl _)))); [lia|congruence].
    + destruct H as (_ & _ & _ & _ & ->). reflexivity.
Qed.

(** ** The parameters of an address are sorted, distinct and in lower case *)
Definition settled (m : params) : Prop := sorted_keys m /\ forall n v, In (n, v) m -> lower n = n.
Lemma settled_put : forall n v m, settled m -> settled (bput (lower n) v m).
Proof. intros n v m (A & B). split; [now apply bput_sorted|]. intros k w H. apply bput_in in H as [H|H]; [|now apply B in H]. assert (k = lower n) by congruence. subst k. apply lower_idem. Qed.
Lemma na_add_settled : forall m r m', settled m -> na_add m r = Some m' -> settled m'.
Proof.
  intros m r m' S1 H. unfold na_add in H. destruct (trim r) as [|c t]; [now assert (m = m') as <- by congruence|]. destruct (MAX_NA_PARAMS <=? llen m); [discriminate|].
  destruct (split_once 61 (c :: t)) as [(n, v)|]; (assert (H' := f_equal (fun o => match o with Some x => x | None => [] end) H)); cbv beta iota in H'; rewrite <- H'; now apply settled_put.
Qed.
Lemma na_fold_settled : forall ps m m', settled m -> fold_opt na_add ps m = Some m' -> settled m'.
Proof. induction ps as [|p ps IH]; intros m m' S1 H; cbn [fold_opt] in H; [now assert (m = m') as <- by congruence|]. destruct (na_add m p) as [m1|] eqn:E; [|discriminate]. apply (IH m1 m'); [now apply (na_add_settled m p)|exact H]. Qed.
Lemma na_settled : forall p na, parse_name_addr p = Some na -> settled (na_ps na).
Proof.
  assert (K : settled []) by (split; [exact I|intros n v []]).
  assert (G : forall d u ps na, settled ps -> na_new d u ps = Some na -> settled (na_ps na)).
  { intros d u ps na S1 H. unfold na_new in H. match type of H with (if ?b then _ else _) = _ => destruct b; [|discriminate] end. now injection H as <-. }
  assert (F : forall s ps, na_params s = Some ps -> settled ps) by (intros s ps H; now apply (na_fold_settled (split_on 59 s) [] ps)).
  intros p na H. unfold parse_name_addr in H. destruct (trim p) as [|c t]; [discriminate|]. destruct (scan_to 60 false false (c :: t)) as [(b, a)|].
  - destruct (scan_to 62 false false a) as [(i, r)|]; [|discriminate]. destruct (na_params (trim r)) as [ps|] eqn:E; [|discriminate]. destruct (parse_any (trim i)); [|discriminate]. apply F in E. exact (G _ _ _ _ E H).
  - destruct (match split_once 59 (c :: t) with Some x => x | None => (c :: t, []) end) as (u, q). destruct (parse_any (trim u)); [|discriminate]. destruct (na_params q) as [ps|] eqn:E; [|discriminate]. apply F in E. exact (G _ _ _ _ E H).
Qed.

(** ** History-Info *)
Lemma above : forall (m : params) k, (forall k', In k' (keys m) -> str_ltb k' k = true) -> bget k m = None.
Proof.
  induction m as [|(k0, v0) m IH]; intros k H; [reflexivity|]. unfold bget in *. cbn [lookup]. destruct (str_eqb k k0) eqn:E.
  - apply str_eqb_spec in E. subst k0. assert (X : str_ltb k k = true) by (apply H; now left). now rewrite str_ltb_irrefl in X.
  - apply IH. intros k' Hk. apply H. now right.
Qed.
Lemma sorted_split : forall (a b : params) n v, sorted_keys (a ++ (n, v) :: b) -> forall k, In k (keys a) -> str_ltb k n = true.
Proof.
  induction a as [|(k0, v0) a IH]; intros b n v S1 k Hk; [destruct Hk|]. cbn [app sorted_keys] in S1. destruct S1 as (A & B). destruct Hk as [<-|Hk]; [|now apply (IH b n v)]. apply A. unfold keys. rewrite map_app. apply in_app_iff. right. now left.
Qed.
Lemma all_iff : forall ps a m, settled (a ++ ps) -> (List.length (a ++ ps) <= 64)%nat ->
  (add_all a ps = Some m <-> m = a ++ ps /\ (ps = [] \/ (List.length (a ++ ps) <= 20)%nat) /\ forall n v, In (n, v) ps -> good_name n /\ match v with Some t => good_value t | None => True end).
Proof.
  induction ps as [|(n, v) ps IH]; intros a m S1 L; cbn [add_all].
  - rewrite app_nil_r. split.
    + intros H. assert (a = m) by congruence. subst m. refine (conj eq_refl (conj (or_introl eq_refl) _)). intros n v [].
    + intros (-> & _). reflexivity.
  - destruct S1 as (S1 & S2). assert (LN : lower n = n) by (apply (S2 n v); apply in_elt). assert (AB := sorted_split a ps n v S1).
    assert (P : bput n v a = a ++ [(n, v)]) by (now apply bput_last).
    assert (NX : a ++ (n, v) :: ps = (a ++ [(n, v)]) ++ ps) by (now rewrite <- app_assoc).
    destruct (add_param hvalue_ok a n v) as [m1|] eqn:E.
    + apply add_iff in E as (G1 & G2 & G3 & G4 & ->). rewrite LN, P. rewrite IH; [|now rewrite <- NX|now rewrite <- NX]. rewrite <- NX. split.
      * intros (-> & H1 & H2). refine (conj eq_refl (conj (or_intror _) _)).
        -- destruct H1 as [->|H1]; [|exact H1]. rewrite app_length. cbn [List.length]. lia.
        -- intros k w [X|X]; [|now apply H2]. assert (k = n /\ w = v) as (-> & ->) by (split; congruence). split; [exact G1|]. destruct v as [t|]; [now apply value_iff|exact I].
      * intros (-> & H1 & H2). refine (conj eq_refl (conj _ _)); [right; destruct H1 as [X|H1]; [discriminate|exact H1]|]. intros k w X. apply H2. now right.
    + split; [discriminate|]. intros (-> & H1 & H2). destruct H1 as [X|H1]; [discriminate|]. rewrite app_length in H1. cbn [List.length] in H1. destruct (H2 n v (or_introl eq_refl)) as (G1 & G2).
      assert (E' : add_param hvalue_ok a n v = Some (bput (lower n) v a)).
      { apply add_iff. refine (conj G1 (conj _ (conj _ (conj _ eq_refl)))); [destruct v; [now apply value_iff|exact I]|lia|rewrite LN; now apply above]. }
      congruence.
Qed.
Lemma part_shape : forall k v ps p, split_quoted_commas k v = Some ps -> In p ps -> p <> [] /\ trim p = p.
Proof.
  intros k v ps p H Hp. unfold split_quoted_commas in H. destruct (scan_commas false false [] v) as (l, q). cbv zeta in H. destruct (k <? llen (nonblank_trimmed l)); [discriminate|]. destruct q; [discriminate|]. assert (E : nonblank_trimmed l = ps) by congruence. rewrite <- E in Hp. unfold nonblank_trimmed in Hp. apply filter_In in Hp as (Hp & N0). apply in_map_iff in Hp as (x & <- & _). split; [|apply trim_idem]. intros X. now rewrite X in N0.
Qed.
Lemma na_few : forall p na, parse_name_addr p = Some na -> (List.length (na_ps na) <= 64)%nat.
Proof.
  assert (G : forall d u ps na, na_new d u ps = Some na -> (List.length (na_ps na) <= 64)%nat).
  { intros d u ps na H. unfold na_new in H. match type of H with (if ?b then _ else _) = _ => destruct b eqn:E; [|discriminate] end. injection H as <-. cbn [na_ps]. unfold llen in E. apply andb_true_iff in E as (E & _). apply andb_true_iff in E as (_ & E). lia. }
  intros p na H. unfold parse_name_addr in H. destruct (trim p) as [|c t]; [discriminate|]. destruct (scan_to 60 false false (c :: t)) as [(b, a)|].
  - destruct (scan_to 62 false false a) as [(i, r)|]; [|discriminate]. destruct (na_params (trim r)) as [ps|]; [|discriminate]. destruct (parse_any (trim i)); [|discriminate]. exact (G _ _ _ _ H).
  - destruct (match split_once 59 (c :: t) with Some x => x | None => (c :: t, []) end) as (u, q). destruct (parse_any (trim u)); [|discriminate]. destruct (na_params q) as [ps|]; [|discriminate]. exact (G _ _ _ _ H).
Qed.
Lemma entry_iff : forall p na m, parse_name_addr p = Some na -> (add_all [] (na_ps na) = Some m <-> m = na_ps na /\ good_params m).
Proof.
  intros p na m H. rewrite all_iff; [|now apply (na_settled p)|now apply (na_few p)]. cbn [app]. unfold good_params. split.
  - intros (-> & A & B). refine (conj eq_refl (conj _ B)). destruct A as [->|A]; [cbn; lia|exact A].
  - intros (-> & A & B). refine (conj eq_refl (conj (or_intror A) B)).
Qed.
Definition shown (p : str) (e : entry) : Prop := tells p e /\ good_params (e_params e).
Lemma parts_iff : forall ps es, (forall p, In p ps -> p <> [] /\ trim p = p) -> (history_parts ps = Some es <-> Forall2 shown ps es).
Proof.
  induction ps as [|p ps IH]; intros es H; cbn [history_parts].
  - split; intros X; [assert (es = []) by congruence; subst; constructor|inversion X; reflexivity].
  - destruct (H p (or_introl eq_refl)) as (N0 & T). rewrite T. destruct p as [|c p0] eqn:P; [contradiction|]. rewrite <- P in *.
    assert (IH' : forall es, history_parts ps = Some es <-> Forall2 shown ps es) by (intros l; apply IH; intros q Hq; apply H; now right).
    destruct (parse_name_addr p) as [na|] eqn:E.
    + destruct (add_all [] (na_ps na)) as [m|] eqn:A.
      * apply (entry_iff p na m E) in A as (-> & G). destruct (history_parts ps) as [l|] eqn:L.
        -- split.
           ++ intros X. assert (mkEntry (na_uri na) (na_ps na) :: l = es) as <- by congruence. constructor; [|now apply IH']. split; [|exact G]. exists na. repeat split. exact E.
           ++ intros X. inversion X as [|q e qs es' X1 X2]; subst. destruct X1 as ((na' & E' & U & Q) & _). assert (na' = na) by congruence. subst na'. apply IH' in X2. destruct e as [u m]. cbn [e_uri e_params] in U, Q. subst. congruence.
        -- split; [discriminate|]. intros X. inversion X as [|q e qs es' X1 X2]; subst. apply IH' in X2. discriminate.
      * split; [discriminate|]. intros X. inversion X as [|q e qs es' X1 X2]; subst. destruct X1 as ((na' & E' & U & Q) & G). assert (na' = na) by congruence. subst na'. assert (Z : add_all [] (na_ps na) = Some (na_ps na)) by (apply (entry_iff (c :: p0) na (na_ps na) E); rewrite Q in G; split; [reflexivity|exact G]). congruence.
    + split; [discriminate|]. intros X. inversion X as [|q e qs es' X1 X2]; subst. destruct X1 as ((na' & E' & _) & _). congruence.
Qed.
Lemma values_iff : forall vs es, history_values vs = Some es <-> exists ps, parts_of 50 vs ps /\ Forall2 shown ps es.
Proof.
  induction vs as [|v vs IH]; intros es; cbn [history_values].
  - split.
    + intros H. assert (es = []) by congruence. subst. exists []. split; [exists []; split; constructor|constructor].
    + intros (ps & (pss & F & ->) & X). inversion F; subst. cbn in X. inversion X. reflexivity.
  - destruct (split_quoted_commas 50 v) as [l|] eqn:S1.
    + assert (P := parts_iff l). specialize (fun es => P es (fun p Hp => part_shape 50 v l p S1 Hp)). split.
      * intros H. destruct (history_parts l) as [a|] eqn:A; [|discriminate]. destruct (history_values vs) as [b|] eqn:B; [|discriminate]. assert (a ++ b = es) as <- by congruence. pose proof (proj1 (IH b) eq_refl) as (ps & (pss & F & ->) & X). exists (l ++ concat pss). split; [exists (l :: pss); split; [now constructor|reflexivity]|]. apply Forall2_app; [now apply P|exact X].
      * intros (ps & (pss & F & ->) & X). inversion F as [|v' l' vs' pss' F1 F2]; subst. assert (l' = l) by congruence. subst l'. cbn [concat] in X. apply Forall2_app_inv_l in X as (a & b & X1 & X2 & ->). apply P in X1. rewrite X1. assert (Y : history_values vs = Some b) by (apply IH; exists (concat pss'); split; [now exists pss'|exact X2]). now rewrite Y.
    + split; [discriminate|]. intros (ps & (pss & F & _) & _). inversion F; subst. congruence.
Qed.

(** C172: a History-Info header is accepted exactly when it has one to fifty entries, each
    an address whose parameters keep the limits; then every part gives one entry, in
    order, with the address and all its parameters *)
Theorem C172_reads : forall vs es, parse_history vs = Some es <->
  (1 <= List.length es <= 50)%nat /\ exists ps, parts_of 50 vs ps /\ Forall2 tells ps es /\ forall e, In e es -> good_params (e_params e).
Proof.
  assert (S2 : forall ps es, Forall2 shown ps es <-> Forall2 tells ps es /\ forall e, In e es -> good_params (e_params e)).
  { induction ps as [|p ps IH]; intros es; split.
    - intros H. inversion H; subst. split; [constructor|intros e []].
    - intros (H & _). inversion H; subst. constructor.
    - intros H. inversion H as [|q e qs es' (H1 & H1') H2]; subst. apply IH in H2 as (A & B). split; [now constructor|]. intros x [<-|Hx]; auto.
    - intros (H & G). inversion H as [|q e qs es' H1 H2]; subst. constructor; [split; [exact H1|apply G; now left]|]. apply IH. split; [exact H2|]. intros x Hx. apply G. now right. }
  intros vs es. unfold parse_history. split.
  - intros H. destruct (history_values vs) as [l|] eqn:E; [|discriminate]. apply values_iff in E as (ps & P & F). apply S2 in F as (F1 & F2). unfold history_new in H. destruct l as [|e l]; [discriminate|]. destruct (50 <? llen (e :: l)) eqn:L; [discriminate|]. assert (e :: l = es) as <- by congruence. unfold llen in L. split; [cbn [List.length] in *; lia|]. exists ps. auto.
  - intros (L & ps & P & F). assert (E : history_values vs = Some es) by (apply values_iff; exists ps; split; [exact P|now apply S2]). rewrite E. unfold history_new. destruct es as [|e es]; [cbn in L; lia|]. replace (50 <? llen (e :: es)) with false by (unfold llen; lia). reflexivity.
Qed.
Print Assumptions C172_reads.
(** a header that a caller builds has one to fifty entries too, and looking one up by its
    index gives the first that has it *)
Theorem C172_built : forall es, history_built es -> (1 <= List.length es <= 50)%nat.
Proof.
  induction 1 as [es l H|e|l e l' _ IH H].
  - unfold history_new in H. destruct es as [|e es]; [discriminate|]. destruct (50 <? llen (e :: es)) eqn:L; [discriminate|]. assert (e :: es = l) as <- by congruence. unfold llen in L. cbn [List.length] in *. lia.
  - cbn. lia.
  - unfold history_push in H. destruct (50 <=? llen l) eqn:L; [discriminate|]. injection H as <-. unfold llen in L. rewrite app_length. cbn [List.length]. lia.
Qed.
Print Assumptions C172_built.
Theorem C172_lookup : forall i es, match find_by_index i es with
  | Some e => exists a b, es = a ++ e :: b /\ entry_index e = Some i /\ forall x, In x a -> entry_index x <> Some i
  | None => forall x, In x es -> entry_index x <> Some i
  end.
Proof.
  intros i. induction es as [|e es IH]; [intros x []|]. unfold find_by_index in *. cbn [find]. destruct (entry_index e) as [j|] eqn:E.
  - destruct (str_eqb j i) eqn:Q.
    + apply str_eqb_spec in Q. subst j. exists [], es. repeat split; [exact E|intros x []].
    + assert (NE : entry_index e <> Some i) by (rewrite E; intros X; assert (j = i) by congruence; subst; rewrite str_eqb_refl in Q; discriminate). destruct (find _ es) as [x|].
      * destruct IH as (a & b & -> & A & B). exists (e :: a), b. repeat split; [exact A|]. intros y [<-|Hy]; auto.
      * intros y [<-|Hy]; auto.
  - assert (NE : entry_index e <> Some i) by (rewrite E; discriminate). destruct (find _ es) as [x|].
    + destruct IH as (a & b & -> & A & B). exists (e :: a), b. repeat split; [exact A|]. intros y [<-|Hy]; auto.
    + intros y [<-|Hy]; auto.
Qed.
Print Assumptions C172_lookup.
(** the index of an entry that was read is the value of its index parameter *)
Theorem C172_index : forall vs es e i, parse_history vs = Some es -> In e es -> (entry_index e = Some i <-> In (lit "index", Some i) (e_params e)).
Proof.
  intros vs es e i H He. apply C172_reads in H as (_ & ps & _ & F & _). assert (S1 : sorted_keys (e_params e)).
  { clear -F He. induction F as [|p x ps es T F IH]; [destruct He|]. destruct He as [<-|He]; [|now apply IH]. destruct T as (na & P & _ & ->). now apply na_settled in P as (P & _). }
  unfold entry_index, bget. split.
  - intros H. destruct (lookup str_eqb (lit "index") (e_params e)) as [v|] eqn:E; [|discriminate]. apply (lookup_in str_eqb str_eqb_spec) in E. now rewrite <- H.
  - intros H. assert (E : lookup str_eqb (lit "index") (e_params e) = Some (Some i)); [|now rewrite E]. revert S1 H. generalize (e_params e). induction p as [|(k, v) m IH]; intros S1 H; [destruct H|]. destruct S1 as (A & B). cbn [lookup]. destruct H as [H|H].
    + assert (k = lit "index") by congruence. assert (v = Some i) by congruence. subst. now rewrite str_eqb_refl.
    + destruct (str_eqb (lit "index") k) eqn:E; [|now apply IH]. apply str_eqb_spec in E. subst k. assert (X : str_ltb (lit "index") (lit "index") = true) by (apply A; apply in_map_iff; now exists (lit "index", Some i)). now rewrite str_ltb_irrefl in X.
Qed.
Print Assumptions C172_index.
(** the reason that RFC 7044 puts into the URI of an entry is lost *)
Theorem C172_reason_refuted : exists e, parse_history [lit "<sip:a@b.org?Reason=SIP%3Bcause%3D302>;index=1"] = Some [e] /\ any_text (e_uri e) = lit "sip:a@b.org".
Proof.
  destruct (parse_history [lit "<sip:a@b.org?Reason=SIP%3Bcause%3D302>;index=1"]) as [[|e [|]]|] eqn:E; try (exfalso; vm_compute in E; discriminate). exists e. split; [reflexivity|]. vm_compute in E. injection E as <-. vm_compute. reflexivity.
Qed.
Print Assumptions C172_reason_refuted.
Example C172_case : exists e e', parse_history [lit "<sip:a@b.org>;index=1, ""x,y"" <sip:c@d.org>;Index=1.1;rc=1"] = Some [e; e'] /\ e_params e' = [(lit "index", Some (lit "1.1")); (lit "rc", Some (lit "1"))] /\ find_by_index (lit "1.1") [e; e'] = Some e'.
Proof.
  destruct (parse_history [lit "<sip:a@b.org>;index=1, ""x,y"" <sip:c@d.org>;Index=1.1;rc=1"]) as [[|e [|e' [|]]]|] eqn:E; try (exfalso; vm_compute in E; discriminate). exists e, e'. split; [reflexivity|]. vm_compute in E. injection E as <- <-. vm_compute. split; reflexivity.
Qed.

(** ** Geolocation *)
Lemma part_refl : forall A (l : list A), part_of l l.
Proof. induction l; constructor; assumption. Qed.
Lemma part_app : forall A (a b c d : list A), part_of a b -> part_of c d -> part_of (a ++ c) (b ++ d).
Proof. intros A a b c d H G. induction H; [exact G| |]; cbn [app]; constructor; assumption. Qed.
Definition good_geo (m : params) : Prop := good_params m /\ forall n t, In (n, Some t) m -> t <> [].
Definition good_hint (n : str) (v : option str) : Prop := good_name n /\ match v with Some t => good_value t /\ t <> [] | None => True end.
Lemma geo_fold : forall ps a, settled (a ++ ps) -> good_geo a -> exists k, geo_params a ps = a ++ k /\ part_of k ps /\ good_geo (a ++ k) /\ ((List.length (a ++ ps) <= 20)%nat -> forall n v, In (n, v) ps -> good_hint n v -> In (n, v) k).
Proof.
  induction ps as [|(n, v) ps IH]; intros a S1 G; cbn [geo_params]; [exists []; rewrite app_nil_r; refine (conj eq_refl (conj po_nil (conj G _))); intros _ ? ? []|].
  assert (NX : a ++ (n, v) :: ps = (a ++ [(n, v)]) ++ ps) by (now rewrite <- app_assoc).
  assert (LN : lower n = n) by (apply (proj2 S1 n v); apply in_elt). assert (AB := sorted_split a ps n v (proj1 S1)).
  destruct (add_param gvalue_ok a n v) as [m|] eqn:E.
  - apply add_iff in E as (G1 & G2 & G3 & G4 & ->). rewrite LN, (bput_last n v a AB). destruct (IH (a ++ [(n, v)])) as (k & K1 & K2 & K3 & K4).
    + now rewrite <- NX.
    + destruct G as ((L & G) & E). refine (conj (conj _ _) _).
      * rewrite app_length. cbn [List.length]. lia.
      * intros k w X. apply in_app_iff in X as [X|[X|[]]]; [now apply G|]. assert (n = k /\ v = w) as (<- & <-) by (split; congruence). split; [exact G1|]. destruct v; [now apply gvalue_iff in G2|exact I].
      * intros k w X. apply in_app_iff in X as [X|[X|[]]]; [now apply (E k)|]. assert (v = Some w) by congruence. subst v. now apply gvalue_iff in G2.
    + exists ((n, v) :: k). rewrite <- app_assoc in K1, K3. refine (conj K1 (conj (po_keep _ _ _ K2) (conj K3 _))). intros L n0 v0 [X|X] Y; [left; exact X|right; apply K4; [now rewrite <- NX|exact X|exact Y]].
  - destruct (IH a) as (k & K1 & K2 & K3 & K4); [|exact G|exists k; refine (conj K1 (conj (po_skip _ _ _ K2) (conj K3 _)))].
    2:{ intros L n0 v0 [X|X] Y; [exfalso|apply K4; [rewrite app_length in *; cbn [List.length] in L; lia|exact X|exact Y]]. assert (n0 = n /\ v0 = v) as (-> & ->) by (split; congruence).
        assert (Z : add_param gvalue_ok a n v = Some (bput (lower n) v a)); [|congruence]. apply add_iff. destruct Y as (Y1 & Y2). refine (conj Y1 (conj _ (conj _ (conj _ eq_refl)))).
        - destruct v; [now apply gvalue_iff|exact I].
        - rewrite app_length in L. cbn [List.length] in L. lia.
        - rewrite LN. now apply above. }
    destruct S1 as (S1 & S2). split.
    + clear - S1. induction a as [|(k0, v0) a IHa]; cbn [app sorted_keys] in *; [apply S1|]. destruct S1 as (A & B). split; [|now apply IHa]. intros k' Hk. apply A. unfold keys in *. rewrite map_app in *. apply in_app_iff in Hk as [Hk|Hk]; apply in_app_iff; [now left|right; now right].
    + intros k w X. apply (S2 k w). apply in_app_iff in X as [X|X]; apply in_app_iff; [now left|right; now right].
Qed.
(** C173: a Geolocation header that is accepted has one to ten values; they are the
    addresses of the header, in order, each with some of its parameters, which keep the
    limits; up to twenty parameters, one that keeps the limits is not left out *)
Definition hints (p : str) (e : entry) : Prop := exists na, parse_name_addr p = Some na /\ e_uri e = na_uri na /\ part_of (e_params e) (na_ps na) /\ ((List.length (na_ps na) <= 20)%nat -> forall n v, In (n, v) (na_ps na) -> good_hint n v -> In (n, v) (e_params e)).
Definition is_address (p : str) : bool := match parse_name_addr p with Some _ => true | None => false end.
Theorem C173_reads : forall vs es, parse_geo vs = Some es -> (1 <= List.length es <= 10)%nat /\ (forall e, In e es -> good_geo (e_params e))
  /\ exists ps, parts_of 10 vs ps /\ Forall2 hints (filter is_address ps) es.
Proof.
  assert (P : forall ps, (forall p, In p ps -> p <> [] /\ trim p = p) -> (forall e, In e (geo_parts ps) -> good_geo (e_params e)) /\ Forall2 hints (filter is_address ps) (geo_parts ps)).
  { induction ps as [|p ps IH]; intros H; cbn [geo_parts].
    - split; [intros e []|constructor].
    - destruct (H p (or_introl eq_refl)) as (N0 & T). rewrite T. destruct p as [|c p0] eqn:Q; [contradiction|]. rewrite <- Q in *. destruct IH as (I1 & I3); [intros q Hq; apply H; now right|].
      cbn [filter]. unfold is_address at 1. destruct (parse_name_addr p) as [na|] eqn:E.
      + destruct (geo_fold (na_ps na) []) as (k & K1 & K2 & K3 & K4); [exact (na_settled p na E)|refine (conj (conj _ _) _); [cbn; lia|intros ? ? []|intros ? ? []]|]. cbn [app] in K1, K3. split.
        * intros e [<-|He]; [cbn [e_params]; now rewrite K1|auto].
        * constructor; [|exact I3]. exists na. cbn [e_uri e_params]. rewrite K1. auto.
      + split; [exact I1|exact I3]. }
  assert (V : forall vs es, geo_values vs = Some es -> (forall e, In e es -> good_geo (e_params e)) /\ exists ps, parts_of 10 vs ps /\ Forall2 hints (filter is_address ps) es).
  { induction vs as [|v vs IH]; intros es H; cbn [geo_values] in H.
    - assert (es = []) by congruence. subst. split; [intros e []|]. exists []. split; [exists []; split; constructor|constructor].
    - destruct (split_quoted_commas 10 v) as [l|] eqn:S1; [|discriminate]. destruct (geo_values vs) as [b|]; [|discriminate]. assert (geo_parts l ++ b = es) as <- by congruence. destruct (IH b eq_refl) as (I1 & ps & (pss & F & ->) & I3). destruct (P l (fun p Hp => part_shape 10 v l p S1 Hp)) as (P1 & P3). split.
      + intros e He. apply in_app_iff in He as [He|He]; auto.
      + exists (l ++ concat pss). split; [exists (l :: pss); split; [now constructor|reflexivity]|]. rewrite filter_app. now apply Forall2_app. }
  intros vs es H. unfold parse_geo in H. destruct (geo_values vs) as [l|] eqn:E; [|discriminate]. apply V in E as (E1 & E2). unfold geo_new in H. destruct l as [|e l]; [discriminate|]. destruct (10 <? llen (e :: l)) eqn:L; [discriminate|]. assert (e :: l = es) as <- by congruence. unfold llen in L. split; [cbn [List.length] in *; lia|]. split; assumption.
Qed.
Print Assumptions C173_reads.
(** a value that is no address, and a parameter whose value is no token, are dropped
    without an error *)
Theorem C173_dropped_refuted : exists e, parse_geo [lit "<sip:a@b.org>;inserted-by=""c@d"", <nonsense"] = Some [e] /\ e_params e = [].
Proof.
  destruct (parse_geo [lit "<sip:a@b.org>;inserted-by=""c@d"", <nonsense"]) as [[|e [|]]|] eqn:E; try (exfalso; vm_compute in E; discriminate). exists e. split; [reflexivity|]. vm_compute in E. injection E as <-. reflexivity.
Qed.
Print Assumptions C173_dropped_refuted.
Example C173_case : exists e, parse_geo [lit "<sip:a@b.org>;routing-allowed=yes"] = Some [e] /\ e_params e = [(lit "routing-allowed", Some (lit "yes"))].
Proof.
  destruct (parse_geo [lit "<sip:a@b.org>;routing-allowed=yes"]) as [[|e [|]]|] eqn:E; try (exfalso; vm_compute in E; discriminate). exists e. split; [reflexivity|]. vm_compute in E. injection E as <-. reflexivity.
Qed.
