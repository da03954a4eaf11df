(** Capabilities (C152), caller preferences (C153) and Request-Disposition (C154). *)
From Coq Require Import Arith NArith ZArith QArith Bool String List Lia ZifyBool ZifyN ZifyNat Permutation Sorted Lqa.
Import ListNotations.
From Verif Require Import Base BaseFacts Text TextFacts TypedFacts Prefs PrefsSpec.
Open Scope N_scope.
Open Scope list_scope.

(** ** C152 *)
Lemma ix_inj : forall a b, tag_ix a = tag_ix b -> a = b.
Proof. intros [] [] H; first [reflexivity|discriminate H]. Qed.
Lemma ix_eqb : forall a b, (tag_ix a =? tag_ix b) = true <-> a = b.
Proof. intros a b. rewrite N.eqb_eq. split; [apply ix_inj|now intros ->]. Qed.
Lemma name_back : forall t, from_param_name (param_name t) = Some t.
Proof. intros []; vm_compute; reflexivity. Qed.
Lemma name_inj : forall a b, param_name a = param_name b -> a = b.
Proof. intros a b H. apply (f_equal from_param_name) in H. rewrite !name_back in H. congruence. Qed.
Lemma cget_cput : forall F t (v : value F) l, cget t (cput t v l) = Some v.
Proof.
  intros F t v. unfold cget. induction l as [|(t', v') l IH]; cbn [cput find].
  - cbn [find fst]. now rewrite N.eqb_refl.
  - destruct (tag_ix t =? tag_ix t') eqn:E; [cbn [find fst]; now rewrite N.eqb_refl|]. destruct (tag_ix t <? tag_ix t'); cbn [find fst]; [now rewrite N.eqb_refl|]. rewrite E. exact IH.
Qed.
Lemma cget_other : forall F t u (v : value F) l, u <> t -> cget u (cput t v l) = cget u l.
Proof.
  intros F t u v l H. assert (E : (tag_ix u =? tag_ix t) = false) by (destruct (tag_ix u =? tag_ix t) eqn:K; [apply ix_eqb in K; contradiction|reflexivity]). unfold cget. induction l as [|(t', v') l IH]; cbn [cput find].
  - cbn [find fst]. now rewrite E.
  - destruct (tag_ix t =? tag_ix t') eqn:K.
    + apply N.eqb_eq in K. cbn [find fst]. rewrite E. rewrite <- K, E. reflexivity.
    + destruct (tag_ix t <? tag_ix t'); cbn [find fst]; [now rewrite E|]. destruct (tag_ix u =? tag_ix t'); [reflexivity|exact IH].
Qed.
Lemma cget_in : forall F t (v : value F) l, cget t l = Some v -> In (t, v) l.
Proof. intros F t v l H. unfold cget in H. destruct (find _ l) as [(t', v')|] eqn:E; [|discriminate]. injection H as ->. apply find_some in E as (E1 & E2). cbn [fst] in E2. apply ix_eqb in E2. now subst t'. Qed.

(** one value *)
Lemma tok_char_plain : forall c, tok_char c = true -> is_ws c = false /\ c <> 34 /\ c <> 44.
Proof.
  intros c H. assert (K : 32 < c < 127 /\ c <> 34 /\ c <> 44).
  { unfold tok_char, is_alnum, is_alpha, is_upper, is_lower, is_digit, in_range in H. apply orb_true_iff in H as [H|H]; [lia|]. apply existsb_exists in H as (x & Hx & E). apply N.eqb_eq in E. subst x. cbn in Hx. repeat destruct Hx as [<-|Hx]; try lia; destruct Hx. }
  split; [|tauto]. unfold is_ws, in_range. lia.
Qed.
Lemma tok_free : forall s c, tok_ok s = true -> In c s -> is_ws c = false /\ c <> 34 /\ c <> 44.
Proof. intros s c H Hc. apply tok_char_plain. unfold tok_ok in H. apply andb_true_iff in H as (_ & H). rewrite forallb_forall in H. now apply H. Qed.
Lemma tok_full : forall s, tok_ok s = true -> s <> [].
Proof. intros s H ->. discriminate. Qed.
Lemma trim_word : forall s, (forall c, In c s -> is_ws c = false) -> trim s = s.
Proof. intros s H. apply edgeless_words. apply forallb_forall. intros c Hc. now rewrite (H c Hc). Qed.
Lemma ends_quote : forall s, ends 34 (34 :: s ++ [34]) = true.
Proof. intros s. unfold ends. change (34 :: s ++ [34]) with ([34] ++ s ++ [34]). rewrite !rev_app_distr. reflexivity. Qed.
Lemma trim_quoted : forall s, trim (34 :: s ++ [34]) = 34 :: s ++ [34].
Proof. intros s. change (34 :: s ++ [34]) with ([34] ++ s ++ [34]). apply edgeless_ends; [discriminate|discriminate|reflexivity|reflexivity]. Qed.
Lemma unquote_quoted : forall s, unquote (34 :: s ++ [34]) = s.
Proof. intros s. unfold unquote. cbn [tl]. apply removelast_last. Qed.
Lemma quoted_quoted : forall s, quoted (34 :: s ++ [34]) = true.
Proof. intros s. unfold quoted. rewrite ends_quote. cbn [starts]. rewrite N.eqb_refl. unfold llen. cbn [List.length]. rewrite app_length. cbn [List.length andb]. lia. Qed.
Lemma starts_mem : forall s, starts 34 s = true -> mem 34 s = true.
Proof. intros [|c s] H; [discriminate|]. cbn in H. apply N.eqb_eq in H. subst c. reflexivity. Qed.
Lemma list_back : forall l, l <> [] -> forallb tok_ok l = true -> token_list (34 :: join [44] l ++ [34]) = l.
Proof.
  intros l NE H. rewrite forallb_forall in H. unfold token_list. rewrite trim_quoted, ends_quote. cbn [starts]. rewrite N.eqb_refl. cbn [andb]. rewrite unquote_quoted.
  rewrite split_on_join; [|exact NE|].
  - clear NE. induction l as [|t l IH]; [reflexivity|]. cbn [map filter]. assert (T : tok_ok t = true) by (apply H; now left). rewrite trim_word by (intros c Hc; now apply (tok_free t)).
    destruct (str_eqb t []) eqn:E; [apply str_eqb_spec in E; subst t; discriminate T|]. cbn [negb]. f_equal. apply IH. intros x Hx. apply H. now right.
  - apply Forall_forall. intros t Ht. apply mem_false. intros K. apply (tok_free t 44) in K; [tauto|now apply H].
Qed.
Lemma value_back : forall F (ops : f64_ops F) t v, valid ops v = true -> sendable ops t v -> v <> VBool false -> from_value ops t (to_value ops v) = Some v.
Proof.
  intros F ops t v V S NF. destruct v as [b|s|l|s|n]; cbn [sendable] in S.
  - destruct b; [reflexivity|congruence].
  - destruct S as (S1 & S2). cbn [to_value from_value]. rewrite trim_word by (intros c Hc; now apply (tok_free s)).
    assert (M : mem 34 s = false) by (apply mem_false; intros K; apply (tok_free s 34) in K; [tauto|exact V]). rewrite M, S1. cbn [andb].
    destruct (starts 34 s) eqn:ST; [apply starts_mem in ST; congruence|]. cbn [andb]. rewrite S2. unfold checked. now rewrite V.
  - destruct S as (S1 & S2). destruct l as [|x l]; [congruence|]. cbn [valid] in V. apply andb_true_iff in V as (V1 & V2). cbv beta iota zeta delta [to_value from_value]. rewrite trim_quoted, quoted_quoted. cbn [negb andb]. rewrite andb_false_r, S1, list_back by assumption. unfold checked. cbn [valid]. now rewrite V1, V2.
  - cbn [to_value from_value]. rewrite trim_quoted, quoted_quoted. cbn [negb andb]. rewrite andb_false_r, S, ends_quote. cbn [starts]. rewrite N.eqb_refl. cbn [andb]. rewrite unquote_quoted. unfold checked. now rewrite V.
  - destruct S as (S1 & S2 & S3 & S4). cbn [to_value from_value]. rewrite S3. assert (M : mem 34 (f_write ops n) = false) by now apply mem_false. rewrite M, S1. cbn [andb]. destruct (starts 34 (f_write ops n)) eqn:ST; [apply starts_mem in ST; congruence|]. cbn [andb]. rewrite S2. unfold checked. now rewrite V.
Qed.
(** the parameters *)
Definition put_all {F} (ops : f64_ops F) (l : caps F) (m : list (str * option str)) : list (str * option str) :=
  fold_left (fun m p => match snd p with VBool false => m | v => bput (param_name (fst p)) (to_value ops v) m end) l m.
Lemma put_step : forall F (ops : f64_ops F) t v l m, put_all ops ((t, v) :: l) m = put_all ops l (match v with VBool false => m | v => bput (param_name t) (to_value ops v) m end).
Proof. intros F ops t v l m. unfold put_all. cbn [fold_left fst snd]. now destruct v as [[]| | | | ]. Qed.
Lemma put_sorted : forall F (ops : f64_ops F) l m, sorted_keys m -> sorted_keys (put_all ops l m).
Proof. intros F ops. induction l as [|(t, v) l IH]; intros m H; [exact H|]. rewrite put_step. apply IH. destruct v as [[]| | | | ]; try exact H; now apply bput_sorted. Qed.
Lemma put_in : forall F (ops : f64_ops F) l m e, In e (put_all ops l m) -> In e m \/ exists t v, In (t, v) l /\ v <> VBool false /\ e = (param_name t, to_value ops v).
Proof.
  intros F ops. induction l as [|(t, v) l IH]; intros m e H; [now left|]. rewrite put_step in H. apply IH in H as [H|(t' & v' & A & B & C)]; [|right; exists t', v'; split; [now right|now split]].
  destruct v as [[]| | | | ]; try (now left); apply bput_in in H as [H|H]; try (now left); right; eexists t, _; (split; [now left|split; [discriminate|exact H]]).
Qed.
Lemma put_get : forall F (ops : f64_ops F) t v l m, (forall w, In (t, w) l -> w = v) -> v <> VBool false ->
  (In (t, v) l \/ bget (param_name t) m = Some (to_value ops v)) -> bget (param_name t) (put_all ops l m) = Some (to_value ops v).
Proof.
  intros F ops t v. induction l as [|(t', v') l IH]; intros m U NF H; [destruct H as [[]|H]; exact H|]. rewrite put_step. apply IH; [intros w Hw; apply U; now right|exact NF|].
  destruct H as [[H|H]|H]; [|now left|].
  - right. injection H as -> ->. destruct v as [[]| | | | ]; try congruence; apply bget_bput.
  - destruct (N.eq_dec (tag_ix t) (tag_ix t')) as [E|E].
    + apply ix_inj in E. subst t'. right. assert (v' = v) by (apply U; now left). subst v'. destruct v as [[]| | | | ]; try congruence; apply bget_bput.
    + right. assert (NN : param_name t <> param_name t') by (intros K; apply name_inj in K; congruence). destruct v' as [[]| | | | ]; try exact H; rewrite bget_bput_other by exact NN; exact H.
Qed.
Lemma bget_in : forall V k (v : V) m, bget k m = Some v -> In (k, v) m.
Proof. intros V k v m H. unfold bget in H. induction m as [|(x, w) m IH]; [discriminate|]. cbn [lookup] in H. destruct (str_eqb k x) eqn:E; [apply str_eqb_spec in E; injection H as ->; left; now subst|right; now apply IH]. Qed.
Lemma params_back : forall F (ops : f64_ops F) (val : tag -> value F) m acc, (forall e, In e m -> exists t, fst e = param_name t /\ from_value ops t (snd e) = Some (val t)) ->
  exists r, from_params ops m acc = Some r /\ forall t, cget t r = if existsb (str_eqb (param_name t)) (keys m) then Some (val t) else cget t acc.
Proof.
  intros F ops val. induction m as [|(n, o) m IH]; intros acc H; [exists acc; split; reflexivity|]. cbn [from_params]. destruct (H (n, o)) as (t & E1 & E2); [now left|]. cbn [fst snd] in *. subst n. rewrite name_back, E2.
  destruct (IH (cput t (val t) acc)) as (r & R1 & R2); [intros e He; apply H; now right|]. exists r. split; [exact R1|]. intros u. rewrite R2. cbn [keys map fst existsb]. change (map fst m) with (keys m). destruct (existsb (str_eqb (param_name u)) (keys m)); [now rewrite orb_true_r|]. rewrite orb_false_r.
  destruct (str_eqb (param_name u) (param_name t)) eqn:E.
  - apply str_eqb_spec in E. apply name_inj in E. subst u. apply cget_cput.
  - apply str_eqb_neq in E. apply cget_other. congruence.
Qed.
(** C152: the capabilities that can be told are read from the parameters of a
    Contact header as they were, but for those that are false, which are not told *)
Theorem C152_roundtrip : forall F (ops : f64_ops F) s, NoDup (map fst s) -> (forall t v, In (t, v) s -> valid ops v = true /\ sendable ops t v) ->
  exists m r, to_params ops s = Some m /\ from_params ops m [] = Some r
  /\ forall t, cget t r = match cget t s with Some (VBool false) => None | o => o end.
Proof.
  intros F ops s ND H. unfold to_params. assert (V : forallb (fun p => valid ops (snd p)) s = true) by (apply forallb_forall; intros (t, v) Hp; now apply (H t v)). rewrite V. fold (put_all ops s []). eexists.
  assert (U : forall t v w, In (t, v) s -> In (t, w) s -> w = v).
  { clear - ND. induction s as [|(t', v') s IH]; intros t v w A B; [destruct A|]. cbn [map fst] in ND. inversion ND as [|? ? N1 N2]; subst. destruct A as [A|A], B as [B|B].
    - congruence.
    - injection A as -> ->. exfalso. apply N1. apply in_map_iff. now exists (t, w).
    - injection B as -> ->. exfalso. apply N1. apply in_map_iff. now exists (t, v).
    - now apply (IH N2 t). }
  assert (G : forall t v, In (t, v) s -> cget t s = Some v).
  { intros t v Hv. destruct (cget t s) as [w|] eqn:E; [f_equal; apply (U t v w Hv), (cget_in F t w s E)|]. unfold cget in E. destruct (find _ s) as [p|] eqn:K; [discriminate|]. pose proof (find_none _ _ K (t, v) Hv) as X. cbn [fst] in X. rewrite N.eqb_refl in X. discriminate. }
  destruct (params_back F ops (fun t => match cget t s with Some v => v | None => VBool true end) (put_all ops s []) []) as (r & R1 & R2).
  - intros e He. apply put_in in He as [[]|(t & v & A & B & ->)]. exists t. split; [reflexivity|]. cbn [snd]. rewrite (G t v A). apply value_back; [apply (H t v A)|apply (H t v A)|exact B].
  - exists r. split; [reflexivity|]. split; [exact R1|]. intros t. rewrite R2. destruct (existsb (str_eqb (param_name t)) (keys (put_all ops s []))) eqn:E.
    + apply existsb_exists in E as (k & K1 & K2). apply str_eqb_spec in K2. subst k. unfold keys in K1. apply in_map_iff in K1 as (e & E1 & E2). apply put_in in E2 as [[]|(t' & v & A & B & ->)]. cbn [fst] in E1. apply name_inj in E1. subst t'. rewrite (G t v A). destruct v as [[]| | | | ]; congruence.
    + destruct (cget t s) as [v|] eqn:C; [|reflexivity]. destruct v as [[]| | | | ]; try reflexivity; exfalso; apply cget_in in C as C';
      (match type of C with _ = Some ?v => assert (X : bget (param_name t) (put_all ops s []) = Some (to_value ops v)) by (apply put_get; [intros w Hw; apply (U t _ w C' Hw)|discriminate|now left]) end);
      apply bget_in in X; rewrite <- not_true_iff_false, existsb_exists in E; apply E; exists (param_name t); (split; [unfold keys; apply in_map_iff; eexists; split; [|exact X]; reflexivity|apply str_eqb_refl]).
Qed.
Print Assumptions C152_roundtrip.

(** C152: capabilities match requirements if and only if each required feature is
    there with a value that satisfies it *)
Lemma values_iff : forall F (ops : f64_ops F) a b, values_match ops a b = true <-> satisfies ops a b.
Proof.
  intros F ops a b. destruct a as [x|x|x|x|x], b as [y|y|y|y|y]; cbn [values_match satisfies]; try (split; [discriminate|contradiction]).
  - destruct x, y; cbn; split; congruence.
  - apply eq_ic_spec.
  - rewrite !andb_true_iff, forallb_forall. unfold llen. split.
    + intros ((A & B) & C). split; [lia|]. split; [lia|]. intros z Hz. specialize (C z Hz). apply existsb_exists in C as (w & W1 & W2). apply str_eqb_spec in W2. now exists w.
    + intros (A & B & C). split; [split; lia|]. intros z Hz. destruct (C z Hz) as (w & W1 & W2). apply existsb_exists. exists w. split; [exact W1|]. now apply str_eqb_spec.
  - apply str_eqb_spec.
  - rewrite !andb_true_iff. tauto.
Qed.
Lemma met_iff : forall F (ops : f64_ops F) have f, match cget (fst f) have with Some w => values_match ops (snd f) w | None => false end = true <-> met ops have f.
Proof.
  intros F ops have f. unfold met. destruct (cget (fst f) have) as [w|].
  - rewrite values_iff. split; [intros H; now exists w|intros (w' & [= ->] & H); exact H].
  - split; [discriminate|intros (w & K & _); discriminate].
Qed.
Theorem C152_matches : forall F (ops : f64_ops F) have req, caps_match ops have req = true <-> forall f, In f req -> met ops have f.
Proof.
  intros F ops have req. unfold caps_match. rewrite forallb_forall. split; intros H f Hf; specialize (H f Hf); now apply met_iff.
Qed.
Print Assumptions C152_matches.

(** numbers for the examples: natural numbers in decimals *)
Definition nat_ops : f64_ops N := mkF64 N (parse_uint u32_max) print_N (fun n => n <? 1000) N.eqb.
Definition phone_caps : caps N := [(Audio, VBool true); (Video, VBool false); (Mobility, VTok (lit "fixed")); (Description, VStr (lit "desk 4")); (Priority, VList [lit "urgent"]); (Methods, VList [lit "INVITE"; lit "BYE"])].
Example C152_hypotheses_met : NoDup (map fst phone_caps) /\ (forall t v, In (t, v) phone_caps -> valid nat_ops v = true /\ sendable nat_ops t v)
  /\ to_params nat_ops phone_caps = Some [(lit "audio", None); (lit "description", Some (34 :: lit "desk 4" ++ [34])); (lit "methods", Some (34 :: lit "INVITE,BYE" ++ [34])); (lit "mobility", Some (lit "fixed")); (lit "priority", Some (34 :: lit "urgent" ++ [34]))]
  /\ caps_match nat_ops phone_caps [(Audio, VBool true); (Methods, VList [lit "bye"])] = true.
Proof.
  split; [repeat constructor; cbn; intuition discriminate|]. split.
  - intros t v H. cbn in H. repeat destruct H as [H|H]; try contradiction; injection H as <- <-; (split; [vm_compute; reflexivity|]); cbn; try exact I; try reflexivity; (split; [reflexivity|]); try discriminate; vm_compute; reflexivity.
  - split; vm_compute; reflexivity.
Qed.

(** C152, refuted: a user agent that supports no method at all says it supports
    the feature; a token that looks like a number comes back as a number; one
    called inf makes the whole Contact unreadable *)
Theorem C152_roundtrip_refuted :
  (forall F (ops : f64_ops F), exists m, to_params ops [(Methods, VList [])] = Some m /\ from_params ops m [] = Some [(Methods, VBool true)])
  /\ (forall F (ops : f64_ops F) n, f_read ops (lit "5") = Some n -> f_finite ops n = true -> exists m, to_params ops [(Class, VTok (lit "5"))] = Some m /\ from_params ops m [] = Some [(Class, VNum n)])
  /\ (forall F (ops : f64_ops F) n, f_read ops (lit "inf") = Some n -> f_finite ops n = false -> exists m, to_params ops [(Audio, VBool true); (Class, VTok (lit "inf"))] = Some m /\ from_params ops m [] = None).
Proof.
  split; [|split].
  - intros F ops. eexists. split; [reflexivity|]. vm_compute. reflexivity.
  - intros F ops n R N. eexists. split; [reflexivity|]. assert (FV : from_value ops Class (Some (lit "5")) = Some (VNum n)).
    { unfold from_value. change (trim (lit "5")) with (lit "5"). cbv zeta. change (mem 34 (lit "5") && negb (quoted (lit "5"))) with false. change (is_list Class) with false. change (starts 34 (lit "5") && ends 34 (lit "5")) with false. cbv iota. rewrite R. unfold checked. cbn [valid]. now rewrite N. }
    change (from_params ops [(param_name Class, Some (lit "5"))] [] = Some [(Class, VNum n)]). cbn [from_params]. rewrite name_back, FV. reflexivity.
  - intros F ops n R N. eexists. split; [reflexivity|]. assert (FV : from_value ops Class (Some (lit "inf")) = None).
    { unfold from_value. change (trim (lit "inf")) with (lit "inf"). cbv zeta. change (mem 34 (lit "inf") && negb (quoted (lit "inf"))) with false. change (is_list Class) with false. change (starts 34 (lit "inf") && ends 34 (lit "inf")) with false. cbv iota. rewrite R. unfold checked. cbn [valid]. now rewrite N. }
    change (from_params ops [(param_name Audio, None); (param_name Class, Some (lit "inf"))] [] = None). cbn [from_params]. rewrite !name_back, FV. reflexivity.
Qed.
Print Assumptions C152_roundtrip_refuted.
(** C152, refuted: RFC 3840 writes values in quotes; then they are texts, which
    match no token and no truth value: no parameter at all is read as false *)
Theorem C152_quoted_refuted : forall F (ops : f64_ops F),
  from_value ops Mobility (Some (34 :: lit "fixed" ++ [34])) = Some (VStr (lit "fixed"))
  /\ caps_match ops [(Mobility, VStr (lit "fixed"))] [(Mobility, VTok (lit "fixed"))] = false
  /\ from_value ops Video (Some (34 :: lit "FALSE" ++ [34])) = Some (VStr (lit "FALSE"))
  /\ forall t o, from_value ops t o <> Some (VBool false).
Proof.
  intros F ops. split; [vm_compute; reflexivity|]. split; [vm_compute; reflexivity|]. split; [vm_compute; reflexivity|]. intros t [v|]; [|discriminate]. cbn [from_value]. destruct (mem 34 (trim v) && negb (quoted (trim v))); [discriminate|].
  assert (C : forall w, w <> VBool false -> checked ops w <> Some (VBool false)) by (intros w Hw; unfold checked; destruct (valid ops w); congruence). destruct (is_list t); [apply C; discriminate|]. destruct (starts 34 (trim v) && ends 34 (trim v)); [apply C; discriminate|]. destruct (f_read ops (trim v)); apply C; discriminate.
Qed.
Print Assumptions C152_quoted_refuted.

(** ** C153 *)
Lemma count_spec : forall F (ops : f64_ops F) have req, exists n, met_count ops have req n /\ n <= llen req /\ (n = llen req <-> forall f, In f req -> met ops have f)
  /\ forall require k, count_matches ops require have req k = if require && negb (n =? llen req) then None else Some (k + n).
Proof.
  intros F ops have. induction req as [|(t, v) req IH].
  - exists 0. split; [constructor|]. split; [cbn; lia|]. split; [split; [intros _ f []|reflexivity]|]. intros require k. cbn. rewrite andb_false_r. f_equal. lia.
  - destruct IH as (n & I1 & I2 & I3 & I4). assert (L : llen ((t, v) :: req) = llen req + 1) by (unfold llen; cbn [List.length]; lia). destruct (match cget t have with Some w => values_match ops v w | None => false end) eqn:E.
    + assert (M : met ops have (t, v)) by now apply met_iff. exists (n + 1). split; [now constructor|]. split; [lia|]. split.
      * split; [intros K f [<-|Hf]; [exact M|]; apply I3; [lia|exact Hf]|]. intros K. assert (n = llen req) by (apply I3; intros f Hf; apply K; now right). lia.
      * intros require k. cbn [count_matches]. cbv zeta. rewrite E, I4, L. replace (n + 1 =? llen req + 1) with (n =? llen req) by lia. destruct (require && negb (n =? llen req)); [reflexivity|f_equal; lia].
    + assert (M : ~ met ops have (t, v)) by (intros M; apply met_iff in M; cbn [fst snd] in M; congruence). exists n. split; [now constructor|]. split; [lia|]. split.
      * split; [intros K; lia|]. intros K. exfalso. apply M. apply K. now left.
      * intros require k. cbn [count_matches]. cbv zeta. rewrite E, I4, L. assert (X : (n =? llen req + 1) = false) by lia. rewrite X. destruct require; [reflexivity|]. cbn. reflexivity.
Qed.
Lemma scores_iff : forall F (ops : f64_ops F) a have adv, scores ops a have adv (score ops a have adv).
Proof.
  intros F ops a have adv. unfold scores, score. destruct (ac_features a) as [|f fs] eqn:E; [left; split; [reflexivity|apply Qeq_refl]|]. right. destruct (ac_explicit a && negb adv) eqn:X.
  - left. apply andb_true_iff in X as (X1 & X2). apply negb_true_iff in X2. split; [discriminate|]. split; [exact X1|]. split; [exact X2|apply Qeq_refl].
  - right. split; [discriminate|]. split; [intros K; rewrite K in X; cbn in X; now apply negb_false_iff|]. destruct (count_spec F ops have (f :: fs)) as (n & C1 & _ & _ & C4). exists n. split; [exact C1|]. rewrite C4. destruct (ac_require a && negb (n =? llen (f :: fs))); [apply Qeq_refl|]. rewrite N.add_0_l. apply Qeq_refl.
Qed.
Lemma met_count_fun : forall F (ops : f64_ops F) have req n, met_count ops have req n -> forall k, met_count ops have req k -> n = k.
Proof. intros F ops have req n H. induction H as [|f r n M H IH|f r n M H IH]; intros k K; inversion K; subst; try contradiction; [reflexivity|f_equal; now apply IH|now apply IH]. Qed.
Lemma scores_fun : forall F (ops : f64_ops F) a have adv s s', scores ops a have adv s -> scores ops a have adv s' -> (s == s')%Q.
Proof.
  intros F ops a have adv s s' [(A & B)|[(A & B & C & D)|(A & B & n & C & D)]] [(A' & B')|[(A' & B' & C' & D')|(A' & B' & n' & C' & D')]]; try contradiction; try congruence.
  - rewrite B, B'. reflexivity.
  - rewrite D, D'. reflexivity.
  - rewrite B' in C by assumption. discriminate.
  - rewrite B in C' by assumption. discriminate.
  - assert (n = n') by (now apply (met_count_fun F ops have (ac_features a))). subst n'. destruct (ac_require a && negb (n =? llen (ac_features a))); rewrite D, D'; reflexivity.
Qed.
Lemma scores_eq : forall F (ops : f64_ops F) a have adv s s', scores ops a have adv s -> (s == s')%Q -> scores ops a have adv s'.
Proof.
  intros F ops a have adv s s' [(A & B)|[(A & B & C & D)|(A & B & n & C & D)]] E; [left; split; [exact A|]; now rewrite <- E|right; left; repeat split; try assumption; now rewrite <- E|].
  right. right. split; [exact A|]. split; [exact B|]. exists n. split; [exact C|]. destruct (ac_require a && negb (n =? llen (ac_features a))); now rewrite <- E.
Qed.
(** C153: a score is between 0 and 1, and 1 exactly if the preference is met; with
    [require] there is nothing between *)
Theorem C153_score : forall F (ops : f64_ops F) a have adv,
  scores ops a have adv (score ops a have adv) /\ (0 <= score ops a have adv <= 1)%Q
  /\ (score ops a have adv == 1 <-> ac_features a = [] \/ ((ac_explicit a = true -> adv = true) /\ forall f, In f (ac_features a) -> met ops have f))%Q
  /\ (ac_require a = true -> score ops a have adv == 0 \/ score ops a have adv == 1)%Q.
Proof.
  intros F ops a have adv. split; [apply scores_iff|]. unfold score. destruct (ac_features a) as [|f fs] eqn:E; [split; [split; discriminate|split; [split; [now left|intros _; apply Qeq_refl]|intros _; right; apply Qeq_refl]]|].
  destruct (ac_explicit a && negb adv) eqn:X.
  - split; [split; discriminate|]. split; [|intros _; left; apply Qeq_refl]. split; [discriminate|]. intros [K|(K & _)]; [discriminate|]. apply andb_true_iff in X as (X1 & X2). apply negb_true_iff in X2. rewrite (K X1) in X2. discriminate.
  - destruct (count_spec F ops have (f :: fs)) as (n & _ & C2 & C3 & C4). rewrite C4, N.add_0_l.
    assert (EX : ac_explicit a = true -> adv = true) by (intros K; rewrite K in X; cbn in X; now apply negb_false_iff).
    assert (LP : 0 < llen (f :: fs)) by (unfold llen; cbn [List.length]; lia). remember (llen (f :: fs)) as k eqn:K.
    assert (KQ : (0 < inject_Z (Z.of_N k))%Q) by (unfold Qlt; cbn; lia).
    destruct (n =? k) eqn:NK; cbn [negb].
    + apply N.eqb_eq in NK. subst n. rewrite andb_false_r. assert (Q1 : (inject_Z (Z.of_N k) / inject_Z (Z.of_N k) == 1)%Q) by (apply Qmult_inv_r; intros Z; rewrite Z in KQ; discriminate KQ).
      split; [rewrite Q1; split; discriminate|]. split; [|intros _; now right]. split; [intros _; right; split; [exact EX|now apply C3]|intros _; exact Q1].
    + rewrite andb_true_r. apply N.eqb_neq in NK. assert (NC : ~ (forall g, In g (f :: fs) -> met ops have g)) by (intros Z; apply NK; now apply C3).
      destruct (ac_require a).
      * split; [split; discriminate|]. split; [split; [discriminate|intros [Z|(_ & Z)]; [discriminate|contradiction]]|]. intros _. left. apply Qeq_refl.
      * assert (Q2 : (inject_Z (Z.of_N n) / inject_Z (Z.of_N k) < 1)%Q) by (apply Qlt_shift_div_r; [exact KQ|]; rewrite Qmult_1_l; rewrite <- Zlt_Qlt; lia).
        split; [split; [apply Qle_shift_div_l; [exact KQ|]; rewrite Qmult_0_l; unfold Qle; cbn; lia|now apply Qlt_le_weak]|]. split; [|discriminate]. split; [intros Z; rewrite Z in Q2; discriminate Q2|intros [Z|(_ & Z)]; [discriminate|contradiction]].
Qed.
Print Assumptions C153_score.

Lemma total_spec : forall F (ops : f64_ops F) acs have adv sum,
  match total_score ops acs have adv sum with
  | Some t => (forall a, In a acs -> ac_require a = true -> ~ scores ops a have adv 0) /\ (t == sum + fold_right Qplus 0 (map (fun a => score ops a have adv) acs))%Q
  | None => exists a, In a acs /\ ac_require a = true /\ scores ops a have adv 0
  end.
Proof.
  intros F ops. induction acs as [|a acs IH]; intros have adv sum; cbn [total_score].
  - split; [intros a []|]. cbn. now rewrite Qplus_0_r.
  - cbv zeta. destruct (ac_require a && Qeq_bool (score ops a have adv) 0) eqn:E.
    + apply andb_true_iff in E as (E1 & E2). apply Qeq_bool_iff in E2. exists a. split; [now left|]. split; [exact E1|]. apply (scores_eq F ops a have adv (score ops a have adv)); [apply scores_iff|exact E2].
    + specialize (IH have adv (sum + score ops a have adv)%Q). destruct (total_score ops acs have adv (sum + score ops a have adv)) as [t|].
      * destruct IH as (I1 & I2). split.
        -- intros b [<-|Hb] R S; [|now apply (I1 b)]. assert (Z : (score ops a have adv == 0)%Q) by (apply (scores_fun F ops a have adv); [apply scores_iff|exact S]). rewrite R in E. cbn in E. apply Qeq_bool_neq in E. contradiction.
        -- rewrite I2. cbn [map fold_right]. ring.
      * destruct IH as (b & B1 & B2). exists b. split; [now right|exact B2].
Qed.
Lemma rejects_iff : forall F (ops : f64_ops F) fs have adv, rejects ops fs have adv = true <-> fs <> [] /\ adv = true /\ forall f, In f fs -> met ops have f.
Proof.
  intros F ops fs have adv. unfold rejects. destruct fs as [|f fs]; [split; [discriminate|intros (K & _); contradiction]|]. rewrite andb_true_iff, forallb_forall. split.
  - intros (A & B). split; [discriminate|]. split; [exact A|]. intros g Hg. apply met_iff. now apply B.
  - intros (_ & A & B). split; [exact A|]. intros g Hg. apply met_iff. now apply B.
Qed.
Lemma judge_spec : forall F (ops : f64_ops F) acs rcs p, verdict ops acs rcs p (judge ops acs rcs (fst p) (snd p)).
Proof.
  intros F ops acs rcs (c, have). unfold verdict, judge. cbn [fst snd]. destruct (existsb (fun fs => rejects ops fs have (sc_explicit c)) rcs) eqn:R.
  - left. split; [reflexivity|]. left. apply existsb_exists in R as (fs & R1 & R2). apply rejects_iff in R2 as (R2 & R3 & R4). now exists fs.
  - assert (NR : ~ exists fs, In fs rcs /\ fs <> [] /\ sc_explicit c = true /\ forall f, In f fs -> met ops have f).
    { intros (fs & A & B). rewrite <- not_true_iff_false in R. apply R. apply existsb_exists. exists fs. split; [exact A|]. now apply rejects_iff. }
    pose proof (total_spec F ops acs have (sc_explicit c) 0) as T. destruct acs as [|a acs].
    + right. split; [intros [K|(b & [] & _)]; contradiction|]. exists (sc_qa c). split; [left; now split|]. now destruct c.
    + destruct (total_score ops (a :: acs) have (sc_explicit c) 0) as [t|].
      * destruct T as (T1 & T2). right. split; [intros [K|(b & B1 & B2 & B3)]; [contradiction|now apply (T1 b B1 B2)]|]. eexists. split; [|reflexivity]. right. split; [discriminate|]. exists (map (fun a => score ops a have (sc_explicit c)) (a :: acs)). split.
        -- clear. induction (a :: acs) as [|b l IH]; constructor; [apply scores_iff|exact IH].
        -- rewrite T2, Qplus_0_l. reflexivity.
      * left. split; [reflexivity|]. right. exact T.
Qed.
(** the sort *)
Lemma before_iff : forall a b, before a b = true <-> not_after a b.
Proof.
  intros a b. unfold before, not_after. destruct (Qcompare (sc_q b) (sc_q a)) eqn:E.
  - apply Qeq_alt in E. rewrite Qle_bool_iff. split; [intros H; right; now split|]. intros [K|(_ & K)]; [rewrite E in K; exfalso; now apply (Qlt_irrefl (sc_q a))|exact K].
  - apply Qlt_alt in E. split; [intros _; now left|reflexivity].
  - apply Qgt_alt in E. split; [discriminate|]. intros [K|(K & _)]; exfalso; [apply (Qlt_irrefl (sc_q a)); now apply (Qlt_trans _ (sc_q b))|rewrite K in E; now apply (Qlt_irrefl (sc_q a))].
Qed.
Lemma before_total : forall a b, before a b = false -> not_after b a.
Proof.
  intros a b H. destruct (before b a) eqn:E; [now apply before_iff|]. exfalso. unfold before in *. destruct (Qcompare (sc_q b) (sc_q a)) eqn:C.
  - assert (C' : Qcompare (sc_q a) (sc_q b) = Eq) by (apply Qeq_alt; apply Qeq_alt in C; now symmetry). rewrite C' in E. assert (A : ~ (sc_qa b <= sc_qa a)%Q) by (intros K; apply Qle_bool_iff in K; congruence). assert (B : ~ (sc_qa a <= sc_qa b)%Q) by (intros K; apply Qle_bool_iff in K; congruence). apply Qnot_le_lt in A. apply B. now apply Qlt_le_weak.
  - discriminate.
  - apply Qgt_alt in C. assert (C' : Qcompare (sc_q a) (sc_q b) = Lt) by now apply Qlt_alt. rewrite C' in E. discriminate.
Qed.
Lemma not_after_trans : forall a b c, not_after a b -> not_after b c -> not_after a c.
Proof.
  unfold not_after. intros a b c [H|(H1 & H2)] [K|(K1 & K2)].
  - left. now apply (Qlt_trans _ (sc_q b)).
  - left. now rewrite K1.
  - left. now rewrite <- H1.
  - right. split; [now rewrite K1|]. now apply (Qle_trans _ (sc_qa b)).
Qed.
Lemma place_perm : forall c l, Permutation (place c l) (c :: l).
Proof. intros c. induction l as [|x l IH]; [reflexivity|]. cbn [place]. destruct (before c x); [reflexivity|]. rewrite IH. apply perm_swap. Qed.
Lemma place_sorted : forall c l, StronglySorted not_after l -> StronglySorted not_after (place c l).
Proof.
  intros c. induction l as [|x l IH]; intros H; [constructor; constructor|]. cbn [place]. inversion H as [|? ? H1 H2]; subst. destruct (before c x) eqn:E.
  - apply before_iff in E. constructor; [exact H|]. constructor; [exact E|]. rewrite Forall_forall in *. intros y Hy. apply (not_after_trans c x y E). now apply H2.
  - constructor; [now apply IH|]. rewrite Forall_forall in *. intros y Hy. apply (Permutation_in _ (place_perm c l)) in Hy. destruct Hy as [<-|Hy]; [now apply before_total|now apply H2].
Qed.
Lemma tied_before : forall a c x, tied a c = true -> tied a x = true -> before c x = true.
Proof.
  unfold tied. intros a c x H K. apply andb_true_iff in H as (H1 & H2). apply andb_true_iff in K as (K1 & K2). apply Qeq_bool_iff in H1, H2, K1, K2. apply before_iff. right. split; [now rewrite <- H1, <- K1|]. rewrite <- H2, <- K2. apply Qle_refl.
Qed.
Lemma place_stable : forall a c l, filter (tied a) (place c l) = filter (tied a) (c :: l).
Proof.
  intros a c. induction l as [|x l IH]; [reflexivity|]. cbn [place]. destruct (before c x) eqn:E; [reflexivity|]. cbn [filter] in *. rewrite IH. destruct (tied a c) eqn:C, (tied a x) eqn:X; try reflexivity. rewrite (tied_before a c x C X) in E. discriminate.
Qed.
Lemma sort_spec : forall l, Permutation (sort_contacts l) l /\ StronglySorted not_after (sort_contacts l) /\ forall a, filter (tied a) (sort_contacts l) = filter (tied a) l.
Proof.
  induction l as [|c l (I1 & I2 & I3)]; [split; [reflexivity|split; [constructor|reflexivity]]|]. unfold sort_contacts. cbn [fold_right]. fold (sort_contacts l). split; [rewrite place_perm; now constructor|]. split; [now apply place_sorted|]. intros a. rewrite place_stable. cbn [filter]. now rewrite I3.
Qed.
(** C153: of the contacts, those that a Reject-Contact matches or that fail a
    required Accept-Contact are dropped; the others are each given the average of
    their scores and put in order of q, then of that average, and otherwise kept
    in the order they had *)
Theorem C153_contacts : forall F (ops : f64_ops F) cs acs rcs haves out, score_contacts ops cs acs rcs haves = Some out ->
  exists os, Forall2 (verdict ops acs rcs) (combine cs haves) os
  /\ Permutation (opt_filter os) out /\ StronglySorted not_after out /\ forall a, filter (tied a) out = filter (tied a) (opt_filter os).
Proof.
  intros F ops cs acs rcs haves out H. unfold score_contacts in H. destruct (_ || _ || _ || _); [discriminate|]. injection H as <-. exists (map (fun p => judge ops acs rcs (fst p) (snd p)) (combine cs haves)). split.
  - induction (combine cs haves) as [|p l IH]; constructor; [apply judge_spec|exact IH].
  - destruct (sort_spec (opt_filter (map (fun p => judge ops acs rcs (fst p) (snd p)) (combine cs haves)))) as (S1 & S2 & S3). split; [now symmetry|]. now split.
Qed.
Print Assumptions C153_contacts.
Theorem C153_limits : forall F (ops : f64_ops F) cs acs rcs haves,
  score_contacts ops cs acs rcs haves <> None <-> (llen cs <= 1024 /\ llen acs <= 32 /\ llen rcs <= 32 /\ List.length cs = List.length haves).
Proof.
  intros F ops cs acs rcs haves. unfold score_contacts, llen. destruct ((1024 <? _) || _ || _ || _) eqn:E; [split; [congruence|lia]|]. split; [lia|discriminate].
Qed.
Print Assumptions C153_limits.

Definition desk : contact := mkContact (lit "sip:desk@h") (1 # 2) 1 true.
Definition mobile : contact := mkContact (lit "sip:mobile@h") (1 # 2) 1 true.
Definition robot : contact := mkContact (lit "sip:robot@h") 1 1 true.
Definition wants_video : accept_contact N := mkAccept [(Audio, VBool true); (Video, VBool true)] false false.
Example C153_hypotheses_met :
  exists a b, score_contacts nat_ops [desk; mobile; robot] [wants_video] [[(Automata, VBool true)]]
    [[(Audio, VBool true)]; [(Audio, VBool true); (Video, VBool true)]; [(Automata, VBool true)]] = Some [a; b]
  /\ sc_uri a = lit "sip:mobile@h" /\ (sc_qa a == 1)%Q /\ sc_uri b = lit "sip:desk@h" /\ (sc_qa b == 1 # 2)%Q.
Proof. do 2 eexists. split; [vm_compute; reflexivity|]. repeat split; reflexivity. Qed.

(** C153, refuted: a contact that has told no features should be immune (its score
    should stay 1), but it is scored 0 and dropped *)
Theorem C153_immune_refuted : exists c,
  sc_explicit c = false /\ score_contacts nat_ops [c] [mkAccept [(Video, VBool true)] true false] [] [[]] = Some []
  /\ exists c', score_contacts nat_ops [c] [mkAccept [(Video, VBool true)] false false] [] [[]] = Some [c'] /\ (sc_qa c' == 0)%Q.
Proof. exists (mkContact (lit "sip:plain@h") 1 1 false). split; [reflexivity|]. split; [vm_compute; reflexivity|]. eexists. split; [vm_compute; reflexivity|reflexivity]. Qed.
Print Assumptions C153_immune_refuted.

(** ** C154 *)
Definition words (s : str) : list str := map trim (split_on 44 s).
Lemma last_nil : forall yes no, last_says yes no [] None.
Proof. intros yes no w []. Qed.
Lemma last_skip : forall yes no ws w o, lower w <> yes -> lower w <> no -> last_says yes no ws o -> last_says yes no (ws ++ [w]) o.
Proof.
  intros yes no ws w [ch|] A B H; cbn [last_says] in *.
  - destruct H as (a & x & b & -> & E & L). exists a, x, (b ++ [w]). split; [now rewrite <- app_assoc|]. split; [exact E|]. intros y Hy. apply in_app_or in Hy as [Hy|[<-|[]]]; [now apply L|now split].
  - intros y Hy. apply in_app_or in Hy as [Hy|[<-|[]]]; [now apply H|now split].
Qed.
Lemma last_hit : forall yes no ws w ch, lower w = (match ch with Yes => yes | No => no end) -> last_says yes no (ws ++ [w]) (Some ch).
Proof. intros yes no ws w ch E. exists ws, w, []. split; [reflexivity|]. split; [exact E|intros x []]. Qed.
Definition says (ws : list str) (d : disposition) : Prop :=
  last_says (lit "proxy") (lit "redirect") ws (rd_proxy d) /\ last_says (lit "fork") (lit "no-fork") ws (rd_fork d)
  /\ last_says (lit "cancel") (lit "no-cancel") ws (rd_cancel d) /\ last_says (lit "recurse") (lit "no-recurse") ws (rd_recurse d)
  /\ last_says (lit "parallel") (lit "sequential") ws (rd_parallel d) /\ last_says (lit "queue") (lit "no-queue") ws (rd_queue d).
Lemma says_step : forall ws d w, says ws d -> says (ws ++ [w]) (directive d w).
Proof.
  intros ws [a b c e f g] w (H1 & H2 & H3 & H4 & H5 & H6). cbn [rd_proxy rd_fork rd_cancel rd_recurse rd_parallel rd_queue] in *. unfold directive.
  repeat match goal with |- context [if str_eqb (lower w) ?x then _ else _] => let K := fresh "K" in destruct (str_eqb (lower w) x) eqn:K; [apply str_eqb_spec in K; unfold says; cbn [rd_proxy rd_fork rd_cancel rd_recurse rd_parallel rd_queue]; refine (conj _ (conj _ (conj _ (conj _ (conj _ _))))); first [apply last_hit; exact K|apply last_skip; [rewrite K; discriminate|rewrite K; discriminate|assumption]]|apply str_eqb_neq in K] end.
  unfold says; cbn [rd_proxy rd_fork rd_cancel rd_recurse rd_parallel rd_queue]; refine (conj _ (conj _ (conj _ (conj _ (conj _ _))))); apply last_skip; assumption.
Qed.
Lemma says_all : forall l ws d, says ws d -> says (ws ++ l) (fold_left directive l d).
Proof. induction l as [|w l IH]; intros ws d H; [now rewrite app_nil_r|]. cbn [fold_left]. change (w :: l) with ([w] ++ l). rewrite app_assoc. apply IH. now apply says_step. Qed.
(** C154: what is read of each kind of directive is the last that is there, in any
    case, with any blanks round it and other words between; a text with a control
    character or without any directive is refused *)
Theorem C154_read : forall s,
  (forall d, parse_disposition s = Some d -> says (words s) d /\ d <> no_disposition)
  /\ (parse_disposition s = None <-> (exists c, In c s /\ (c < 32 \/ c = 127)) \/ says (words s) no_disposition).
Proof.
  intros s. assert (S : says (words s) (fold_left directive (words s) no_disposition)) by (apply (says_all (words s) [] no_disposition); refine (conj _ (conj _ (conj _ (conj _ (conj _ _))))); apply last_nil). unfold parse_disposition. fold (words s). destruct (existsb (fun c => (c <? 32) || (c =? 127)) s) eqn:C.
  - split; [discriminate|]. split; [|reflexivity]. intros _. left. apply existsb_exists in C as (c & C1 & C2). exists c. split; [exact C1|]. lia.
  - assert (NC : ~ exists c, In c s /\ (c < 32 \/ c = 127)) by (intros (c & C1 & C2); rewrite <- not_true_iff_false in C; apply C; apply existsb_exists; exists c; split; [exact C1|lia]).
    cbv zeta. destruct (fold_left directive (words s) no_disposition) as [a b c e f g] eqn:D. unfold rd_empty. cbn [rd_proxy rd_fork rd_cancel rd_recurse rd_parallel rd_queue].
    destruct (is_none a && is_none b && is_none c && is_none e && is_none f && is_none g) eqn:E.
    + destruct a, b, c, e, f, g; try discriminate E. split; [discriminate|]. split; [intros _; right; exact S|reflexivity].
    + split; [intros d [= <-]; split; [exact S|intros K; injection K as -> -> -> -> -> ->; discriminate E]|]. split; [discriminate|]. intros [K|K]; [contradiction|]. exfalso.
      assert (X : forall yes no ch, last_says yes no (words s) None -> ~ last_says yes no (words s) (Some ch)) by (intros yes no ch N (x & w & y & W1 & W2 & _); assert (I : In w (words s)) by (rewrite W1; apply in_or_app; right; now left); destruct (N w I) as (N1 & N2); destruct ch; contradiction).
      destruct S as (S1 & S2 & S3 & S4 & S5 & S6), K as (K1 & K2 & K3 & K4 & K5 & K6). cbn [rd_proxy rd_fork rd_cancel rd_recurse rd_parallel rd_queue no_disposition] in *.
      destruct a as [a|]; [now apply (X _ _ a K1)|]. destruct b as [b|]; [now apply (X _ _ b K2)|]. destruct c as [c|]; [now apply (X _ _ c K3)|]. destruct e as [e|]; [now apply (X _ _ e K4)|]. destruct f as [f|]; [now apply (X _ _ f K5)|]. destruct g as [g|]; [now apply (X _ _ g K6)|discriminate E].
Qed.
Print Assumptions C154_read.
Theorem C154_roundtrip : forall d, d <> no_disposition -> parse_disposition (disposition_text d) = Some d.
Proof.
  intros [a b c e f g] H. destruct a as [[]|], b as [[]|], c as [[]|], e as [[]|], f as [[]|], g as [[]|]; first [vm_compute; reflexivity|exfalso; now apply H].
Qed.
Print Assumptions C154_roundtrip.
Example C154_hypotheses_met : exists d, parse_disposition (lit "Proxy ,x, no-fork,redirect") = Some d /\ rd_proxy d = Some No /\ rd_fork d = Some No /\ disposition_text d = lit "redirect, no-fork".
Proof. eexists. split; [vm_compute; reflexivity|]. now repeat split. Qed.

(** the values that pass, the tags that take lists, and parameters that are no tags *)
Lemma token_iff : forall s, tok_ok s = true <-> token s.
Proof.
  intros s. unfold tok_ok, token. rewrite !andb_true_iff, negb_true_iff, str_eqb_neq, N.leb_le, forallb_forall.
  assert (C : forall c, tok_char c = true <-> (48 <= c <= 57 \/ 65 <= c <= 90 \/ 97 <= c <= 122) \/ In c (lit "-.!%*_+`'~")).
  { intros c. unfold tok_char. rewrite orb_true_iff, existsb_exists. assert (E : (exists x, In x (lit "-.!%*_+`'~") /\ (c =? x) = true) <-> In c (lit "-.!%*_+`'~")) by (split; [intros (x & X & K); apply N.eqb_eq in K; now subst|intros K; exists c; split; [exact K|apply N.eqb_refl]]). rewrite E. apply or_iff_compat_r. unfold is_alnum, is_alpha, is_upper, is_lower, is_digit, in_range. lia. }
  split; [intros ((L & E) & H); refine (conj E (conj L _)); intros c X; now apply C, H|intros (E & L & H); refine (conj (conj L E) _); intros c X; now apply C, H].
Qed.
Theorem C152_allowed : forall F (ops : f64_ops F) v, valid ops v = true <-> allowed ops v.
Proof.
  intros F ops [b|t|l|s|n]; cbn [valid allowed]; [tauto|apply token_iff|..|tauto].
  - unfold llen. rewrite andb_true_iff, N.leb_le, forallb_forall. split; intros (L & H); (split; [lia|]); intros t X; now apply token_iff, H.
  - unfold str_ok. rewrite andb_true_iff, N.leb_le, negb_true_iff. apply and_iff_compat_l. split.
    + intros E c C. destruct ((c <? 32) || (c =? 127) || (c =? 34)) eqn:K; [|lia]. assert (X : existsb (fun c => (c <? 32) || (c =? 127) || (c =? 34)) s = true) by (apply existsb_exists; now exists c). congruence.
    + intros H. destruct (existsb _ s) eqn:K; [|reflexivity]. apply existsb_exists in K as (c & C & K). apply H in C. lia.
Qed.
Print Assumptions C152_allowed.
Theorem C152_tags : (forall t, is_list t = true <-> In t [Events; Priority; Methods; Schemes; Extensions])
  /\ forall F (ops : f64_ops F) a n o b acc, (forall t, lower n <> param_name t) -> from_params ops (a ++ (n, o) :: b) acc = from_params ops (a ++ b) acc.
Proof.
  split; [intros []; cbn; intuition discriminate|]. intros F ops a n o b acc N. revert acc. induction a as [|(n', o') a IH]; intros acc; cbn [app from_params].
  - assert (E : from_param_name n = None) by (unfold from_param_name; destruct (find _ all_tags) as [t|] eqn:T; [|reflexivity]; apply find_some in T as (_ & T); apply str_eqb_spec in T; now elim (N t)). now rewrite E.
  - destruct (from_param_name n') as [t|]; [|apply IH]. destruct (from_value ops t o'); [apply IH|reflexivity].
Qed.
Print Assumptions C152_tags.
Example C152_tags_example : forall t, lower (lit "expires") <> param_name t. Proof. intros []; discriminate. Qed.
