(** Proofs about Via headers and token lists. *)
From Coq Require Import NArith Bool String List Lia.
From Coq Require Import ZifyBool ZifyN ZifyNat.
Import ListNotations.
From Verif Require Import Base BaseFacts Headers HeadersProofs Text TextFacts NumFacts Uri UriProofs Msg PrackProofs ProxyCoreProofs Via ViaSpec.
Open Scope N_scope.
Open Scope list_scope.

Lemma bare_edge : forall s, bare s <-> no_edge is_ws s.
Proof.
  intros s. split.
  - intros [A B]. split.
    + destruct s as [|c r]; [exact I|]. now apply (A c r).
    + destruct (rev s) as [|c r] eqn:E; [exact I|]. apply (B c (rev r)). rewrite <- (rev_involutive s), E. reflexivity.
  - intros [A B]. split.
    + intros c r ->. exact A.
    + intros c r ->. rewrite rev_app_distr in B. exact B.
Qed.

Lemma rsplit_once_some : forall c s a b, rsplit_once c s = Some (a, b) -> s = a ++ c :: b /\ mem c b = false.
Proof.
  intros c s a b H. unfold rsplit_once in H. destruct (split_once c (rev s)) as [[x y]|] eqn:E; [|discriminate]. injection H as <- <-.
  apply split_once_some in E. destruct E as [E M]. split; [|now rewrite mem_rev].
  rewrite <- (rev_involutive s), E, rev_app_distr. cbn [rev]. now rewrite <- app_assoc.
Qed.
Lemma sorted_nodup : forall V (m : list (str * V)), sorted_keys m -> NoDup (map fst m).
Proof.
  intros V. induction m as [|[k v] m IH]; intros S; [constructor|]. destruct S as [S1 S2]. cbn [map fst]. constructor; [|auto].
  intros Hi. specialize (S1 k Hi). now rewrite str_ltb_irrefl in S1.
Qed.
(** ** Parameters *)
Definition vgood (kv : str * option str) : Prop :=
  via_pname (fst kv) = true /\ lower (fst kv) = fst kv /\ match snd kv with Some v => via_pvalue v = true | None => True end.
Definition vplain (kv : str * option str) : Prop :=
  match snd kv with Some v => mem 59 v = false /\ no_edge is_ws v | None => True end.
Lemma via_pname_spec : forall n, via_pname n = true <-> n <> [] /\ blen n <= 64 /\ forallb uri_token_char n = true.
Proof.
  intros n. unfold via_pname, MAX_VIA_NAME_LENGTH. destruct n as [|c n].
  - split; [discriminate|]. intros (H & _). now elim H.
  - rewrite andb_true_iff, N.leb_le. split; [|tauto]. intros. split; [discriminate|assumption].
Qed.
Lemma via_pname_lower : forall n, via_pname n = true -> via_pname (lower n) = true.
Proof.
  intros n H. apply via_pname_spec in H. destruct H as (A & B & C). apply via_pname_spec.
  rewrite blen_lower, (forallb_lower _ _ uri_token_lower). split; [|auto]. destruct n; [now elim A|discriminate].
Qed.
Lemma vname_edge : forall n, via_pname n = true -> no_edge is_ws n.
Proof. intros n H. apply via_pname_spec in H. destruct H as (_ & _ & H). revert H. apply class_edge. intros c Hc. apply tokc_facts in Hc. tauto. Qed.
Lemma vname_nomem : forall n c, via_pname n = true -> uri_token_char c = false -> mem c n = false.
Proof. intros n c H Hc. apply via_pname_spec in H. destruct H as (_ & _ & H). now apply (forallb_mem uri_token_char). Qed.
Lemma vname_ne : forall n, via_pname n = true -> n <> [].
Proof. intros n H. apply via_pname_spec in H. tauto. Qed.
Lemma pvalue_spec : forall v, via_pvalue v = true <-> blen v <= 256 /\ existsb is_control v = false.
Proof. intros v. unfold via_pvalue, MAX_VIA_VALUE_LENGTH. rewrite andb_true_iff, negb_true_iff, N.leb_le. reflexivity. Qed.

Lemma bput_same_llen : forall V k (v : V) m, sorted_keys m -> is_some (bget k m) = true -> llen (bput k v m) = llen m.
Proof.
  intros V k v. induction m as [|[x w] m IH]; intros S H; [discriminate|]. unfold bget in *. cbn [bput lookup] in *.
  destruct (str_eqb k x) eqn:E; [reflexivity|]. destruct S as [S1 S2].
  destruct (str_ltb k x) eqn:L.
  - exfalso. destruct (lookup str_eqb k m) as [y|] eqn:F; [|discriminate]. apply (lookup_in _ str_eqb_spec) in F.
    assert (X : In k (keys m)) by (apply in_map_iff; exists (k, y); auto). specialize (S1 k X).
    pose proof (str_ltb_trans _ _ _ L S1) as T. now rewrite str_ltb_irrefl in T.
  - rewrite !llen_cons, IH; auto.
Qed.

(** one parameter text *)
Definition reads (p : str) : str * option str :=
  match split_once 61 (trim p) with Some (k, v) => (trim k, Some (trim v)) | None => (trim p, None) end.
Lemma via_add_eq : forall m p, via_add m p =
  if MAX_VIA_PARAMS <=? llen m then None
  else match trim p with
       | [] => Some m
       | _ => let kv := reads p in
              if via_pname (fst kv) && match snd kv with Some v => via_pvalue v | None => true end && negb (is_some (bget (lower (fst kv)) m))
              then Some (bput (lower (fst kv)) (snd kv) m) else None
       end.
Proof.
  intros m p. unfold via_add, reads. destruct (_ <=? _); [reflexivity|]. destruct (trim p) as [|c t]; [reflexivity|].
  cbv zeta. destruct (split_once 61 (c :: t)) as [[k v]|]; reflexivity.
Qed.
Lemma reads_says : forall p k x, trim p <> [] -> (reads p = (k, x) <-> says p k x).
Proof.
  intros p k x Hne. unfold reads, says. destruct (split_once 61 (trim p)) as [[a b]|] eqn:E.
  - apply split_once_some in E. destruct E as [E M]. split.
    + intros [= <- <-]. right. exists a, b. split; [exact E|]. split; [now apply mem_false|]. auto.
    + intros [(_ & -> & _ & H)|(a' & b' & E' & M' & -> & ->)].
      * exfalso. apply H. rewrite E. apply in_or_app. right. now left.
      * apply mem_false in M'. rewrite E in E'. cbn [lit app] in E'.
        assert (S1 := split_once_app 61 a b M). assert (S2 := split_once_app 61 a' b' M').
        change (a' ++ lit "=" ++ b') with (a' ++ 61 :: b') in E'. rewrite E', S2 in S1. injection S1 as -> ->. reflexivity.
  - apply split_once_none in E. split.
    + intros [= <- <-]. left. split; [reflexivity|]. split; [reflexivity|]. split; [exact Hne|]. now apply mem_false.
    + intros [(-> & -> & _)|(a & b & E' & _)]; [reflexivity|]. exfalso. rewrite E', mem_app in E. apply orb_false_iff in E. destruct E as [_ E]. discriminate.
Qed.
Lemma says_nonempty : forall p k x, says p k x -> trim p <> [].
Proof.
  intros p k x [(_ & -> & H & _)|(a & b & E & _)]; [exact H|]. rewrite E. destruct a; discriminate.
Qed.

Definition params_inv (m : list (str * option str)) : Prop := sorted_keys m /\ llen m <= MAX_VIA_PARAMS /\ Forall vgood m.
Lemma params_nil : params_inv [].
Proof. split; [exact I|]. split; [|constructor]. unfold MAX_VIA_PARAMS. cbn. lia. Qed.
Lemma Forall_vput : forall (P : str * option str -> Prop) k v m, P (k, v) -> Forall P m -> Forall P (bput k v m).
Proof. intros P k v m H F. apply Forall_forall. intros e He. apply bput_in in He. destruct He as [->|He]; [exact H|]. rewrite Forall_forall in F. auto. Qed.
Lemma via_add_inv : forall m p m', via_add m p = Some m' -> params_inv m ->
  params_inv m' /\ (mem 59 p = false -> Forall vplain m -> Forall vplain m').
Proof.
  intros m p m' H (Hs & Hl & Hf). rewrite via_add_eq in H. destruct (MAX_VIA_PARAMS <=? llen m) eqn:L; [discriminate|].
  destruct (trim p) as [|c0 t0] eqn:T; [injection H as <-; split; [now split|auto]|]. cbv zeta in H.
  destruct (_ && _) eqn:G in H; [|discriminate]. injection H as <-. rewrite !andb_true_iff in G. destruct G as [[G1 G2] G3].
  split; [split; [|split]|].
  - now apply bput_sorted.
  - pose proof (bput_llen (lower (fst (reads p))) (snd (reads p)) m). lia.
  - apply Forall_vput; [|assumption]. split; [now apply via_pname_lower|]. split; [apply lower_idem|]. destruct (snd (reads p)); [exact G2|exact I].
  - intros M Hp. apply Forall_vput; [|assumption]. unfold vplain, reads. cbn [snd]. destruct (split_once 61 (trim p)) as [[k v]|] eqn:E; [|exact I].
    cbn [snd]. apply split_once_some in E. destruct E as [E _]. apply trim_mem in M. rewrite E, mem_app in M. apply orb_false_iff in M.
    destruct M as [_ M]. apply mem_cons_false in M. split; [now apply trim_mem|]. apply trim_by_no_edge.
Qed.
Lemma via_adds_inv : forall ps m m', fold_opt via_add ps m = Some m' -> params_inv m ->
  params_inv m' /\ (Forall (fun p => mem 59 p = false) ps -> Forall vplain m -> Forall vplain m').
Proof.
  induction ps as [|p ps IH]; intros m m' H Hi; cbn [fold_opt] in H; [injection H as <-; auto|].
  destruct (via_add m p) as [m1|] eqn:E; [|discriminate]. destruct (via_add_inv m p m1 E Hi) as [A B].
  destruct (IH m1 m' H A) as [C D]. split; [exact C|]. intros Hp Hm. inversion Hp; subst. auto.
Qed.
Lemma via_adds_get : forall ps m m', fold_opt via_add ps m = Some m' -> forall k x,
  bget k m' = Some x <-> bget k m = Some x \/ exists p k0, In p ps /\ says p k0 x /\ k = lower k0.
Proof.
  induction ps as [|p ps IH]; intros m m' H k x; cbn [fold_opt] in H.
  - injection H as <-. split; [auto|]. intros [E|(p & k0 & [] & _)]. exact E.
  - destruct (via_add m p) as [m1|] eqn:E; [|discriminate]. rewrite (IH m1 m' H k x). rewrite via_add_eq in E.
    destruct (MAX_VIA_PARAMS <=? llen m); [discriminate|]. destruct (trim p) as [|c t] eqn:T.
    { injection E as <-. split.
      - intros [A|(q & k0 & A & B)]; [auto|]. right. exists q, k0. split; [now right|exact B].
      - intros [A|(q & k0 & [<-|A] & B & C)]; [auto| |].
        + exfalso. now apply says_nonempty in B.
        + right. exists q, k0. auto. }
    assert (NE : trim p <> []) by (rewrite T; discriminate). cbv zeta in E. destruct (_ && _) eqn:G in E; [|discriminate]. injection E as <-.
    rewrite !andb_true_iff in G. destruct G as [[_ _] G3]. apply negb_true_iff in G3.
    destruct (reads p) as [k1 x1] eqn:R. cbn [fst snd] in *.
    assert (SP := proj1 (reads_says p k1 x1 NE) R).
    destruct (str_eqb k (lower k1)) eqn:Ek.
    + apply str_eqb_spec in Ek. subst k. rewrite bget_bput. split.
      * intros [[= <-]|(q & k0 & A & B)]; right; [exists p, k1; split; [now left|auto]|exists q, k0; split; [now right|exact B]].
      * intros [A|(q & k0 & [<-|A] & B & C)].
        -- rewrite A in G3. discriminate.
        -- left. apply (proj2 (reads_says p k0 x NE)) in B. rewrite R in B. injection B as -> ->. reflexivity.
        -- right. exists q, k0. auto.
    + assert (Nk : k <> lower k1) by (intros ->; now rewrite str_eqb_refl in Ek). rewrite bget_bput_other by exact Nk. split.
      * intros [A|(q & k0 & A & B)]; [auto|]. right. exists q, k0. split; [now right|exact B].
      * intros [A|(q & k0 & [<-|A] & B & C)]; [auto| |].
        -- exfalso. apply (proj2 (reads_says p k0 x NE)) in B. rewrite R in B. injection B as -> ->. contradiction.
        -- right. exists q, k0. auto.
Qed.
(** printing and reading one parameter *)
Lemma vptext_edge : forall kv, vgood kv -> vplain kv -> no_edge is_ws (ptext kv).
Proof.
  intros [k v] (H & _ & _) Hp. unfold ptext, vplain in *. cbn [fst snd] in *. destruct v as [v|].
  - destruct Hp as (_ & Hp). apply no_edge_app; [now apply vname_ne|discriminate|now apply vname_edge|].
    apply no_edge_cons; [reflexivity|assumption].
  - rewrite app_nil_r. now apply vname_edge.
Qed.
Lemma via_add_ptext : forall m kv, vgood kv -> vplain kv -> llen m < MAX_VIA_PARAMS -> bget (fst kv) m = None ->
  (forall k', In k' (keys m) -> str_ltb k' (fst kv) = true) -> via_add m (ptext kv) = Some (m ++ [kv]).
Proof.
  intros m [k v] G P L Nk Hk. rewrite via_add_eq. replace (MAX_VIA_PARAMS <=? llen m) with false by lia.
  assert (R : reads (ptext (k, v)) = (k, v)).
  { unfold reads. rewrite (trim_edge _ (vptext_edge _ G P)). destruct G as (G1 & G2 & G3). unfold ptext, vplain in *. cbn [fst snd] in *. destruct v as [v|].
    - rewrite split_once_app by (apply vname_nomem; [assumption|reflexivity]). rewrite (trim_edge k) by now apply vname_edge. rewrite (trim_edge v) by tauto. reflexivity.
    - rewrite app_nil_r. rewrite (proj2 (split_once_none 61 k)) by (apply vname_nomem; [assumption|reflexivity]). reflexivity. }
  rewrite R. rewrite (trim_edge _ (vptext_edge _ G P)). destruct G as (G1 & G2 & G3). cbn [fst snd] in *.
  destruct (ptext (k, v)) as [|c t] eqn:T.
  { exfalso. unfold ptext in T. cbn [fst snd] in T. apply app_eq_nil in T. now apply (vname_ne k G1). }
  cbv zeta. rewrite G1, G2, Nk. replace (match v with Some v0 => via_pvalue v0 | None => true end) with true by (destruct v; [now rewrite G3|reflexivity]).
  cbn [andb is_some negb]. now rewrite bput_last.
Qed.
Lemma fold_vparams : forall ps m, sorted_keys (m ++ ps) -> llen (m ++ ps) <= MAX_VIA_PARAMS -> Forall vgood ps -> Forall vplain ps ->
  fold_opt via_add (map ptext ps) m = Some (m ++ ps).
Proof.
  induction ps as [|kv ps IH]; intros m S L G P; [now rewrite app_nil_r|].
  inversion G; inversion P; subst. assert (Hk : forall k', In k' (keys m) -> str_ltb k' (fst kv) = true).
  { intros k' Hk. apply sorted_app in S. apply (proj2 S); [assumption|now left]. }
  cbn [map fold_opt]. rewrite via_add_ptext; try assumption.
  - rewrite IH; try assumption; rewrite <- app_assoc; [reflexivity|exact S|exact L].
  - rewrite llen_app, llen_cons in L. lia.
  - unfold bget. apply (lookup_none _ str_eqb_spec). intros Hi. specialize (Hk _ Hi). now rewrite str_ltb_irrefl in Hk.
Qed.

(** ** The rest of the value *)
Lemma validate_port_spec : forall p, validate_port p = true -> port_text p.
Proof.
  intros p H. unfold validate_port in H. destruct p as [|c p]; [discriminate|]. remember (c :: p) as q. apply andb_true_iff in H. destruct H as [A H].
  split; [subst; discriminate|]. split; [exact A|]. unfold parse_uint in H. 
  assert (Nc : (c =? 43) = false). { subst q. unfold all_digits in A. cbn [forallb] in A. unfold is_digit, in_range in A. lia. }
  subst q. rewrite Nc in H. rewrite A in H. cbv zeta in H. destruct (_ <=? _) in H; [|discriminate]. unfold in_range in H. lia.
Qed.
Lemma host_char_word : forall c, via_host_char c = true -> is_ws c = false /\ is_control c = false /\ c <> 47 /\ c <> 59 /\ c <> 58.
Proof.
  intros c H. unfold via_host_char, is_alnum, is_alpha, is_upper, is_lower, is_digit in H.
  unfold is_ws, is_control, in_range in *. assert (c < 128) by lia. lia.
Qed.
Lemma v6_char_word : forall c, v6_char c = true -> is_ws c = false /\ is_control c = false /\ c <> 47 /\ c <> 59.
Proof.
  intros c H. unfold v6_char, is_hex, hex_val in H.
  assert (X : is_digit c || in_range 97 102 c || in_range 65 70 c || (c =? 58) || (c =? 46) = true).
  { destruct (is_digit c); [reflexivity|]. destruct (in_range 97 102 c); [reflexivity|]. destruct (in_range 65 70 c); [reflexivity|]. exact H. }
  unfold is_digit, is_ws, is_control, in_range in *. assert (c < 128) by lia. lia.
Qed.
Lemma sent_by_spec : forall s, validate_sent_by s = true -> s <> [] /\ blen s <= 256 /\ existsb is_control s = false /\ host_port s.
Proof.
  intros s H. unfold validate_sent_by, MAX_SENT_BY_LENGTH in H. destruct s as [|c0 r0]; [discriminate|]. 
  rewrite !andb_true_iff, negb_true_iff, N.leb_le in H. destruct H as [[H1 H2] H].
  split; [discriminate|]. split; [exact H1|]. split; [exact H2|]. unfold host_port.
  destruct (c0 =? 91) eqn:E0.
  - assert (c0 = 91) by lia. subst c0. destruct (split_once 93 r0) as [[host rest]|] eqn:S; [|discriminate].
    apply split_once_some in S. destruct S as [-> _]. destruct host as [|h0 hs]; [discriminate|]. remember (h0 :: hs) as host.
    apply andb_true_iff in H. destruct H as [Ha Hr]. exists (lit "[" ++ host ++ lit "]"), rest. split; [rewrite <- !app_assoc; reflexivity|]. split.
    + right. exists host. split; [reflexivity|]. split; [subst; discriminate|]. now apply forallb_forall.
    + destruct rest as [|c p]; [now left|]. right. apply andb_true_iff in Hr. destruct Hr as [Hc Hp]. assert (c = 58) by lia. subst c.
      exists p. split; [reflexivity|]. now apply validate_port_spec.
  - destruct (mem 91 (c0 :: r0) || mem 93 (c0 :: r0)); [discriminate|]. destruct (1 <? _); [discriminate|].
    remember (c0 :: r0) as s. destruct (rsplit_once 58 s) as [[h p]|] eqn:R.
    + apply rsplit_once_some in R. destruct R as [-> _]. destruct h as [|h0 hs]; [discriminate|]. remember (h0 :: hs) as h.
      apply andb_true_iff in H. destruct H as [Ha Hp]. exists h, (lit ":" ++ p). split; [reflexivity|]. split.
      * left. split; [subst; discriminate|]. now apply forallb_forall.
      * right. exists p. split; [reflexivity|]. now apply validate_port_spec.
    + exists s, []. split; [now rewrite app_nil_r|]. split; [|now left]. left. split; [subst; discriminate|]. now apply forallb_forall.
Qed.
Definition wordc (c : N) : bool := negb (is_ws c) && negb (is_control c) && negb (c =? 59).
Lemma wordc_intro : forall c, is_ws c = false -> is_control c = false -> c <> 59 -> wordc c = true.
Proof. intros c A B C. unfold wordc. rewrite A, B. apply N.eqb_neq in C. now rewrite C. Qed.
Lemma wordc_elim : forall c, wordc c = true -> is_ws c = false /\ is_control c = false /\ c <> 59.
Proof. intros c H. unfold wordc in H. rewrite !andb_true_iff, !negb_true_iff, N.eqb_neq in H. tauto. Qed.
Lemma host_port_word : forall s, host_port s -> s <> [] -> forallb wordc s = true.
Proof.
  intros s (h & p & -> & Hh & Hp) _. rewrite forallb_app. apply andb_true_iff. split.
  - destruct Hh as [[_ Hh]|(a & -> & _ & Ha)].
    + apply forallb_forall. intros c Hc. apply Hh, host_char_word in Hc. apply wordc_intro; tauto.
    + rewrite !forallb_app. replace (forallb wordc a) with true; [reflexivity|]. symmetry. apply forallb_forall. intros c Hc. apply Ha, v6_char_word in Hc. apply wordc_intro; tauto.
  - destruct Hp as [->|(q & -> & _ & Hq & _)]; [reflexivity|]. rewrite forallb_app. apply andb_true_iff. split; [reflexivity|].
    apply forallb_forall. intros c Hc. unfold all_digits in Hq. rewrite forallb_forall in Hq. apply Hq, digit_facts in Hc. apply wordc_intro; tauto.
Qed.
Lemma transport_spec : forall t, validate_transport t = true <-> token 32 t.
Proof.
  intros t. unfold validate_transport, token, MAX_TRANSPORT_LENGTH. destruct t as [|c t]; [split; [discriminate|intros (H & _); now elim H]|].
  rewrite !andb_true_iff, N.leb_le, negb_true_iff, forallb_forall. split.
  - intros [[A _] B]. split; [discriminate|auto].
  - intros (_ & A & B). split; [|exact B]. split; [exact A|]. apply existsb_false. apply forallb_forall. intros x Hx. apply B, tokc_facts in Hx.
    destruct Hx as (_ & -> & _). reflexivity.
Qed.
Lemma token_word : forall t, forallb uri_token_char t = true -> forallb wordc t = true.
Proof. intros t. apply forallb_impl. intros c Hc. apply tokc_facts in Hc. apply wordc_intro; tauto. Qed.
Lemma word_facts : forall t, forallb wordc t = true ->
  forallb (fun c => negb (is_ws c)) t = true /\ existsb is_control t = false /\ mem 59 t = false.
Proof.
  intros t H. split; [|split].
  - revert H. apply forallb_impl. intros c Hc. apply wordc_elim in Hc. apply negb_true_iff. tauto.
  - apply existsb_false. revert H. apply forallb_impl. intros c Hc. apply wordc_elim in Hc. apply negb_true_iff. tauto.
  - revert H. apply forallb_mem. reflexivity.
Qed.

(** ** Whole headers *)
Definition via_inv (v : via) : Prop :=
  validate_transport (w_transport v) = true /\ validate_sent_by (w_sent_by v) = true /\ params_inv (w_params v).
Lemma via_new_inv : forall t b v, via_new t b = Some v -> via_inv v /\ Forall vplain (w_params v).
Proof.
  intros t b v H. unfold via_new in H. destruct (_ && _) eqn:G; [|discriminate]. injection H as <-. apply andb_true_iff in G.
  split; [|constructor]. split; [tauto|]. split; [tauto|]. apply params_nil.
Qed.
Lemma via_parse_cases : forall t v, via_parse t = Some v ->
  exists value ps proto sip,
    existsb (fun c => is_control c && negb (c =? 9)) t = false
    /\ split_on 59 (trim_by lws t) = value :: ps
    /\ split_ws (trim value) = [proto; w_sent_by v]
    /\ split_on 47 proto = [sip; lit "2.0"; w_transport v] /\ eq_ic sip (lit "SIP") = true
    /\ validate_transport (w_transport v) = true /\ validate_sent_by (w_sent_by v) = true
    /\ fold_opt via_add ps [] = Some (w_params v).
Proof.
  intros t v H. unfold via_parse in H. destruct (existsb _ t) eqn:C; [discriminate|].
  destruct (trim_by lws t) as [|c0 t0] eqn:T; [discriminate|]. destruct (split_on 59 (c0 :: t0)) as [|value ps] eqn:S; [discriminate|].
  destruct (split_ws (trim value)) as [|proto [|sb [|? ?]]] eqn:W; try discriminate.
  destruct (split_on 47 proto) as [|sip [|ver [|tr [|? ?]]]] eqn:P; try discriminate.
  destruct (_ && _) eqn:G in H; [|discriminate]. rewrite !andb_true_iff in G. destruct G as [[[G1 G2] G3] G4].
  destruct (fold_opt via_add ps []) as [m|] eqn:F; [|discriminate]. injection H as <-. apply str_eqb_spec in G2. subst ver.
  exists value, ps, proto, sip. cbn [w_transport w_sent_by w_params]. tauto.
Qed.
Lemma via_parse_inv : forall t v, via_parse t = Some v -> via_inv v /\ Forall vplain (w_params v).
Proof.
  intros t v H. destruct (via_parse_cases t v H) as (value & ps & proto & sip & C & S & W & P & E & T & B & F).
  destruct (via_adds_inv ps [] _ F params_nil) as [A D]. split; [split; [exact T|split; [exact B|exact A]]|].
  apply D; [|constructor]. apply Forall_forall. intros p Hp. apply (split_on_nomem_parts 59 (trim_by lws t)). rewrite S. now right.
Qed.
Lemma via_put_inv : forall v n x, via_inv v -> via_pname n = true -> match x with Some y => via_pvalue y | None => true end = true ->
  (is_some (bget (lower n) (w_params v)) = true \/ llen (w_params v) < MAX_VIA_PARAMS) ->
  via_inv (mkVia (w_transport v) (w_sent_by v) (bput (lower n) x (w_params v))).
Proof.
  intros v n x (A & B & S & L & F) Hn Hx Hl. split; [exact A|]. split; [exact B|]. cbn [w_params]. split; [now apply bput_sorted|]. split.
  - destruct Hl as [Hl|Hl]; [now rewrite bput_same_llen|]. pose proof (bput_llen (lower n) x (w_params v)). lia.
  - apply Forall_vput; [|exact F]. split; [now apply via_pname_lower|]. split; [apply lower_idem|]. destruct x; [exact Hx|exact I].
Qed.
Lemma via_with_cases : forall v n x v', via_with_param v n x = Some v' ->
  via_pname n = true /\ bget (lower n) (w_params v) = None /\ llen (w_params v) < MAX_VIA_PARAMS
  /\ match x with Some y => via_pvalue y | None => true end = true
  /\ v' = mkVia (w_transport v) (w_sent_by v) (bput (lower n) x (w_params v)).
Proof.
  intros v n x v' H. unfold via_with_param in H. destruct (via_pname n); [|discriminate]. cbn [negb] in H.
  destruct (bget (lower n) (w_params v)); [discriminate|]. cbn [is_some] in H. destruct (_ <=? _) eqn:L; [discriminate|].
  destruct (match x with Some y => _ | None => _ end); [|discriminate]. injection H as <-.
  split; [reflexivity|]. split; [reflexivity|]. split; [lia|]. split; reflexivity.
Qed.
Lemma via_set_cases : forall v n x v', via_set_param v n x = Some v' ->
  via_pname n = true /\ (is_some (bget (lower n) (w_params v)) = true \/ llen (w_params v) < MAX_VIA_PARAMS)
  /\ match x with Some y => via_pvalue y | None => true end = true
  /\ v' = mkVia (w_transport v) (w_sent_by v) (bput (lower n) x (w_params v)).
Proof.
  intros v n x v' H. unfold via_set_param in H. destruct (via_pname n); [|discriminate]. cbn [negb] in H.
  destruct (negb _ && _) eqn:L in H; [discriminate|].
  destruct (match x with Some y => _ | None => _ end); [|discriminate]. injection H as <-.
  split; [reflexivity|]. split; [|split; reflexivity]. apply andb_false_iff in L. destruct L as [L|L]; [left; now apply negb_false_iff|right; lia].
Qed.
Lemma via_step_inv : forall v o v', via_step v o = Some v' -> via_inv v -> via_inv v'
  /\ (op_plain o -> Forall vplain (w_params v) -> Forall vplain (w_params v')).
Proof.
  intros v o v' H I0.
  assert (PL : forall x : option str, plain x -> forall k, vplain (k, x)).
  { intros x Hp k. unfold vplain. cbn [snd]. destruct x as [y|]; [|exact I]. destruct (Hp y eq_refl) as [A B]. split; [now apply mem_false|now apply bare_edge]. }
  destruct o as [n x|n x]; cbn [via_step] in H; [apply via_with_cases in H|apply via_set_cases in H].
  - destruct H as (A & B & C & D & ->). split; [apply via_put_inv; auto|]. intros Hp F. cbn [w_params]. apply Forall_vput; [|exact F]. now apply PL.
  - destruct H as (A & B & C & ->). split; [apply via_put_inv; auto|]. intros Hp F. cbn [w_params]. apply Forall_vput; [|exact F]. now apply PL.
Qed.
Lemma via_build_inv : forall s ops v, via_build s ops = Some v -> via_inv v /\ (Forall op_plain ops -> Forall vplain (w_params v)).
Proof.
  intros s ops v H. unfold via_build in H. destruct (via_begin s) as [v0|] eqn:B; [|discriminate].
  assert (I0 : via_inv v0 /\ Forall vplain (w_params v0)).
  { destruct s as [t b|t]; cbn [via_begin] in B; [now apply (via_new_inv t b)|now apply (via_parse_inv t)]. }
  destruct I0 as [I0 P0]. clear B. revert v0 H I0 P0. induction ops as [|o ops IH]; intros v0 H I0 P0; cbn [fold_opt] in H.
  - injection H as <-. auto.
  - destruct (via_step v0 o) as [v1|] eqn:E; [|discriminate]. destruct (via_step_inv v0 o v1 E I0) as [A B].
    (* the plainness hypothesis is only known for the whole list *)
    assert (X : forall ops v0 v, fold_opt via_step ops v0 = Some v -> via_inv v0 -> via_inv v /\ (Forall op_plain ops -> Forall vplain (w_params v0) -> Forall vplain (w_params v))).
    { clear. induction ops as [|o ops IH]; intros v0 v H I0; cbn [fold_opt] in H; [injection H as <-; auto|].
      destruct (via_step v0 o) as [v1|] eqn:E; [|discriminate]. destruct (via_step_inv v0 o v1 E I0) as [A B]. destruct (IH v1 v H A) as [C D].
      split; [exact C|]. intros Ho Hp. inversion Ho; subst. auto. }
    destruct (X ops v1 v H A) as [C D]. split; [exact C|]. intros Ho. inversion Ho; subst. auto.
Qed.

(** printing, then parsing *)
Lemma value_control : forall kv, vgood kv -> existsb is_control (ptext kv) = false.
Proof.
  intros [k v] (A & _ & B). unfold ptext. cbn [fst snd] in *. rewrite existsb_app. apply orb_false_iff. split.
  - apply via_pname_spec in A. destruct A as (_ & _ & A). now apply token_word, word_facts in A.
  - destruct v as [v|]; [|reflexivity]. cbn [existsb]. apply pvalue_spec in B. now rewrite (proj2 B).
Qed.
Lemma params_control : forall ps, Forall vgood ps -> existsb is_control (flat_map print_param ps) = false.
Proof.
  induction ps as [|kv ps IH]; intros F; [reflexivity|]. inversion F; subst. cbn [flat_map]. rewrite print_param_ptext, existsb_app, IH by assumption.
  cbn [existsb]. rewrite value_control by assumption. reflexivity.
Qed.
Lemma control_tab : forall s, existsb is_control s = false -> existsb (fun c => is_control c && negb (c =? 9)) s = false.
Proof.
  intros s H. apply existsb_false in H. apply existsb_false. revert H. apply forallb_impl. intros c Hc. destruct (is_control c); [discriminate|reflexivity].
Qed.
Lemma lws_ws : forall c, is_ws c = false -> lws c = false.
Proof. intros c H. unfold lws, is_ws, in_range in *. lia. Qed.
Lemma no_edge_lws : forall s, no_edge is_ws s -> no_edge lws s.
Proof. intros s [A B]. split; [destruct s; [exact I|now apply lws_ws]|destruct (rev s); [exact I|now apply lws_ws]]. Qed.
Lemma params_edge : forall ps a, a <> [] -> no_edge is_ws a -> Forall vgood ps -> Forall vplain ps -> no_edge is_ws (a ++ flat_map print_param ps).
Proof.
  induction ps as [|kv ps IH]; intros a Ha He G P; [now rewrite app_nil_r|]. inversion G; inversion P; subst. cbn [flat_map]. rewrite app_assoc.
  apply IH; try assumption.
  - destruct a; [now elim Ha|discriminate].
  - rewrite print_param_ptext. apply no_edge_app; [exact Ha|discriminate|exact He|]. apply no_edge_cons; [reflexivity|]. now apply vptext_edge.
Qed.
Lemma print_parse_via : forall v, via_inv v -> Forall vplain (w_params v) -> via_parse (via_print v) = Some v.
Proof.
  intros v (T & B & S & L & G) P. pose proof (proj1 (transport_spec _) T) as (Tn & _ & Tc). destruct (sent_by_spec _ B) as (Bn & _ & Bc & Bh).
  pose proof (host_port_word _ Bh Bn) as Bw. assert (Tw := token_word _ (proj2 (forallb_forall _ _) Tc)).
  destruct (word_facts _ Tw) as (Tw1 & Tw2 & Tw3). destruct (word_facts _ Bw) as (Bw1 & Bw2 & Bw3).
  set (proto := lit "SIP/2.0/" ++ w_transport v). set (head := proto ++ 32 :: w_sent_by v).
  assert (EP : via_print v = head ++ flat_map print_param (w_params v)).
  { unfold via_print, head, proto. rewrite <- !app_assoc. reflexivity. }
  assert (Pw : forallb wordc proto = true) by (unfold proto; rewrite forallb_app, Tw; reflexivity).
  destruct (word_facts _ Pw) as (Pw1 & Pw2 & Pw3).
  assert (Pn : proto <> []) by (unfold proto; discriminate).
  assert (He : no_edge is_ws head).
  { unfold head. apply no_edge_ends; [exact Pn|discriminate| |].
    - unfold proto. reflexivity.
    - cbn [rev]. destruct (rev (w_sent_by v)) as [|c r] eqn:R; [elim Bn; rewrite <- (rev_involutive (w_sent_by v)), R; reflexivity|].
      cbn [app]. assert (X : In c (w_sent_by v)) by (apply in_rev; rewrite R; now left). rewrite forallb_forall in Bw1. apply Bw1 in X. now apply negb_true_iff in X. }
  assert (Hn : head <> []) by (unfold head; destruct proto; discriminate).
  assert (Hs : mem 59 head = false). { unfold head. rewrite mem_app, Pw3. cbn [orb]. apply mem_cons_false. split; [discriminate|exact Bw3]. }
  unfold via_parse. rewrite EP. rewrite control_tab.
  2:{ unfold head. rewrite !existsb_app, params_control by exact G. rewrite Pw2. cbn [existsb]. rewrite Bw2. reflexivity. }
  rewrite trim_by_id by (apply no_edge_lws, params_edge; assumption).
  assert (SPL : split_on 59 (head ++ flat_map print_param (w_params v)) = head :: map ptext (w_params v)).
  { apply split_params; [exact Hs|]. apply Forall_forall. intros [k x] Hi. rewrite Forall_forall in G, P. specialize (G _ Hi). specialize (P _ Hi). unfold ptext. cbn [fst snd].
      destruct G as (G1 & _). cbn [fst] in G1. rewrite mem_app, (vname_nomem k 59 G1 eq_refl). cbn [orb]. unfold vplain in P. cbn [snd] in P. destruct x; [|reflexivity]. apply mem_cons_false. split; [discriminate|tauto]. }
  destruct (head ++ flat_map print_param (w_params v)) as [|c0 t0] eqn:E0; [destruct head; [now elim Hn|discriminate]|].
  rewrite SPL. rewrite (trim_edge head He). unfold head. rewrite split_ws_two by assumption.
  assert (SP : split_on 47 proto = [lit "SIP"; lit "2.0"; w_transport v]).
  { unfold proto. change (lit "SIP/2.0/" ++ w_transport v) with (lit "SIP" ++ 47 :: (lit "2.0" ++ 47 :: w_transport v)).
    rewrite split_on_app by reflexivity. rewrite split_on_app by reflexivity. rewrite split_on_nomem; [reflexivity|].
    apply (forallb_mem uri_token_char); [reflexivity|now apply forallb_forall]. }
  rewrite SP, T, B. change (eq_ic (lit "SIP") (lit "SIP")) with true. rewrite str_eqb_refl. cbn [andb].
  rewrite (fold_vparams (w_params v) []); [|exact S|exact L|exact G|exact P]. cbn [app]. destruct v; reflexivity.
Qed.
Lemma via_inv_sound : forall v, via_inv v -> sound_via v.
Proof.
  intros v (T & B & S & L & G). destruct (sent_by_spec _ B) as (_ & Bl & _ & Bh). split; [now apply transport_spec|]. split; [exact Bh|]. split; [exact Bl|]. split; [exact L|].
  split; [now apply sorted_nodup|]. intros k x Hi. rewrite Forall_forall in G. destruct (G _ Hi) as (A & B1 & C). cbn [fst snd] in *. apply via_pname_spec in A. destruct A as (A1 & A2 & A3).
  rewrite forallb_forall in A3. split; [split; [exact A1|split; [exact A2|exact A3]]|]. split.
  - intros c Hc. destruct (is_upper c) eqn:U; [exfalso|reflexivity]. 
    assert (X : lower_c c <> c) by (unfold lower_c; rewrite U; unfold is_upper, in_range in U; lia).
    apply X. revert Hc B1. clear. induction k as [|d k IH]; [intros []|]. intros Hc E. cbn [lower map] in E. injection E as E1 E2. destruct Hc as [->|Hc]; [exact E1|auto].
  - intros y ->. apply pvalue_spec in C. split; [tauto|]. destruct C as [_ C]. apply existsb_false in C. rewrite forallb_forall in C. intros c Hc. apply C in Hc. now apply negb_true_iff in Hc.
Qed.

(** ** Reading *)
Lemma ws_aux_nil : forall s cur, split_ws_aux cur s = [] -> cur = [] /\ blank s.
Proof.
  induction s as [|c s IH]; intros cur H; cbn [split_ws_aux] in H.
  - destruct cur; [|discriminate]. split; [reflexivity|]. intros c [].
  - destruct (is_ws c) eqn:W.
    + destruct cur; [|discriminate]. destruct (IH [] H) as [_ B]. split; [reflexivity|]. intros x [<-|Hx]; auto.
    + destruct (IH _ H) as [X _]. discriminate.
Qed.
Lemma ws_aux_word : forall s cur w ws, cur <> [] -> split_ws_aux cur s = w :: ws ->
  exists u r, w = rev cur ++ u /\ s = u ++ r /\ match r with [] => True | c :: _ => is_ws c = true end /\ split_ws_aux [] r = ws.
Proof.
  induction s as [|c s IH]; intros cur w ws Hc H; cbn [split_ws_aux] in H.
  - destruct cur as [|x cur]; [now elim Hc|]. injection H as <- <-. exists [], []. rewrite app_nil_r. auto.
  - destruct (is_ws c) eqn:W.
    + destruct cur as [|x cur]; [now elim Hc|]. injection H as <- <-. exists [], (c :: s). rewrite app_nil_r. split; [reflexivity|]. split; [reflexivity|]. split; [exact W|].
      cbn [split_ws_aux]. now rewrite W.
    + destruct (IH (c :: cur) w ws) as (u & r & -> & -> & A & B); [discriminate|exact H|]. exists (c :: u), r. cbn [rev]. rewrite <- app_assoc. auto.
Qed.
Lemma ws_aux_first : forall s w ws, split_ws_aux [] s = w :: ws ->
  exists a r, s = a ++ w ++ r /\ blank a /\ w <> [] /\ match r with [] => True | c :: _ => is_ws c = true end /\ split_ws_aux [] r = ws.
Proof.
  induction s as [|c s IH]; intros w ws H; [discriminate|]. cbn [split_ws_aux] in H. destruct (is_ws c) eqn:W.
  - destruct (IH w ws H) as (a & r & -> & A & B). exists (c :: a), r. split; [reflexivity|]. split; [|exact B]. intros x [<-|Hx]; auto.
  - destruct (ws_aux_word s [c] w ws) as (u & r & -> & -> & A & B); [discriminate|exact H|]. exists [], r. cbn [rev app]. split; [reflexivity|]. split; [intros x []|]. split; [discriminate|]. auto.
Qed.
Lemma ws_aux_chars : forall s cur w, (forall c, In c cur -> is_ws c = false) -> In w (split_ws_aux cur s) -> forall c, In c w -> is_ws c = false.
Proof.
  induction s as [|d s IH]; intros cur w Hc Hw c Hi; cbn [split_ws_aux] in Hw.
  - destruct cur as [|x cur]; [destruct Hw|]. destruct Hw as [<-|[]]. apply Hc. now apply in_rev.
  - destruct (is_ws d) eqn:W.
    + destruct cur as [|x cur]; [apply (IH [] w); [intros ? []|exact Hw|exact Hi]|]. destruct Hw as [<-|Hw]; [apply Hc; now apply in_rev|].
      apply (IH [] w); [intros ? []|exact Hw|exact Hi].
    + apply (IH (d :: cur) w); [|exact Hw|exact Hi]. intros e [<-|He]; auto.
Qed.
Lemma split_ws_pair : forall s x y, split_ws s = [x; y] ->
  exists a b c, s = a ++ x ++ b ++ y ++ c /\ blank a /\ blank b /\ b <> [] /\ blank c.
Proof.
  intros s x y H. assert (Cy : forall c, In c y -> is_ws c = false).
  { apply (ws_aux_chars s []); [intros ? []|]. unfold split_ws in H. rewrite H. right. now left. }
  unfold split_ws in H. apply ws_aux_first in H. destruct H as (a & r & -> & A & Nx & R & H).
  apply ws_aux_first in H. destruct H as (b & r' & -> & B & Ny & R' & H). apply ws_aux_nil in H. destruct H as [_ C].
  exists a, b, r'. split; [reflexivity|]. split; [exact A|]. split; [exact B|]. split; [|exact C].
  intros ->. cbn [app] in R. destruct y as [|c y]; [now elim Ny|]. cbn [app] in R. rewrite (Cy c) in R; [discriminate|now left].
Qed.
Lemma join_semi : forall h ps, join [59] (h :: ps) = h ++ flat_map (fun p => lit ";" ++ p) ps.
Proof.
  intros h ps. revert h. induction ps as [|p ps IH]; intros h; [cbn; now rewrite app_nil_r|].
  change (join [59] (h :: p :: ps)) with (h ++ [59] ++ join [59] (p :: ps)). rewrite IH. reflexivity.
Qed.
Lemma blank_app : forall a b, blank a -> blank b -> blank (a ++ b).
Proof. intros a b A B c Hc. apply in_app_or in Hc. destruct Hc; auto. Qed.
Lemma via_parse_reads : forall t v, via_parse t = Some v ->
  exists l sip a b c segs r,
    t = l ++ (a ++ sip ++ lit "/2.0/" ++ w_transport v ++ b ++ w_sent_by v ++ c) ++ flat_map (fun p => lit ";" ++ p) segs ++ r
    /\ eq_ic sip (lit "SIP") = true /\ blank l /\ blank a /\ blank b /\ b <> [] /\ blank c /\ blank r
    /\ (forall p, In p segs -> ~ In 59 p)
    /\ forall n x, via_param v n = Some x <-> exists p k, In p segs /\ says p k x /\ eq_ic k n = true.
Proof.
  intros t v H. destruct (via_parse_cases t v H) as (value & ps & proto & sip & C & S & W & P & E & T & B & F).
  destruct (trim_by_sub lws t) as (l & r & Et & Bl & Br).
  assert (LW : forall s, forallb lws s = true -> blank s).
  { intros s Hs c Hc. rewrite forallb_forall in Hs. apply Hs in Hc. unfold lws in Hc. unfold is_ws, in_range. lia. }
  destruct (split_ws_pair _ _ _ W) as (a & b & c & Ev & Ba & Bb & Nb & Bc).
  destruct (trim_by_sub is_ws value) as (a0 & c0 & Evv & Ba0 & Bc0). fold (trim value) in Evv. rewrite Ev in Evv.
  assert (Ep : proto = sip ++ lit "/2.0/" ++ w_transport v).
  { rewrite <- (join_split_on 47 proto), P. reflexivity. }
  rewrite Ep in Evv. assert (Ej : trim_by lws t = value ++ flat_map (fun p => lit ";" ++ p) ps).
  { rewrite <- (join_split_on 59 (trim_by lws t)), S. apply join_semi. }
  exists l, sip, (a0 ++ a), b, (c ++ c0), ps, r. split.
  { rewrite Et at 1. rewrite Ej, Evv. rewrite <- !app_assoc. reflexivity. }
  split; [exact E|]. split; [now apply LW|]. split; [apply blank_app; [|exact Ba]; intros x Hx; rewrite forallb_forall in Ba0; auto|].
  split; [exact Bb|]. split; [exact Nb|]. split; [apply blank_app; [exact Bc|]; intros x Hx; rewrite forallb_forall in Bc0; auto|]. split; [now apply LW|].
  split.
  { intros p Hp. apply mem_false. apply (split_on_nomem_parts 59 (trim_by lws t)). rewrite S. now right. }
  intros n x. unfold via_param. rewrite (via_adds_get ps [] _ F (lower n) x). split.
  - intros [X|(p & k & A & D & Ek)]; [discriminate|]. exists p, k. split; [exact A|]. split; [exact D|]. unfold eq_ic. rewrite Ek. apply str_eqb_refl.
  - intros (p & k & A & D & Ek). right. exists p, k. split; [exact A|]. split; [exact D|]. unfold eq_ic in Ek. apply str_eqb_spec in Ek. now symmetry.
Qed.
Lemma via_put_get : forall v n x m,
  via_param (mkVia (w_transport v) (w_sent_by v) (bput (lower n) x (w_params v))) m = if eq_ic m n then Some x else via_param v m.
Proof.
  intros v n x m. unfold via_param, eq_ic. cbn [w_params]. destruct (str_eqb (lower m) (lower n)) eqn:E.
  - apply str_eqb_spec in E. rewrite E. apply bget_bput.
  - apply bget_bput_other. intros X. rewrite X, str_eqb_refl in E. discriminate.
Qed.

(** ** Response Vias *)
Lemma rport_name : via_pname (lit "rport") = true /\ lower (lit "rport") = lit "rport".
Proof. split; vm_compute; reflexivity. Qed.
Lemma received_name : via_pname (lit "received") = true /\ lower (lit "received") = lit "received".
Proof. split; vm_compute; reflexivity. Qed.
Lemma address_facts : forall ip, address_text ip -> via_pvalue ip = true /\ mem 59 ip = false /\ no_edge is_ws ip.
Proof.
  intros ip (Hn & Hl & Hc). 
  assert (A : forallb (fun c => in_range 33 126 c && negb (c =? 59)) ip = true).
  { apply forallb_forall. intros c Hi. apply Hc in Hi. unfold in_range. lia. }
  split; [|split].
  - apply pvalue_spec. split.
    + assert (X : blen ip <= llen ip); [|lia]. clear Hn Hl Hc. induction ip as [|c ip IH]; [cbn; lia|]. cbn [forallb] in A. apply andb_true_iff in A. destruct A as [A1 A2].
      cbn [blen]. rewrite llen_cons. specialize (IH A2). unfold len_utf8, in_range in *. replace (c <? 128) with true by lia. lia.
    + apply existsb_false. revert A. apply forallb_impl. intros c. unfold is_control, in_range. lia.
  - revert A. apply forallb_mem. reflexivity.
  - revert A. apply class_edge. intros c. unfold is_ws, in_range. intros. assert (c < 128) by lia. lia.
Qed.
Lemma port_facts : forall p, p <= 65535 -> via_pvalue (print_N p) = true /\ mem 59 (print_N p) = false /\ no_edge is_ws (print_N p).
Proof.
  intros p Hp. destruct (print_N_spec p) as (_ & D & _). unfold all_digits in D. split; [|split].
  - apply pvalue_spec. split.
    + assert (X : blen (print_N p) <= N.of_nat 5) by (apply print_N_blen; [change (10 ^ N.of_nat 5) with 100000; lia|lia]). change (N.of_nat 5) with 5 in X. lia.
    + apply existsb_false. revert D. apply forallb_impl. intros c Hc. apply digit_facts in Hc. apply negb_true_iff. tauto.
  - revert D. apply forallb_mem. reflexivity.
  - revert D. apply class_edge. intros c Hc. apply digit_facts in Hc. tauto.
Qed.
Lemma sent_by_host_spec : forall sb ip, validate_sent_by sb = true -> address_text ip ->
  (str_eqb (sent_by_host sb) ip = true <-> sent_from sb ip).
Proof.
  intros sb ip V (In0 & _ & Ic). destruct (sent_by_spec sb V) as (Sn & _ & _ & Sh).
  assert (Tr : trim sb = sb).
  { apply trim_edge. apply (class_edge wordc); [|now apply host_port_word]. intros c Hc. now apply wordc_elim in Hc. }
  unfold sent_by_host. cbv zeta. rewrite Tr. destruct Sh as (h & p & Es & Hh & Hp).
  assert (Pp : forall q, p = lit ":" ++ q -> mem 58 q = false).
  { intros q ->. destruct Hp as [Hp|(q' & Hq & _ & D & _)]; [discriminate|]. injection Hq as <-. unfold all_digits in D. revert D. apply forallb_mem. reflexivity. }
  assert (HP2 : p = [] \/ exists q, p = 58 :: q /\ mem 58 q = false).
  { destruct Hp as [->|(q & -> & _)]; [now left|right]. exists q. split; [reflexivity|]. now apply Pp. }
  destruct Hh as [[Hn Hh]|(a & -> & An & Ha)].
  - assert (M58 : mem 58 h = false).
    { apply mem_false. intros X. apply Hh, host_char_word in X. destruct X as (_ & _ & _ & _ & X). now apply X. }
    assert (F : forall x y, mem 58 x = false -> (y = [] \/ exists q, y = 58 :: q) -> match split_once 58 (x ++ y) with Some (u, _) => u | None => x ++ y end = x).
    { intros x y Mx [->|(q & ->)]; [rewrite app_nil_r, (proj2 (split_once_none 58 x) Mx); reflexivity|now rewrite split_once_app]. }
    assert (E : match rsplit_once 58 sb with Some (u, _) => u | None => sb end = h).
    { rewrite Es. destruct HP2 as [->|(q & -> & Mq)]; [rewrite app_nil_r, (proj2 (rsplit_once_none 58 h) M58); reflexivity|now rewrite rsplit_once_app]. }
    assert (Hd : match sb with c :: r => if c =? 91 then match split_once 93 r with Some (u, _) => u | None => h end else h | [] => h end = h).
    { rewrite Es. destruct h as [|c h]; [now elim Hn|]. cbn [app]. replace (c =? 91) with false; [reflexivity|]. symmetry. apply N.eqb_neq. intros ->.
      specialize (Hh 91 (or_introl eq_refl)). discriminate. }
    rewrite E.
    match goal with |- (str_eqb ?x ip = true <-> _) => assert (Q : x = h) by exact Hd; rewrite Q end. split.
    + intros X. apply str_eqb_spec in X. subst ip. exists p. split; [exact Hp|]. left. split; [exact Es|]. now apply mem_false.
    + intros (p' & Hp' & [[E' M']|E']).
      * apply str_eqb_spec. assert (Hp2 : p' = [] \/ exists q, p' = 58 :: q) by (destruct Hp' as [->|(q & -> & _)]; [now left|right; now exists q]).
        apply mem_false in M'. rewrite <- (F h p M58), <- (F ip p' M' Hp2), <- Es, <- E'; [reflexivity|].
        destruct HP2 as [->|(q & -> & _)]; [now left|right; now exists q].
      * exfalso. rewrite E' in Es. destruct h as [|c h]; [now elim Hn|]. cbn [lit app] in Es. injection Es as <- _. specialize (Hh _ (or_introl eq_refl)). discriminate.
  - assert (M93 : mem 93 a = false) by (apply mem_false; intros X; apply Ha in X; discriminate).
    assert (I93 : mem 93 ip = false) by (apply mem_false; intros X; apply Ic in X; tauto).
    assert (E : match sb with c :: r => if c =? 91 then match split_once 93 r with Some (u, _) => u | None => match rsplit_once 58 sb with Some (x, _) => x | None => sb end end
                                       else match rsplit_once 58 sb with Some (x, _) => x | None => sb end
                | [] => match rsplit_once 58 sb with Some (x, _) => x | None => sb end end = a).
    { rewrite Es. rewrite <- !app_assoc. change (lit "[" ++ a ++ lit "]" ++ p) with (91 :: (a ++ 93 :: p)). cbv iota. change (91 =? 91) with true. cbv iota.
      rewrite split_once_app by exact M93. reflexivity. }
    match goal with |- (str_eqb ?x ip = true <-> _) => assert (Q : x = a) by exact E; rewrite Q end. split.
    + intros X. apply str_eqb_spec in X. subst ip. exists p. split; [exact Hp|]. right. rewrite Es, <- !app_assoc. reflexivity.
    + intros (p' & Hp' & [[E' M']|E']).
      * exfalso. rewrite Es in E'. destruct ip as [|c ip]; [now elim In0|]. cbn [lit app] in E'. injection E' as <- _. destruct (Ic _ (or_introl eq_refl)) as (_ & _ & X & _). now apply X.
      * apply str_eqb_spec. rewrite Es, <- !app_assoc in E'. 
        change (91 :: (a ++ 93 :: p) = 91 :: (ip ++ 93 :: p')) in E'. injection E' as E'.
        pose proof (split_once_app 93 a p M93) as S1. pose proof (split_once_app 93 ip p' I93) as S2. rewrite E', S2 in S1. injection S1 as -> _. reflexivity.
Qed.
Lemma blen_ptext : forall kv, vgood kv -> blen (print_param kv) <= 322.
Proof.
  intros [k x] (A & _ & B). unfold print_param. cbn [fst snd] in *. apply via_pname_spec in A. rewrite !blen_app. change (blen (lit ";")) with 1.
  destruct x as [y|]; [|cbn [blen]; lia]. apply pvalue_spec in B. rewrite blen_app. change (blen (lit "=")) with 1. lia.
Qed.
Lemma via_print_value : forall v, via_inv v -> validate_header_value (via_print v) = None.
Proof.
  intros v (T & B & S & L & G). pose proof (proj1 (transport_spec _) T) as (_ & Tl & Tc). destruct (sent_by_spec _ B) as (Bn & Bl & Bc & Bh).
  assert (C : existsb is_control (via_print v) = false).
  { unfold via_print. rewrite !existsb_app, params_control, Bc by exact G. 
    destruct (word_facts _ (token_word _ (proj2 (forallb_forall _ _) Tc))) as (_ & -> & _). reflexivity. }
  assert (Len : blen (flat_map print_param (w_params v)) <= 322 * llen (w_params v)).
  { clear -G. induction (w_params v) as [|kv ps IH]; [cbn; lia|]. inversion G; subst. cbn [flat_map]. rewrite blen_app, llen_cons. specialize (IH H2). pose proof (blen_ptext kv H1). lia. }
  assert (LV : blen (via_print v) <= 8192).
  { unfold via_print. rewrite !blen_app. change (blen (lit "SIP/2.0/")) with 8. change (blen (lit " ")) with 1. unfold MAX_VIA_PARAMS in L. lia. }
  unfold validate_header_value, MAX_HEADER_VALUE_LENGTH. replace (_ <? _) with false by lia.
  assert (M : forall c, is_control c = true -> mem c (via_print v) = false).
  { intros c Hc. apply mem_false. intros X. apply existsb_false in C. rewrite forallb_forall in C. apply C in X. rewrite Hc in X. discriminate. }
  rewrite !M by reflexivity. reflexivity.
Qed.
Lemma fill_spec : forall v ip port, via_inv v -> Forall vplain (w_params v) -> address_text ip -> port <= 65535 ->
  let v' := fst (fill_via v ip port) in
  let bare_rport := via_param v (lit "rport") = Some None in
  via_inv v' /\ Forall vplain (w_params v') /\ (snd (fill_via v ip port) = false -> v' = v)
  /\ w_transport v' = w_transport v /\ w_sent_by v' = w_sent_by v
  /\ (forall m, eq_ic m (lit "rport") = false -> eq_ic m (lit "received") = false -> via_param v' m = via_param v m)
  /\ (bare_rport -> via_param v' (lit "rport") = Some (Some (print_N port)))
  /\ (~ bare_rport -> via_param v' (lit "rport") = via_param v (lit "rport"))
  /\ (forall x, via_param v (lit "received") = Some x -> via_param v' (lit "received") = Some x)
  /\ (via_param v (lit "received") = None -> llen (w_params v) < 20 -> (bare_rport \/ ~ sent_from (w_sent_by v) ip) -> via_param v' (lit "received") = Some (Some ip))
  /\ (via_param v (lit "received") = None -> ~ bare_rport -> sent_from (w_sent_by v) ip -> via_param v' (lit "received") = None).
Proof.
  intros v ip port Hi Hp Ha Hport. cbv zeta. destruct (port_facts port Hport) as (P1 & P2 & P3). destruct (address_facts ip Ha) as (A1 & A2 & A3).
  destruct rport_name as [RN RL]. destruct received_name as [CN CL].
  set (v1 := mkVia (w_transport v) (w_sent_by v) (bput (lower (lit "rport")) (Some (print_N port)) (w_params v))).
  assert (STEP : forall filled v1, (v1 = v /\ filled = false /\ via_param v (lit "rport") <> Some None \/
      via_param v (lit "rport") = Some None /\ filled = true /\ v1 = mkVia (w_transport v) (w_sent_by v) (bput (lower (lit "rport")) (Some (print_N port)) (w_params v))) ->
      via_inv v1 /\ Forall vplain (w_params v1) /\ llen (w_params v1) = llen (w_params v) /\ via_param v1 (lit "received") = via_param v (lit "received")
      /\ w_transport v1 = w_transport v /\ w_sent_by v1 = w_sent_by v
      /\ (forall m, eq_ic m (lit "rport") = false -> via_param v1 m = via_param v m)).
  { clear v1. intros filled v1 [(-> & -> & Hr)|(Hr & -> & ->)]; [now auto 8|]. unfold via_param in Hr.
    assert (X : is_some (bget (lower (lit "rport")) (w_params v)) = true) by now rewrite Hr.
    split; [apply via_put_inv; auto|]. split; [cbn [w_params]; apply Forall_vput; [now split|exact Hp]|].
    split; [cbn [w_params]; apply bput_same_llen; [apply Hi|exact X]|]. split; [rewrite via_put_get; reflexivity|]. split; [reflexivity|]. split; [reflexivity|].
    intros m Hm. rewrite via_put_get, Hm. reflexivity. }
  assert (FIN : forall filled v1, (v1 = v /\ filled = false /\ via_param v (lit "rport") <> Some None \/
      via_param v (lit "rport") = Some None /\ filled = true /\ v1 = mkVia (w_transport v) (w_sent_by v) (bput (lower (lit "rport")) (Some (print_N port)) (w_params v))) ->
      (let '(w, f) := match via_param v (lit "rport") with
                       | Some None => match via_set_param v (lit "rport") (Some (print_N port)) with Some v1 => (v1, true) | None => (v, false) end
                       | _ => (v, false) end in w = v1 /\ f = filled)).
  { clear v1. intros filled v1 [(-> & -> & Hr)|(Hr & -> & ->)].
    - destruct (via_param v (lit "rport")) as [[y|]|]; [split; reflexivity|now elim Hr|split; reflexivity].
    - rewrite Hr. unfold via_set_param. rewrite RN, P1. cbn [negb]. unfold via_param in Hr. rewrite Hr. cbn [is_some negb andb]. split; reflexivity. }
  assert (EX : exists filled v1, v1 = v /\ filled = false /\ via_param v (lit "rport") <> Some None \/
      via_param v (lit "rport") = Some None /\ filled = true /\ v1 = mkVia (w_transport v) (w_sent_by v) (bput (lower (lit "rport")) (Some (print_N port)) (w_params v))).
  { destruct (via_param v (lit "rport")) as [[y|]|]; [exists false, v; left; now repeat split|exists true, v1; right; now repeat split|exists false, v; left; now repeat split]. }
  clear v1. destruct EX as (filled & v1 & EX). specialize (STEP filled v1 EX). specialize (FIN filled v1 EX).
  destruct STEP as (I1 & Pl1 & L1 & R1 & T1 & B1 & O1). unfold fill_via.
  destruct (match via_param v (lit "rport") with Some None => _ | _ => _ end) as [w f]. destruct FIN as [-> ->].
  assert (HS := sent_by_host_spec (w_sent_by v1) ip (proj1 (proj2 I1)) Ha). rewrite B1 in HS.
  assert (RP : (via_param v (lit "rport") = Some None -> via_param v1 (lit "rport") = Some (Some (print_N port))) /\ (via_param v (lit "rport") <> Some None -> via_param v1 (lit "rport") = via_param v (lit "rport"))).
  { destruct EX as [(-> & _ & Hr)|(Hr & _ & ->)].
    - split; [intros X; now elim Hr|reflexivity].
    - split; [intros _; rewrite via_put_get; reflexivity|intros X; now elim X]. }
  assert (FB : filled = true <-> via_param v (lit "rport") = Some None).
  { destruct EX as [(_ & -> & Hr)|(Hr & -> & _)]; split; auto; discriminate || (intros X; now elim Hr). }
  assert (FV : filled = false -> v1 = v).
  { destruct EX as [(-> & _ & _)|(_ & -> & _)]; [reflexivity|discriminate]. }
  clear EX. rewrite R1. rewrite B1.
  destruct (via_param v (lit "received")) as [x|] eqn:RC.
  - cbn [is_none]. rewrite andb_false_r. cbn [fst snd]. destruct RP as [RP1 RP2].
    split; [exact I1|]. split; [exact Pl1|]. split; [exact FV|]. split; [exact T1|]. split; [exact B1|]. split; [intros m M1 _; now apply O1|].
    split; [exact RP1|]. split; [exact RP2|]. split; [intros y [= ->]; exact R1|]. split; intros X; discriminate.
  - cbn [is_none]. rewrite andb_true_r. destruct (negb (str_eqb (sent_by_host (w_sent_by v)) ip) || filled) eqn:G.
    + unfold via_set_param. rewrite CN, A1. cbn [negb]. unfold via_param in R1. rewrite R1. cbn [is_some negb andb].
      destruct (MAX_VIA_PARAMS <=? llen (w_params v1)) eqn:Lim.
      * cbn [fst snd]. destruct RP as [RP1 RP2].
        split; [exact I1|]. split; [exact Pl1|]. split; [exact FV|]. split; [exact T1|]. split; [exact B1|]. split; [intros m M1 _; now apply O1|].
        split; [exact RP1|]. split; [exact RP2|]. split; [intros y Hy; discriminate|]. split; [intros _ Hl; exfalso; unfold MAX_VIA_PARAMS in Lim; lia|]. intros _ _ _. exact R1.
      * cbn [fst snd]. destruct RP as [RP1 RP2].
        split; [apply via_put_inv; auto; right; lia|]. split; [cbn [w_params]; apply Forall_vput; [now split|exact Pl1]|]. split; [discriminate|]. split; [exact T1|]. split; [exact B1|].
        split; [intros m M1 M2; rewrite via_put_get, M2; now apply O1|].
        rewrite !via_put_get. change (eq_ic (lit "rport") (lit "received")) with false. change (eq_ic (lit "received") (lit "received")) with true. cbv iota.
        split; [exact RP1|]. split; [exact RP2|]. split; [intros y Hy; discriminate|]. split; [reflexivity|].
        intros _ Nr Sf. exfalso. apply HS in Sf. rewrite Sf in G. cbn [negb orb] in G. apply FB in G. contradiction.
    + apply orb_false_iff in G. destruct G as [G1 G2]. apply negb_false_iff in G1. apply HS in G1. cbn [fst snd]. destruct RP as [RP1 RP2].
      split; [exact I1|]. split; [exact Pl1|]. split; [exact FV|]. split; [exact T1|]. split; [exact B1|]. split; [intros m M1 _; now apply O1|].
      split; [exact RP1|]. split; [exact RP2|]. split; [intros y Hy; discriminate|]. split; [|intros; exact R1].
      intros _ _ [X|X]; [|contradiction]. apply FB in X. congruence.
Qed.
Lemma apply_via_spec : forall hs ip port t v, hget (lit "Via") hs = Some t -> via_parse t = Some v -> address_text ip -> port <= 65535 ->
  exists a n b t', hs = a ++ (n, t) :: b /\ apply_via hs ip port = a ++ (n, t') :: b /\ eq_ic n (lit "Via") = true
    /\ (forall h, In h a -> eq_ic (fst h) (lit "Via") = false)
    /\ via_parse t' = Some (fst (fill_via v ip port)).
Proof.
  intros hs ip port t v Hg Hv Ha Hp. destruct (via_parse_inv t v Hv) as [I0 P0]. destruct (fill_spec v ip port I0 P0 Ha Hp) as (I1 & P1 & F1 & _).
  unfold apply_via. rewrite Hg, Hv. destruct (fill_via v ip port) as [v' ch]. cbn [fst snd] in *.
  apply hget_some in Hg. destruct Hg as (a & n & b & -> & En & Hn). destruct ch.
  - exists a, n, b, (via_print v'). split; [reflexivity|]. split; [|split; [exact En|split; [exact Hn|now apply print_parse_via]]].
    unfold hset_or_push. change (validate_header_name (lit "Via")) with (@None header_error). cbv iota. rewrite via_print_value by exact I1.
    assert (X : set_first (lit "Via") (via_print v') (a ++ (n, t) :: b) = Some (a ++ (n, via_print v') :: b)).
    { clear -En Hn. induction a as [|[m x] a IH]; cbn [app set_first].
      - unfold name_eq. cbn [fst]. rewrite En. reflexivity.
      - unfold name_eq in *. cbn [fst]. pose proof (Hn (m, x) (or_introl eq_refl)) as X. cbn [fst] in X. rewrite X. rewrite IH; [reflexivity|]. intros h Hh. apply Hn. now right. }
    rewrite X. reflexivity.
  - exists a, n, b, t. split; [reflexivity|]. split; [reflexivity|]. split; [exact En|]. split; [exact Hn|]. rewrite (F1 eq_refl). exact Hv.
Qed.

(** ** Token lists *)
Lemma valid_token_spec : forall t, valid_token t = true <-> token 64 t.
Proof.
  intros t. unfold valid_token, token, MAX_TOKEN_LENGTH. destruct t as [|c t]; [split; [discriminate|intros (H & _); now elim H]|].
  rewrite andb_true_iff, N.leb_le, forallb_forall. split; [intros [A B]; split; [discriminate|auto]|tauto].
Qed.
Lemma token_push_spec : forall acc t l, token_push acc t = Some l <-> l = acc ++ [t] /\ llen acc < 50 /\ token 64 t.
Proof.
  intros acc t l. unfold token_push, MAX_TOKENS. rewrite <- valid_token_spec. destruct (50 <=? llen acc) eqn:L.
  - split; [discriminate|]. intros (_ & X & _). lia.
  - destruct (valid_token t); [|split; [discriminate|intros (_ & _ & X); discriminate]].
    split; [intros [= <-]; split; [reflexivity|split; [lia|reflexivity]]|intros (-> & _); reflexivity].
Qed.
Lemma fold_tokens : forall ts acc l, fold_opt token_push ts acc = Some l <->
  l = acc ++ ts /\ (ts = [] \/ llen (acc ++ ts) <= 50) /\ Forall (token 64) ts.
Proof.
  induction ts as [|t ts IH]; intros acc l; cbn [fold_opt].
  - rewrite app_nil_r. split; [intros [= <-]; auto|intros (-> & _); reflexivity].
  - destruct (token_push acc t) as [a1|] eqn:E.
    + apply token_push_spec in E. destruct E as (-> & L & T). rewrite IH, <- app_assoc. cbn [app]. split.
      * intros (-> & X & F). split; [reflexivity|]. split; [|now constructor]. right. destruct X as [->|X]; [rewrite llen_app, llen_cons, llen_nil; lia|exact X].
      * intros (-> & [X|X] & F); [discriminate|]. inversion F; subst. auto.
    + split; [discriminate|]. intros (_ & X & F). inversion F; subst. exfalso.
      assert (Y : token_push acc t = Some (acc ++ [t])).
      { apply token_push_spec. split; [reflexivity|]. split; [|assumption]. destruct X as [X|X]; [discriminate|]. rewrite llen_app, llen_cons in X. lia. }
      rewrite E in Y. discriminate.
Qed.
Lemma tokens_from_spec : forall ts l, tokens_from ts = Some l <-> l = ts /\ llen ts <= 50 /\ Forall (token 64) ts.
Proof.
  intros ts l. unfold tokens_from. rewrite fold_tokens. cbn [app]. split; [intros (-> & [->|X] & F); auto; split; [reflexivity|split; [cbn; lia|exact F]]|tauto].
Qed.
Lemma token_facts : forall t, token 64 t -> trim t = t /\ mem 44 t = false /\ t <> [] /\ no_edge is_ws t.
Proof.
  intros t (A & _ & B). assert (F : forallb uri_token_char t = true) by now apply forallb_forall.
  assert (E : no_edge is_ws t) by (revert F; apply class_edge; intros c Hc; now apply tokc_facts in Hc).
  split; [now apply trim_edge|]. split; [apply (forallb_mem uri_token_char); [reflexivity|exact F]|auto].
Qed.
Lemma tokens_print_split : forall ts, ts <> [] -> Forall (token 64) ts -> map trim (split_on 44 (tokens_print ts)) = ts /\ no_edge is_ws (tokens_print ts) /\ tokens_print ts <> [].
Proof.
  unfold tokens_print. induction ts as [|t ts IH]; intros Hn F; [now elim Hn|]. inversion F; subst. destruct (token_facts t H1) as (A & B & C & D).
  destruct ts as [|t2 ts].
  - cbn [join]. rewrite split_on_nomem by exact B. cbn [map]. rewrite A. auto.
  - destruct (IH ltac:(discriminate) H2) as (I1 & I2 & I3).
    change (join (lit ", ") (t :: t2 :: ts)) with (t ++ 44 :: 32 :: join (lit ", ") (t2 :: ts)).
    rewrite split_on_app by exact B. cbn [map]. rewrite A. split; [|split].
    + f_equal. rewrite <- I1 at 2. set (s := join (lit ", ") (t2 :: ts)) in *. 
      destruct s as [|c s]; [now elim I3|]. cbn [split_on]. change (32 =? 44) with false. cbv iota.
      destruct (split_on 44 (c :: s)) as [|w ws] eqn:E; [now apply split_on_nonempty in E|].
      cbn [split_on] in E. rewrite E. reflexivity.
    + apply no_edge_ends; [exact C|discriminate| |].
      * destruct D as [D _]. exact D.
      * destruct I2 as [_ I2]. set (x := join (lit ", ") (t2 :: ts)) in *. cbn [rev]. destruct (rev x) as [|c r] eqn:E; [|exact I2].
        elim I3. rewrite <- (rev_involutive x), E. reflexivity.
    + destruct t; [now elim C|discriminate].
Qed.
Lemma tl_build_inv : forall s adds l, tl_build s adds = Some l -> llen l <= 50 /\ Forall (token 64) l.
Proof.
  intros s adds l H. unfold tl_build in H. destruct (match s with TFrom ts => _ | TParse t => _ end) as [l0|] eqn:E; [|discriminate].
  assert (I0 : llen l0 <= 50 /\ Forall (token 64) l0).
  { assert (X : forall ts, tokens_from ts = Some l0 -> llen l0 <= 50 /\ Forall (token 64) l0) by (intros ts Ht; apply tokens_from_spec in Ht; destruct Ht as (-> & ? & ?); auto).
    destruct s as [ts|t]; [now apply (X ts)|]. unfold tokens_parse in E. destruct (trim t); [discriminate|]. now apply X in E. }
  clear E. revert l0 H I0. induction adds as [|t adds IH]; intros l0 H I0; cbn [fold_opt] in H; [now injection H as <-|].
  destruct (tokens_add l0 t) as [l1|] eqn:E; [|discriminate]. apply (IH l1 H). unfold tokens_add in E. apply token_push_spec in E. destruct E as (-> & L & T).
  destruct I0 as [_ F]. split; [rewrite llen_app, llen_cons, llen_nil; lia|]. apply Forall_app. split; [exact F|]. now constructor.
Qed.
Lemma trim_blank_l : forall a x, blank a -> trim (a ++ x) = trim x.
Proof.
  intros a x H. unfold trim, trim_by, trim_start_by. f_equal. induction a as [|c a IH]; [reflexivity|]. cbn [app drop_while]. rewrite (H c) by now left.
  apply IH. intros d Hd. apply H. now right.
Qed.
Lemma trim_end_blank : forall x b, blank b -> trim_end_by is_ws (x ++ b) = trim_end_by is_ws x.
Proof.
  intros x b H. induction x as [|c x IH].
  - cbn [app]. induction b as [|d b IHb]; [reflexivity|]. cbn [trim_end_by]. rewrite IHb by (intros e He; apply H; now right). cbn. rewrite (H d) by now left. reflexivity.
  - cbn [app trim_end_by]. now rewrite IH.
Qed.
Lemma trim_blank_r : forall b x, blank b -> trim (x ++ b) = trim x.
Proof.
  intros b x H. unfold trim, trim_by, trim_start_by. induction x as [|c x IH].
  - cbn [app drop_while trim_end_by]. induction b as [|d b IHb]; [reflexivity|]. cbn [drop_while]. rewrite (H d) by now left. apply IHb. intros e He. apply H. now right.
  - cbn [app drop_while]. destruct (is_ws c); [exact IH|]. change (c :: x ++ b) with ((c :: x) ++ b). now apply trim_end_blank.
Qed.
Lemma blank_comma : forall a, blank a -> mem 44 a = false.
Proof. intros a H. apply mem_false. intros X. apply H in X. discriminate. Qed.
Lemma split_prefix : forall c a x, mem c a = false -> exists w ws, split_on c x = w :: ws /\ split_on c (a ++ x) = (a ++ w) :: ws.
Proof.
  intros c a x H. destruct (split_on c x) as [|w ws] eqn:E; [now apply split_on_nonempty in E|]. exists w, ws. split; [reflexivity|].
  induction a as [|d a IH]; [exact E|]. apply mem_cons_false in H. destruct H as [Hd H]. cbn [app split_on]. apply N.eqb_neq in Hd. rewrite Hd, IH by exact H. reflexivity.
Qed.
Lemma split_suffix : forall c x b, mem c b = false -> exists w ws, split_on c x = ws ++ [w] /\ split_on c (x ++ b) = ws ++ [w ++ b].
Proof.
  intros c x b H. induction x as [|d x IH].
  - exists [], []. cbn [app]. split; [reflexivity|]. now apply split_on_nomem.
  - destruct IH as (w & ws & E1 & E2). cbn [app split_on]. destruct (d =? c).
    + exists w, ([] :: ws). rewrite E1, E2. split; reflexivity.
    + rewrite E1, E2. destruct ws as [|u ws]; cbn [app]; [exists (d :: w), []|exists w, ((d :: u) :: ws)]; split; reflexivity.
Qed.
Lemma split_trim : forall s, map trim (split_on 44 (trim s)) = map trim (split_on 44 s).
Proof.
  intros s. destruct (trim_by_sub is_ws s) as (a & b & E & A & B). fold (trim s) in E.
  assert (Ba : blank a) by (intros c Hc; rewrite forallb_forall in A; auto). assert (Bb : blank b) by (intros c Hc; rewrite forallb_forall in B; auto).
  rewrite E at 2. destruct (split_prefix 44 a (trim s ++ b) (blank_comma a Ba)) as (w & ws & E1 & E2). rewrite E2. cbn [map]. rewrite trim_blank_l by exact Ba.
  change (trim w :: map trim ws) with (map trim (w :: ws)). rewrite <- E1.
  destruct (split_suffix 44 (trim s) b (blank_comma b Bb)) as (w' & ws' & E3 & E4). rewrite E3, E4, !map_app. cbn [map]. now rewrite trim_blank_r.
Qed.
Lemma trim_nil_blank : forall s, trim s = [] -> blank s.
Proof.
  intros s H. destruct (trim_by_sub is_ws s) as (a & b & E & A & B). fold (trim s) in E. rewrite H in E. cbn [app] in E. rewrite E.
  apply blank_app; [intros c Hc; rewrite forallb_forall in A; auto|intros c Hc; rewrite forallb_forall in B; auto].
Qed.
Lemma tokens_parse_spec : forall s l, tokens_parse s = Some l <->
  l = map trim (split_on 44 s) /\ llen l <= 50 /\ Forall (token 64) l.
Proof.
  intros s l. unfold tokens_parse. rewrite <- split_trim. destruct (trim s) as [|c t] eqn:E.
  - split; [discriminate|]. intros (-> & _ & F). exfalso. cbn in F. inversion F; subst. destruct H1 as (X & _). now apply X.
  - rewrite tokens_from_spec. split; intros (-> & A & B); auto.
Qed.
