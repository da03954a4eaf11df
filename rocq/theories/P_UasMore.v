(** More of properties C135, C137, C138, C140, C141 and C144: the user agent server at its
    limits, on answers to PRACK and on the parts of From and To it reads. *)
From Coq Require Import Arith NArith Bool String List Lia ZifyBool ZifyN ZifyNat.
Import ListNotations.
From Verif Require Import Base BaseFacts NumFacts Headers HeadersProofs Method Text TextFacts Uri Msg Message MessageProofs Dialog DialogSpec DialogProofs P_Dialog Prack PrackSpec PrackProofs P_Prack SessionTimer Via TxManager Dns Uac UacSpec UacProofs UacReads P_Uac Uas UasServe UasSpec UasProofs UasCalls UasTalk P_Uas P_UasCall P_UasTimer P_UasReliable P_UasServe.
Open Scope N_scope.
Open Scope list_scope.

(** ** C135: texts that are refused *)
Definition reason_fits (t : str) : Prop := blen t <= 128 /\ forall c, In c t -> is_control c = false.
Lemma reason_iff : forall t, reason_ok t = true <-> reason_fits t.
Proof.
  intros t. unfold reason_ok, short_text, reason_fits, MAX_REASON_PHRASE. rewrite andb_true_iff, N.leb_le, negb_true_iff. split; intros (A & B); (split; [exact A|]).
  - intros c Hc. destruct (is_control c) eqn:E; [|reflexivity]. assert (X : existsb is_control t = true) by (apply existsb_exists; now exists c). congruence.
  - destruct (existsb is_control t) eqn:E; [|reflexivity]. apply existsb_exists in E as (c & Hc & E). rewrite (B c Hc) in E. discriminate.
Qed.
Theorem C135_refused : forall s rq d code reason sdp tag rnd now, 100 <= code <= 199 ->
  (create_reliable s rq d code reason sdp tag rnd now = Ret None <-> ~ (reason_fits reason /\ forall b, sdp = Some b -> blen b <= 1048576)).
Proof.
  intros s rq d code reason sdp tag rnd now H. unfold create_reliable. replace (in_range 100 199 code) with true by (unfold in_range; lia). cbn [negb].
  assert (X : reason_ok reason && sdp_ok sdp = true <-> (reason_fits reason /\ forall b, sdp = Some b -> blen b <= 1048576)).
  { rewrite andb_true_iff, reason_iff. unfold sdp_ok, UAS_MAX_BODY. destruct sdp as [b|].
    - rewrite N.leb_le. split; intros (A & B); (split; [exact A|]); [intros b' X; assert (b' = b) by congruence; now subst|now apply B].
    - split; intros (A & _); (split; [exact A|]); [discriminate|reflexivity]. }
  destruct (reason_ok reason && sdp_ok sdp); cbn [negb].
  - split; [|intros Y; elim Y; now apply X]. intros Y. exfalso. destruct (create_response rq code reason tag); cbn [obind] in Y; [|discriminate]. destruct (next_rseq rnd (d_id d) (us_rseq s)) as (m & k). cbv zeta in Y.
    repeat match type of Y with obind ?o _ = _ => destruct o; cbn [obind] in Y; [|discriminate] end. discriminate.
  - split; [|reflexivity]. intros _ Y. apply X in Y. discriminate.
Qed.
Print Assumptions C135_refused.
Theorem C135_notify_refused : forall s n code reason branch, notify_sipfrag s n code reason branch = Ret None <-> ~ reason_fits reason.
Proof.
  intros s n code reason branch. unfold notify_sipfrag. rewrite <- reason_iff. destruct (reason_ok reason); cbn [negb].
  - split; [|intros Y; now elim Y]. intros Y. exfalso. cbv zeta in Y. destruct (u32_max <=? sb_lcseq (nt_sub n)); [discriminate|]. match type of Y with obind ?o _ = _ => destruct o; cbn [obind] in Y; discriminate end.
  - split; [intros _; discriminate|reflexivity].
Qed.
Print Assumptions C135_notify_refused.
Example C135_limit_case : reason_fits (repeat 97 128) /\ ~ reason_fits (repeat 97 129).
Proof.
  split; [|intros (X & _); vm_compute in X; now apply X]. split; [vm_compute; discriminate|]. intros c Hc. apply repeat_spec in Hc. now subst.
Qed.

(** ** C137: whom the server takes for the caller *)
Definition caller_is (f : str) (ru : sip_uri) : Prop :=
  (exists a u b, f = a ++ lit "<" ++ u ++ lit ">" ++ b /\ ~ In 60 a /\ ~ In 62 u /\ parse_uri (trim u) = Some ru)
  \/ (~ In 60 f /\ exists u b, f = u ++ b /\ ~ In 59 u /\ (b = [] \/ exists b', b = lit ";" ++ b') /\ parse_uri (trim u) = Some ru).
Lemma once_iff : forall c s a b, split_once c s = Some (a, b) <-> s = a ++ c :: b /\ ~ In c a.
Proof.
  intros c s a b. split.
  - intros H. apply split_once_some in H as (A & B). split; [exact A|]. intros X. apply mem_In in X. congruence.
  - intros (-> & H). apply split_once_app. destruct (mem c a) eqn:E; [|reflexivity]. apply mem_In in E. contradiction.
Qed.
Lemma never_iff : forall c s, split_once c s = None <-> ~ In c s.
Proof.
  intros c s. rewrite split_once_none. split; [intros H X; apply mem_In in X; congruence|]. intros H. destruct (mem c s) eqn:E; [|reflexivity]. apply mem_In in E. contradiction.
Qed.
Theorem C137_caller : forall rq ru, from_uri rq = Some ru <-> exists f, header_of (q_headers rq) (lit "From") = Some f /\ caller_is f ru.
Proof.
  intros rq ru. unfold from_uri. destruct (header_of (q_headers rq) (lit "From")) as [f|]; [|split; [discriminate|intros (f & X & _); discriminate]].
  transitivity (caller_is f ru); [|split; [intros H; now exists f|intros (g & X & H); assert (g = f) by congruence; now subst]]. unfold caller_is. destruct (split_once 60 f) as [(a, r)|] eqn:E.
  - apply once_iff in E as (E & NA). destruct (split_once 62 r) as [(u, b)|] eqn:E2.
    + apply once_iff in E2 as (E2 & NU). split.
      * intros H. left. exists a, u, b. subst. auto.
      * intros [(a' & u' & b' & F & NA' & NU' & P)|(NF & _)]; [|elim NF; rewrite E; apply in_elt].
        assert (X : Some (a, r) = Some (a', u' ++ 62 :: b')).
        { transitivity (split_once 60 f); [symmetry; now apply once_iff|]. apply once_iff. split; [exact F|exact NA']. }
        assert (R : r = u' ++ 62 :: b') by congruence. assert (Y : Some (u, b) = Some (u', b')).
        { transitivity (split_once 62 r); [symmetry; now apply once_iff|]. apply once_iff. split; assumption. }
        assert (u = u') by congruence. now subst u'.
    + apply never_iff in E2. split; [discriminate|]. intros [(a' & u' & b' & F & NA' & NU' & P)|(NF & _)]; [|elim NF; rewrite E; apply in_elt]. exfalso. apply E2.
      assert (X : Some (a, r) = Some (a', u' ++ 62 :: b')).
      { transitivity (split_once 60 f); [symmetry; now apply once_iff|]. apply once_iff. split; [exact F|exact NA']. }
      assert (r = u' ++ 62 :: b') as -> by congruence. apply in_elt.
  - apply never_iff in E. destruct (split_once 59 f) as [(u, b)|] eqn:E2.
    + apply once_iff in E2 as (E2 & NU). split.
      * intros H. right. split; [exact E|]. exists u, (59 :: b). refine (conj E2 (conj NU (conj _ H))). right. now exists b.
      * intros [(a' & u' & b' & F & _)|(_ & u' & b' & F & NU' & B & P)]; [elim E; rewrite F; apply in_elt|]. destruct B as [->|(b'' & ->)].
        -- rewrite app_nil_r in F. subst u'. elim NU'. rewrite E2. apply in_elt.
        -- assert (Y : Some (u, b) = Some (u', b'')). { transitivity (split_once 59 f); [symmetry; now apply once_iff|]. apply once_iff. split; assumption. } assert (u = u') by congruence. now subst u'.
    + apply never_iff in E2. split.
      * intros H. right. split; [exact E|]. exists f, []. rewrite app_nil_r. repeat split; auto.
      * intros [(a' & u' & b' & F & _)|(_ & u' & b' & F & NU' & B & P)]; [elim E; rewrite F; apply in_elt|]. destruct B as [->|(b'' & ->)]; [rewrite app_nil_r in F; now subst|]. elim E2. rewrite F. apply in_elt.
Qed.
Print Assumptions C137_caller.
Example C137_caller_case : exists ru, caller_is (lit """Alice"" <sip:alice@example.org>;tag=1") ru /\ u_host ru = lit "example.org".
Proof.
  destruct (parse_uri (lit "sip:alice@example.org")) as [ru|] eqn:E; [|vm_compute in E; discriminate]. exists ru. split.
  - left. exists (lit """Alice"" "), (lit "sip:alice@example.org"), (lit ";tag=1"). refine (conj eq_refl (conj _ (conj _ E))); apply (fun c s => proj1 (never_iff c s)); reflexivity.
  - vm_compute in E. injection E as <-. reflexivity.
Qed.

(** ** C138: a REFER that names nobody is refused *)
Theorem C138_no_target : forall s rq d tag, header_of (q_headers rq) (lit "Refer-To") = None -> dialog_request rq d <> Panics -> accept_refer s rq d tag = Ret None.
Proof.
  intros s rq d tag H D. unfold accept_refer, inside. destruct (negb (str_eqb (method_str (q_method rq)) (lit "REFER"))); cbn [obind negb]; [reflexivity|]. destruct (dialog_request rq d) as [b|]; [|contradiction]. cbn [obind]. destruct b; cbn [negb]; [|reflexivity]. now rewrite H.
Qed.
Print Assumptions C138_no_target.

(** ** C140: the test before accepting, and the caller's own minimum *)
Theorem C140_validate : forall rq min_se tag r, validate_session_timer rq min_se tag = Ret (Some r) ->
  exists n h, requested_se rq = Some (n, h) /\ let m := match min_se with Some m => m | None => 90 * NS end in
    n * NS < m /\ p_code r = 422 /\ mirrors rq r /\ values "Min-SE" (p_headers r) = [print_N (m / NS mod 4294967296)].
Proof.
  intros rq min_se tag r H. unfold validate_session_timer in H. destruct (requested_se rq) as [(n, h)|]; [|discriminate]. unfold tm_validate in H. exists n, h. split; [reflexivity|]. cbv zeta in *.
  set (m := match min_se with Some m => m | None => 90 * NS end) in *. destruct (n * NS <? m) eqn:L; [|discriminate]. destruct (create_422 rq (secs_u32 m) tag) as [r0|] eqn:C; cbn [obind] in H; [|discriminate]. assert (r0 = r) by congruence. subst r0.
  split; [lia|].
  assert (Q := reply_answers server1 rq tag (YInterval (secs_u32 m)) r ltac:(cbn [make]; rewrite C; reflexivity) (fun c t X => ltac:(discriminate X))).
  destruct Q as (Q1 & _ & Q2 & _ & _ & Q3). cbn [status_wanted] in Q1. apply pair_equal_spec in Q1. split; [tauto|]. split; [exact Q2|]. apply (Q3 "Min-SE"%string). now left.
Qed.
Print Assumptions C140_validate.
Theorem C140_validated : forall rq min_se tag, validate_session_timer rq min_se tag = Ret None <->
  forall n h, requested_se rq = Some (n, h) -> match min_se with Some m => m | None => 90 * NS end <= n * NS.
Proof.
  intros rq min_se tag. unfold validate_session_timer, tm_validate. cbv zeta. set (m := match min_se with Some m => m | None => 90 * NS end). destruct (requested_se rq) as [(n, h)|]; [|split; [intros _ n h; discriminate|reflexivity]]. destruct (n * NS <? m) eqn:L.
  - split; [destruct (create_422 rq (secs_u32 m) tag); cbn [obind]; discriminate|]. intros H. specialize (H n h eq_refl). lia.
  - split; [|reflexivity]. intros _ n' h' X. assert (n' = n) by congruence. subst. lia.
Qed.
Print Assumptions C140_validated.
Theorem C140_min_se : forall s a rq sdp p tag s' r d v w x n, accept_invite_timer s a rq sdp p tag = Ret (Some (Accepted s' r d (Some (v, w)))) ->
  header_of (q_headers rq) (lit "Min-SE") = Some x -> min_se_parse x = Some n -> n * NS <= v.
Proof.
  intros s a rq sdp p tag s' r d v w x n H X Y. apply C140_accepted in H as (_ & _ & _ & _ & H). destruct (requested_se rq) as [(m, hint)|]; [|destruct H; discriminate].
  destruct H as (v' & w' & E & _ & A & _). assert (v' = v) by congruence. subst v'. unfold remote_min_se in A. rewrite X, Y in A. exact A.
Qed.
Print Assumptions C140_min_se.
Example C140_validate_case : exists r, validate_session_timer (timed "100" "90") (Some (120 * NS)) (lit "srv1") = Ret (Some r) /\ values "Min-SE" (p_headers r) = [lit "120"].
Proof. eexists. split; vm_compute; reflexivity. Qed.

(** ** C141: which PRACKs are answered how *)
Lemma contains_mid : forall p a b, contains p (a ++ p ++ b) = true.
Proof. intros p a b. unfold contains. pose proof (find_sub_app p a b) as H. destruct (find_sub p (a ++ p ++ b)); [reflexivity|contradiction]. Qed.
Lemma is_400 : forall w a b, In w (map lit ["missing RAck"; "Invalid RAck"; "does not match"; "Duplicate PRACK"]%string) -> prack_is_400 (a ++ w ++ b) = true.
Proof. intros w a b H. unfold prack_is_400. apply existsb_exists. exists w. split; [exact H|apply contains_mid]. Qed.
Lemma not_400 : forall k, ~ In 32 k -> prack_is_400 (lit "No pending reliable provisionals for dialog " ++ k) = false.
Proof.
  intros k H. unfold prack_is_400, contains. assert (F : forall p, In 32 p -> find_sub p k = None).
  { intros p Hp. apply find_sub_none. intros a b E. apply H. rewrite E. apply in_app_iff. right. apply in_app_iff. now left. }
  cbn [map existsb]. assert (G : forall p, In p (map lit ["missing RAck"; "Invalid RAck"; "does not match"; "Duplicate PRACK"]%string) -> find_sub p (lit "No pending reliable provisionals for dialog " ++ k) = None).
  { intros p Hp. assert (K : find_sub p k = None) by (apply F; repeat (destruct Hp as [<-|Hp]; [cbn; tauto|]); destruct Hp).
    repeat (destruct Hp as [<-|Hp]; [cbn; cbn in K; now rewrite K|]). destruct Hp. }
  cbn [map] in G. rewrite !G by (cbn [In]; tauto). reflexivity.
Qed.
Lemma created_code : forall rq c t tag r, create_response rq c t tag = Ret r -> p_code r = c.
Proof. intros rq c t tag r H. apply create_inv in H as (_ & ->). reflexivity. Qed.
Definition pending_for (s : uas) (d : dialog) (now : N) : option (list pend) := lookup str_eqb (id_key (d_id d)) (pv_pending (pv_cleanup (us_prack s) (id_key (d_id d)) now)).
Definition meets (p : pend) (ra : rack) : Prop := pe_rseq p = ra_rseq ra /\ pe_cseq p = ra_cseq ra /\ pe_method p = ra_method ra.
Theorem C141_verdict : forall s rq d tag now s' r, handle_prack s rq d tag now = Ret (Some (s', r)) ->
  (hget (lit "RAck") (q_headers rq) = None -> p_code r = 400)
  /\ forall t ra, hget (lit "RAck") (q_headers rq) = Some t -> rack_parse t = Some ra ->
     match pending_for s d now with
     | None => ~ In 32 (id_key (d_id d)) -> p_code r = 481
     | Some l => match find (fun p => pe_rseq p =? ra_rseq ra) l with
                 | None => p_code r = 400
                 | Some p => (meets p ra /\ pe_pracked p = false -> p_code r = 200) /\ (~ (meets p ra /\ pe_pracked p = false) -> p_code r = 400)
                 end
     end.
Proof.
  intros s rq d tag now s' r H. unfold handle_prack in H. destruct (inside "PRACK" rq d) as [b|]; cbn [obind] in H; [|discriminate]. destruct b; cbn [negb] in H; [|discriminate]. cbv zeta in H. unfold pending_for.
  set (k := id_key (d_id d)) in *. set (v := pv_cleanup (us_prack s) k now) in *.
  assert (BAD : prack_is_400 (prack_error v k (q_headers rq)) = true -> snd (pv_check v k (q_headers rq)) = None -> p_code r = 400).
  { intros A B. destruct (pv_check v k (q_headers rq)) as (v', o). cbn [snd] in B. subst o. rewrite A in H. destruct (create_response rq 400 _ tag) as [r0|] eqn:C; cbn [obind] in H; [|discriminate]. apply created_code in C. congruence. }
  assert (GONE : prack_is_400 (prack_error v k (q_headers rq)) = false -> snd (pv_check v k (q_headers rq)) = None -> p_code r = 481).
  { intros A B. destruct (pv_check v k (q_headers rq)) as (v', o). cbn [snd] in B. subst o. rewrite A in H. destruct (create_response rq 481 _ tag) as [r0|] eqn:C; cbn [obind] in H; [|discriminate]. apply created_code in C. congruence. }
  assert (GOOD : snd (pv_check v k (q_headers rq)) <> None -> p_code r = 200).
  { intros A. destruct (pv_check v k (q_headers rq)) as (v', o). cbn [snd] in A. destruct o as [x|]; [|contradiction]. destruct (create_ok s rq None tag) as [[r0|]|] eqn:C; cbn [rbind] in H; [|discriminate..]. assert (r0 = r) by congruence. subst r0.
    destruct (reply_answers s rq tag (YOk None) r C (fun c t X => ltac:(discriminate X))) as (Q1 & _). cbn [status_wanted] in Q1. congruence. }
  clear H. split.
  - intros E. apply BAD; [unfold prack_error; rewrite E; reflexivity|unfold pv_check; now rewrite E].
  - intros t ra E P. unfold pv_check, prack_error in BAD, GONE, GOOD. rewrite E, P in BAD, GONE, GOOD. unfold rack_parse in P. destruct (split_ws t) as [|x [|y [|z [|]]]]; try discriminate.
    destruct (parse_uint u32_max x) as [rs|]; [|discriminate]. destruct (parse_uint u32_max y) as [cs|]; [|discriminate]. destruct (parse_std_method z) as [mm|]; [|discriminate].
    assert (ra = mkRack rs cs mm) by congruence. subst ra. clear P E. cbn [ra_rseq ra_cseq ra_method] in *. unfold meets. cbn [ra_rseq ra_cseq ra_method].
    destruct (lookup str_eqb k (pv_pending v)) as [l|].
    + destruct (find (fun p => pe_rseq p =? rs) l) as [p|] eqn:F.
      * apply find_some in F as (_ & F). apply N.eqb_eq in F. destruct (pe_cseq p =? cs) eqn:C; cbn [negb] in *.
        -- apply N.eqb_eq in C. destruct (method_eqb (pe_method p) mm) eqn:M; cbn [negb] in *.
           ++ apply method_eqb_spec in M. destruct (pe_pracked p) eqn:K.
              ** split; [intros (_ & X); discriminate|]. intros _. apply BAD; [|reflexivity]. apply (is_400 (lit "Duplicate PRACK") [] _). cbn; tauto.
              ** split; [intros _; apply GOOD; discriminate|]. intros X. elim X. repeat split; assumption.
           ++ assert (pe_method p <> mm) by (intros X; apply method_eqb_spec in X; congruence). split; [intros ((_ & _ & X) & _); contradiction|]. intros _. apply BAD; reflexivity.
        -- apply N.eqb_neq in C. split; [intros ((_ & X & _) & _); contradiction|]. intros _. apply BAD; [|reflexivity].
           match goal with |- prack_is_400 ?e = true => replace e with ((lit "RAck CSeq " ++ print_N cs ++ lit " ") ++ lit "does not match" ++ lit " provisional CSeq " ++ print_N (pe_cseq p)) by (rewrite <- !app_assoc; reflexivity) end. apply is_400. cbn; tauto.
      * apply BAD; [|reflexivity]. match goal with |- prack_is_400 ?e = true => replace e with ((lit "RAck RSeq " ++ print_N rs ++ lit " ") ++ lit "does not match" ++ lit " any pending reliable provisional") by (rewrite <- !app_assoc; reflexivity) end. apply is_400. cbn; tauto.
    + intros NK. apply GONE; [|reflexivity]. now apply not_400.
Qed.
Print Assumptions C141_verdict.
(** the tag of To is exchanged and what stands behind it is kept *)
Lemma set_get : forall n v hs hs', hset_or_push hs n v = Ok hs' -> hget n hs' = Some v.
Proof.
  intros n v hs hs' H. assert (M : forall l hs0, set_first n v l = Some hs0 -> hget n hs0 = Some v).
  { induction l as [|h l IH]; intros hs0 X; cbn [set_first] in X; [discriminate|]. destruct (name_eq h n) eqn:Q.
    - assert (E : (fst h, v) :: l = hs0) by congruence. subst hs0. unfold hget. cbn [find]. replace (name_eq (fst h, v) n) with true by (symmetry; exact Q). reflexivity.
    - destruct (set_first n v l) as [l'|]; [|discriminate]. assert (E : h :: l' = hs0) by congruence. subst hs0. unfold hget. cbn [find]. rewrite Q. apply (IH l' eq_refl). }
  assert (Z : forall l, set_first n v l = None -> hget n (l ++ [(n, v)]) = Some v).
  { induction l as [|h l IH]; intros X; cbn [set_first app] in *.
    - unfold hget. cbn [find]. replace (name_eq (n, v) n) with true by (symmetry; apply eq_ic_spec; reflexivity). reflexivity.
    - destruct (name_eq h n) eqn:Q; [discriminate|]. destruct (set_first n v l); [discriminate|]. unfold hget. cbn [find]. rewrite Q. apply (IH eq_refl). }
  unfold hset_or_push in H. destruct (validate_header_name n); [discriminate|]. destruct (validate_header_value v); [discriminate|]. destruct (set_first n v hs) as [x|] eqn:E.
  - assert (x = hs') by congruence. subst. now apply (M hs).
  - destruct (MAX_HEADERS <=? llen hs); [discriminate|]. assert (hs ++ [(n, v)] = hs') as <- by congruence. now apply Z.
Qed.
Theorem C141_tag_replaced : forall before v rest tag hs hs', exact_to hs = Some (before ++ lit ";tag=" ++ v ++ rest) -> ~ occurs (lit ";tag=") before -> ~ In 59 v -> (rest = [] \/ exists b, rest = lit ";" ++ b) ->
  replace_to_tag tag hs = Ret hs' -> hget (lit "To") hs' = Some (before ++ rest ++ lit ";tag=" ++ tag).
Proof.
  intros before v rest tag hs hs' E B V R H. unfold replace_to_tag in H. rewrite E in H.
  assert (S1 : strip_tag (before ++ lit ";tag=" ++ v ++ rest) = before ++ rest).
  { unfold strip_tag. change (lit ";tag=") with (59 :: lit "tag="). rewrite find_sub_here; [|vm_compute; intuition discriminate|exact B]. f_equal. destruct R as [->|(b & ->)].
    - rewrite app_nil_r. destruct (split_once 59 v) as [(x, y)|] eqn:X; [|reflexivity]. apply once_iff in X as (-> & _). elim V. apply in_elt.
    - assert (X : split_once 59 (v ++ lit ";" ++ b) = Some (v, b)) by (apply once_iff; split; [reflexivity|exact V]). now rewrite X. }
  rewrite S1, <- app_assoc in H. destruct (hset_or_push hs (lit "To") (before ++ rest ++ lit ";tag=" ++ tag)) as [h|] eqn:Q; cbn [unwrap] in H; [|discriminate]. assert (h = hs') by congruence. subst h. now apply set_get in Q.
Qed.
Print Assumptions C141_tag_replaced.
Example C141_tag_case : exists hs', replace_to_tag (lit "new") [(lit "To", lit "<sip:a@b;transport=tcp>;tag=old;x=1")] = Ret hs' /\ hget (lit "To") hs' = Some (lit "<sip:a@b;transport=tcp>;x=1;tag=new").
Proof. eexists. split; vm_compute; reflexivity. Qed.

(** ** C144: how long a subscription lasts, and how many there are *)
Theorem C144_lifetime : forall s a rq exp tag s' r n, accept_subscribe s a rq exp tag = Ret (Some (s', r, n)) -> (forall k, exp = Some k -> k <= 4294967295) ->
  match exp, hget (lit "Expires") (q_headers rq) with
  | Some k, _ => nt_expires n = k
  | None, Some v => forall k, parse_uint u32_max v = Some k -> nt_expires n = k
  | None, None => nt_expires n = 3600
  end /\ (exp = None -> forall v, hget (lit "Expires") (q_headers rq) = Some v -> parse_uint u32_max v = None -> nt_expires n = 3600).
Proof.
  intros s a rq exp tag s' r n H Hx. destruct (C144_accepted _ _ _ _ _ _ _ _ H Hx) as (_ & _ & _ & E & _). apply subscribe_inv in H. destruct H as (_ & _ & R & ru & _ & N & _). apply notifier_inv in N. destruct N as (_ & _ & _ & _ & _ & _ & _ & _ & N5).
  assert (G : granted rq exp <= 4294967295).
  { unfold granted. destruct exp as [k|]; [now apply Hx|]. destruct (hget (lit "Expires") (q_headers rq)) as [v|]; [|vm_compute; discriminate]. destruct (parse_uint u32_max v) as [k|] eqn:P; [|vm_compute; discriminate]. apply parse_uint_range in P. exact P. }
  assert (E' : values "Expires" (p_headers r) = [print_N (granted rq exp)]) by (rewrite R; cbn [p_headers]; rewrite shape_extra by (cbn; intuition discriminate); reflexivity).
  assert (EE : nt_expires n = granted rq exp).
  { specialize (N5 (print_N (granted rq exp))). rewrite UacSendProofs.get_first in N5. unfold values in E'. rewrite E' in N5. specialize (N5 eq_refl). rewrite parse_uint_print in N5 by (unfold u64_max; lia). congruence. }
  rewrite EE. unfold granted. split.
  - destruct exp as [k|]; [reflexivity|]. destruct (hget (lit "Expires") (q_headers rq)) as [v|]; [|reflexivity]. intros k X. now rewrite X.
  - intros -> v X Y. now rewrite X, Y.
Qed.
Print Assumptions C144_lifetime.
(** a subscription is kept as long as there are fewer than ten thousand; there are never more *)
Theorem C144_capacity : forall s a rq exp tag s' r n, accept_subscribe s a rq exp tag = Ret (Some (s', r, n)) ->
  (llen (us_subs s) < 10000 -> lookup sid_eqb (sid_of (nt_sub n)) (us_subs s') = Some n)
  /\ (10000 <= llen (us_subs s) -> s' = s)
  /\ (llen (us_subs s) <= 10000 -> llen (us_subs s') <= 10000).
Proof.
  intros s a rq exp tag s' r n H. apply subscribe_inv in H. destruct H as (_ & _ & _ & ru & _ & _ & E). unfold sm_insert, MAX_SUBSCRIPTIONS in E. destruct (10000 <=? llen (us_subs s)) eqn:L.
  - subst s'. repeat split; [lia|lia].
  - subst s'. cbn [put_subs us_subs].
    assert (SE : forall i j, sid_eqb i j = true <-> i = j).
    { intros (((c, f), t), e) (((c', f'), t'), e'). unfold sid_eqb. rewrite !andb_true_iff, !str_eqb_spec. split; [intros (((-> & ->) & ->) & ->); reflexivity|]. intros X. repeat split; congruence. }
    refine (conj _ (conj _ _)); [intros _|lia|intros _].
    + apply (lookup_insert_same sid_eqb SE).
    + unfold insert, llen in *. cbn [List.length]. assert (R : forall m : smap, (List.length (remove_key sid_eqb (sid_of (nt_sub n)) m) <= List.length m)%nat).
      { unfold remove_key. induction m as [|x m IH]; cbn [filter]; [lia|]. match goal with |- context [if ?b then _ else _] => destruct b end; cbn [List.length]; lia. }
      specialize (R (us_subs s)). lia.
Qed.
Print Assumptions C144_capacity.

(** ** C144: the Via of a notification *)
(** One Via, with a branch that starts with the magic cookie of RFC 3261, the branch
    given, and the host and port of the server's contact. *)
Theorem C144_notify_via : forall s n code reason branch n' q, notify_sipfrag s n code reason branch = Ret (Some (n', q)) ->
  exists transport port, values "Via" (q_headers q) = [lit "SIP/2.0/" ++ transport ++ lit " " ++ u_host (us_contact s) ++ port ++ lit ";branch=z9hG4bK" ++ branch]
  /\ (forall p, u_port (us_contact s) = Some p -> port = lit ":" ++ print_N p) /\ (u_port (us_contact s) = None -> port = [])
  /\ (bget (lit "transport") (u_params (us_contact s)) = None -> transport = lit "UDP")
  /\ forall v, bget (lit "transport") (u_params (us_contact s)) = Some (Some v) -> transport = upper v.
Proof.
  intros s n code reason branch n' q H. unfold notify_sipfrag in H. destruct (reason_ok reason); cbn [negb] in H; [|discriminate]. cbv zeta in H. destruct (u32_max <=? _); [discriminate|].
  destruct (assemble _ _ _ _) as [q0|] eqn:A; cbn [obind] in H; [|discriminate]. injection H as <- <-. apply assemble_eq in A. subst q0.
  exists (match bget (lit "transport") (u_params (us_contact s)) with Some (Some v) => upper v | _ => lit "UDP" end), (match u_port (us_contact s) with Some p => lit ":" ++ print_N p | None => [] end).
  split; [reflexivity|]. split; [intros p ->; reflexivity|]. split; [intros ->; reflexivity|]. split; [intros ->; reflexivity|]. intros v ->. reflexivity.
Qed.
Print Assumptions C144_notify_via.
