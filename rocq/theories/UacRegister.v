(** The series of REGISTER requests a client sends over its life. *)
From Coq Require Import Arith NArith Bool String List Lia ZifyBool ZifyN ZifyNat.
Import ListNotations.
From Verif Require Import Base BaseFacts NumFacts Headers HeadersProofs Method Text TextFacts Uri UriProofs Msg Message AnyUri Dialog Auth Uac UacSend UacSpec UacProofs UacReads.
Open Scope N_scope.
Open Scope list_scope.

Notation look := (lookup str_eqb).
Definition reg_keys (x : fresh * call) : list str := match snd x with CRegister r _ => [u_raw r] | _ => [] end.
Record reg_inv (P : list (fresh * call)) (u : uac) : Prop := mkRegInv {
  ri_calls : NoDup (keys (ua_calls u)); ri_cseqs : NoDup (keys (ua_cseqs u)); ri_tags : NoDup (keys (ua_tags u));
  ri_same1 : forall k, In k (keys (ua_calls u)) <-> In k (keys (ua_cseqs u));
  ri_same2 : forall k, In k (keys (ua_calls u)) <-> In k (keys (ua_tags u));
  ri_values : NoDup (map snd (ua_calls u));
  ri_past : forall v, In v (map snd (ua_calls u)) -> In v (map (fun x => call_of (fst x)) P);
  ri_asked : forall k, In k (keys (ua_calls u)) -> In k (flat_map reg_keys P);
  ri_number : forall k n, look k (ua_cseqs u) = Some n -> 1 <= n <= llen P }.
Definition same_self (u u' : uac) : Prop := ua_local u' = ua_local u /\ ua_display u' = ua_display u /\ ua_from u' = ua_from u.
Lemma same_from : forall u u' o t, same_self u u' -> from_value u' o t = from_value u o t.
Proof. intros u u' o t (E1 & E2 & E3). unfold from_value. now rewrite E1, E2, E3. Qed.
(** what a step leaves alone *)
Record grows (u u' : uac) : Prop := mkGrows {
  gr_self : same_self u u';
  gr_calls : forall k v, look k (ua_calls u) = Some v -> look k (ua_calls u') = Some v;
  gr_tags : forall k v, look k (ua_tags u) = Some v -> look k (ua_tags u') = Some v;
  gr_cseqs : forall k n, look k (ua_cseqs u) = Some n -> exists n', n <= n' /\ look k (ua_cseqs u') = Some n' }.
Lemma grows_refl : forall u, grows u u.
Proof. intros u. constructor; [now repeat split|auto|auto|]. intros k n H. exists n. split; [lia|assumption]. Qed.
Lemma grows_trans : forall a b c, grows a b -> grows b c -> grows a c.
Proof.
  intros a b c [(S1 & S2 & S3) A1 A2 A3] [(T1 & T2 & T3) B1 B2 B3]. constructor; [repeat split; congruence|auto|auto|].
  intros k n H. destruct (A3 k n H) as (n' & L & H'). destruct (B3 k n' H') as (n2 & L2 & H2). exists n2. split; [lia|assumption].
Qed.
(** what one REGISTER looks like, and the tables after it *)
Definition registered (u u' : uac) (f : fresh) (r : sip_uri) (q : req) : Prop :=
  exists cl tg n, once q "Call-ID" cl /\ once q "From" (from_value u None tg) /\ once q "CSeq" (print_N n ++ lit " REGISTER")
  /\ ((look (u_raw r) (ua_calls u') = Some cl /\ look (u_raw r) (ua_tags u') = Some tg /\ look (u_raw r) (ua_cseqs u') = Some n
       /\ (cl = call_of f \/ look (u_raw r) (ua_calls u) = Some cl)
       /\ (forall n0, look (u_raw r) (ua_cseqs u) = Some n0 -> n0 < n))
      \/ (cl = call_of f /\ MAX_REGISTRARS <= llen (ua_calls u) /\ look (u_raw r) (ua_calls u) = None /\ ~ In cl (map snd (ua_calls u')))).
Lemma same_len : forall (a b : list str), NoDup a -> NoDup b -> (forall k, In k a <-> In k b) -> llen a = llen b.
Proof.
  intros a b Ha Hb E. unfold llen. f_equal. apply Nat.le_antisymm; apply NoDup_incl_length; try assumption; intros k Hk; now apply E.
Qed.
Lemma keys_len : forall V (m : list (str * V)), llen (keys m) = llen m.
Proof. intros V m. unfold llen, keys. now rewrite map_length. Qed.
Lemma not_reg_same : forall u f c u' o, perform u f c = (u', o) -> reg_keys (f, c) = [] -> u' = u.
Proof. intros u f c u' o H K. destruct c; try discriminate K; cbn [perform] in H; now injection H as <-. Qed.
Lemma inv_more : forall P u x, reg_inv P u -> reg_inv (x :: P) u.
Proof.
  intros P u x [A B C D E F G I J]. constructor; try assumption.
  - intros v Hv. right. now apply G.
  - intros k Hk. cbn [flat_map]. apply in_or_app. right. now apply I.
  - intros k n H. specialize (J k n H). rewrite llen_cons. lia.
Qed.
Lemma look_some_in : forall V k (m : list (str * V)), In k (keys m) -> exists v, look k m = Some v.
Proof. intros V k m H. destruct (look k m) as [v|] eqn:E; [now exists v|]. apply (lookup_none str_eqb str_eqb_spec) in E. now destruct (E H). Qed.
Lemma look_in_keys : forall V k v (m : list (str * V)), look k m = Some v -> In k (keys m).
Proof. intros V k v m H. apply (lookup_in str_eqb str_eqb_spec) in H. unfold keys. apply in_map_iff. now exists (k, v). Qed.
Lemma keys_insert_iff : forall V k v (m : list (str * V)) x, In x (keys (insert str_eqb k v m)) <-> x = k \/ In x (keys m).
Proof.
  intros V k v m x. unfold insert. cbn [keys map fst]. split.
  - intros [H|H]; [now left; subst|]. right. unfold keys in *. apply in_map_iff in H as (e & <- & H). apply (remove_key_in str_eqb str_eqb_spec) in H as [H _]. now apply in_map.
  - intros [->|H]; [now left|]. destruct (str_eqb k x) eqn:E; [left; now apply str_eqb_spec|]. right. unfold keys in *. apply in_map_iff in H as (e & <- & H). apply in_map_iff. exists e. split; [reflexivity|].
    unfold remove_key. apply filter_In. split; [assumption|]. now rewrite E.
Qed.
Lemma step_inv : forall P u f c u' o, reg_inv P u -> perform u f c = (u', o) -> ~ In (call_of f) (map (fun x => call_of (fst x)) P) -> llen P < 4294967295 ->
  reg_inv ((f, c) :: P) u' /\ grows u u' /\ (forall v, v <> call_of f -> ~ In v (map snd (ua_calls u)) -> ~ In v (map snd (ua_calls u')))
  /\ forall r n q, c = CRegister r n -> o = Ret (Some q) -> registered u u' f r q.
Proof.
  intros P u f c u' o I H Hf Hl. destruct (reg_keys (f, c)) as [|key ks] eqn:K.
  { rewrite (not_reg_same u f c u' o H K) in *. split; [now apply inv_more|]. split; [apply grows_refl|]. split; [auto|]. intros r n q -> _. discriminate K. }
  destruct c as [| | | | | | | |r ex| | | | | | | | | | | |]; try discriminate K. injection K as <- <-. cbn [perform] in H. unfold mk_register in H.
  destruct (remembered (u_raw r) (fr_tag f) (ua_tags u)) as [tags tg] eqn:E1. destruct (remembered (u_raw r) (call_of f) (ua_calls u)) as [calls cl] eqn:E2. destruct (next_register_cseq (u_raw r) (ua_cseqs u)) as [cs k] eqn:E3.
  injection H as <- Ho. unfold remembered, next_register_cseq in *. set (key := u_raw r) in *.
  destruct I as [A B C D E F G J L].
  assert (Q : forall q, o = Ret (Some q) -> once q "Call-ID" cl /\ once q "From" (from_value u None tg) /\ once q "CSeq" (print_N k ++ lit " REGISTER")).
  { intros q ->. apply lift_some in Ho. apply assemble_eq in Ho. subst q. split; [read_headers; reflexivity|]. split; [read_headers; reflexivity|read_headers; reflexivity]. }
  clear Ho.
  assert (L1 : llen (ua_calls u) = llen (ua_cseqs u)) by (rewrite <- !keys_len; now apply same_len).
  assert (L2 : llen (ua_calls u) = llen (ua_tags u)) by (rewrite <- !keys_len; now apply same_len).
  destruct (look key (ua_calls u)) as [cl0|] eqn:Ec.
  - (* known *)
    assert (Ic := look_in_keys _ _ _ _ Ec). destruct (look_some_in _ key (ua_cseqs u)) as [n0 En]; [now apply D|]. destruct (look_some_in _ key (ua_tags u)) as [t0 Et]; [now apply E|].
    rewrite En in E3. rewrite Et in E1. injection E1 as <- <-. injection E2 as <- <-. cbv zeta in E3. specialize (L key n0 En) as Ln.
    assert (Nw : (n0 + 1) mod 4294967296 = n0 + 1) by (apply N.mod_small; lia). rewrite Nw in E3. replace (n0 + 1 =? 0) with false in E3 by lia. injection E3 as <- <-.
    split; [|split; [|split]].
    + constructor; cbn [ua_calls ua_cseqs ua_tags]; try assumption.
      * now apply (insert_nodup str_eqb str_eqb_spec).
      * intros x. rewrite keys_insert_iff. rewrite (D x). split; [auto|]. intros [->|X]; [now apply D|assumption].
      * intros v Hv. right. now apply G.
      * intros x Hx. right. now apply J.
      * intros x n Hx. rewrite llen_cons. destruct (str_eqb key x) eqn:Ex.
        -- apply str_eqb_spec in Ex. subst x. rewrite (lookup_insert_same str_eqb str_eqb_spec) in Hx. injection Hx as <-. lia.
        -- rewrite (lookup_insert_other str_eqb str_eqb_spec) in Hx; [specialize (L x n Hx); lia|]. intros ->. now rewrite str_eqb_refl in Ex.
    + constructor; cbn [ua_calls ua_cseqs ua_tags]; [now repeat split|auto|auto|]. intros x n Hx. destruct (str_eqb key x) eqn:Ex.
      * apply str_eqb_spec in Ex. subst x. rewrite En in Hx. injection Hx as <-. exists (n0 + 1). split; [lia|apply (lookup_insert_same str_eqb str_eqb_spec)].
      * exists n. split; [lia|]. rewrite (lookup_insert_other str_eqb str_eqb_spec); [assumption|]. intros ->. now rewrite str_eqb_refl in Ex.
    + auto.
    + intros r' n' q [= <- <-] Hq. exists cl0, t0, (n0 + 1). destruct (Q q Hq) as (Q1 & Q2 & Q3). split; [assumption|]. split; [assumption|]. split; [assumption|]. left. cbn [ua_calls ua_cseqs ua_tags]. fold key.
      split; [assumption|]. split; [assumption|]. split; [apply (lookup_insert_same str_eqb str_eqb_spec)|]. split; [now right|]. intros x Hx. rewrite En in Hx. injection Hx as <-. lia.
  - assert (Ic : ~ In key (keys (ua_calls u))) by now apply (lookup_none str_eqb str_eqb_spec).
    assert (En : look key (ua_cseqs u) = None) by (apply (lookup_none str_eqb str_eqb_spec); now rewrite <- D).
    assert (Et : look key (ua_tags u) = None) by (apply (lookup_none str_eqb str_eqb_spec); now rewrite <- E).
    rewrite En in E3. rewrite Et in E1. rewrite <- L1 in E3. rewrite <- L2 in E1. destruct (MAX_REGISTRARS <=? llen (ua_calls u)) eqn:Ef.
    + (* full *)
      injection E1 as <- <-. injection E2 as <- <-. injection E3 as <- <-.
      split; [|split; [|split]].
      * apply inv_more. constructor; assumption.
      * constructor; cbn [ua_calls ua_cseqs ua_tags]; [now repeat split|auto|auto|]. intros x n Hx. exists n. split; [lia|assumption].
      * auto.
      * intros r' n' q [= <- <-] Hq. exists (call_of f), (fr_tag f), 1. destruct (Q q Hq) as (Q1 & Q2 & Q3). split; [assumption|]. split; [assumption|]. split; [assumption|]. right. cbn [ua_calls]. split; [reflexivity|]. split; [lia|]. split; [exact Ec|]. intros X. now apply G in X.
    + injection E1 as <- <-. injection E2 as <- <-. injection E3 as <- <-.
      assert (Rm : remove_key str_eqb key (ua_calls u) = ua_calls u) by now apply (remove_key_notin str_eqb str_eqb_spec).
      split; [|split; [|split]].
      * constructor; cbn [ua_calls ua_cseqs ua_tags]; try (now apply (insert_nodup str_eqb str_eqb_spec)).
        -- intros x. rewrite !keys_insert_iff, D. reflexivity.
        -- intros x. rewrite !keys_insert_iff, E. reflexivity.
        -- unfold insert. rewrite Rm. cbn [map snd]. constructor; [|assumption]. intros X. now apply G in X.
        -- unfold insert. rewrite Rm. cbn [map snd fst]. intros v [<-|Hv]; [now left|]. right. now apply G.
        -- intros x Hx. apply keys_insert_iff in Hx as [->|Hx]; cbn [flat_map reg_keys snd app]; [now left|]. right. now apply J.
        -- intros x n Hx. rewrite llen_cons. destruct (str_eqb key x) eqn:Ex.
           ++ apply str_eqb_spec in Ex. subst x. rewrite (lookup_insert_same str_eqb str_eqb_spec) in Hx. injection Hx as <-. lia.
           ++ rewrite (lookup_insert_other str_eqb str_eqb_spec) in Hx; [specialize (L x n Hx); lia|]. intros ->. now rewrite str_eqb_refl in Ex.
      * assert (O : forall V (v : V) m x y, look x m = Some y -> look key m = None -> look x (insert str_eqb key v m) = Some y).
        { intros V v m x y Hx Hk. rewrite (lookup_insert_other str_eqb str_eqb_spec); [assumption|]. intros ->. congruence. }
        constructor; cbn [ua_calls ua_cseqs ua_tags]; [now repeat split| | |]; try (intros x v Hx; now apply O). intros x n Hx. exists n. split; [lia|]. now apply O.
      * cbn [ua_calls]. unfold insert. rewrite Rm. cbn [map snd]. intros v Hv Hn [X|X]; [now subst|now apply Hn].
      * intros r' n' q [= <- <-] Hq. exists (call_of f), (fr_tag f), 1. destruct (Q q Hq) as (Q1 & Q2 & Q3). split; [assumption|]. split; [assumption|]. split; [assumption|]. left. cbn [ua_calls ua_cseqs ua_tags]. fold key. rewrite !(lookup_insert_same str_eqb str_eqb_spec).
        split; [reflexivity|]. split; [reflexivity|]. split; [reflexivity|]. split; [now left|]. intros n0 Hn0. congruence.
Qed.

Definition calls_of (l : list (fresh * call)) : list str := map (fun x => call_of (fst x)) l.
Lemma call_of_inj : forall f g, call_of f = call_of g -> fr_call f = fr_call g.
Proof. intros f g H. unfold call_of in H. now apply app_inv_tail in H. Qed.
Lemma walk : forall i P cs u u' os f c o, reg_inv P u -> perform_all u cs = (u', os) -> NoDup (calls_of (rev cs ++ P)) -> llen P + llen cs < 4294967295 ->
  nth_error cs i = Some (f, c) -> nth_error os i = Some o ->
  exists P1 u1 u2, reg_inv P1 u1 /\ perform u1 f c = (u2, o) /\ reg_inv ((f, c) :: P1) u2 /\ grows u u1 /\ grows u1 u2
    /\ perform_all u2 (skipn (S i) cs) = (u', skipn (S i) os)
    /\ NoDup (calls_of (rev (skipn (S i) cs) ++ (f, c) :: P1)) /\ llen ((f, c) :: P1) + llen (skipn (S i) cs) < 4294967295
    /\ (forall v, In v (calls_of P) -> ~ In v (map snd (ua_calls u)) -> ~ In v (map snd (ua_calls u1)))
    /\ ~ In (call_of f) (calls_of P1) /\ incl (calls_of P) (calls_of P1)
    /\ (forall R, incl (flat_map reg_keys P) R -> incl (flat_map reg_keys cs) R -> incl (flat_map reg_keys P1) R)
    /\ forall r n q, c = CRegister r n -> o = Ret (Some q) -> registered u1 u2 f r q.
Proof.
  induction i as [|i IH]; intros P cs u u' os f c o I H Nd Ln Hc Ho.
  - destruct cs as [|[f0 c0] cs]; [discriminate|]. injection Hc as -> ->. cbn [perform_all] in H. destruct (perform u f c) as [u1 o1] eqn:E. destruct (perform_all u1 cs) as [u2 os2] eqn:E2. injection H as <- <-. injection Ho as ->.
    cbn [rev] in Nd. rewrite <- app_assoc in Nd. cbn [app] in Nd. unfold calls_of in Nd. rewrite map_app in Nd. cbn [map fst] in Nd. rewrite llen_cons in Ln.
    assert (Hf : ~ In (call_of f) (map (fun x => call_of (fst x)) P)). { intros X. apply NoDup_remove_2 in Nd. apply Nd, in_or_app. now right. }
    destruct (step_inv P u f c u1 o I E Hf) as (J1 & J2 & J3 & J4); [lia|].
    exists P, u, u1. split; [assumption|]. split; [assumption|]. split; [assumption|]. split; [apply grows_refl|]. split; [assumption|]. split; [exact E2|].
    split; [unfold calls_of; rewrite map_app; cbn [skipn map fst]; exact Nd|]. split; [rewrite llen_cons; cbn [skipn]; lia|]. split; [auto|]. split; [exact Hf|]. split; [apply incl_refl|]. split; [auto|assumption].
  - destruct cs as [|[f0 c0] cs]; [discriminate|]. cbn [nth_error] in Hc. cbn [perform_all] in H. destruct (perform u f0 c0) as [u1 o1] eqn:E. destruct (perform_all u1 cs) as [u2 os2] eqn:E2. injection H as <- <-. cbn [nth_error] in Ho.
    cbn [rev] in Nd. rewrite <- app_assoc in Nd. cbn [app] in Nd. rewrite llen_cons in Ln.
    assert (Hf : ~ In (call_of f0) (map (fun x => call_of (fst x)) P)). { intros X. unfold calls_of in Nd. rewrite map_app in Nd. cbn [map fst] in Nd. apply NoDup_remove_2 in Nd. apply Nd, in_or_app. now right. }
    destruct (step_inv P u f0 c0 u1 o1 I E Hf) as (J1 & J2 & J3 & J4); [lia|].
    destruct (IH ((f0, c0) :: P) cs u1 u2 os2 f c o J1 E2 Nd) as (P1 & v1 & v2 & A1 & A2 & A3 & A4 & A5 & A6 & A7 & A8 & A9 & A10 & A11 & A12 & A13); [rewrite llen_cons; lia|assumption|assumption|].
    exists P1, v1, v2. split; [assumption|]. split; [assumption|]. split; [assumption|]. split; [now apply (grows_trans u u1 v1)|]. split; [assumption|]. split; [exact A6|]. split; [exact A7|]. split; [exact A8|].
    split; [|split; [exact A10|split; [|split; [|exact A13]]]].
    + intros v Hv Hn. apply A9; [now right|]. apply J3; [|exact Hn]. intros ->. now apply Hf.
    + intros v Hv. apply A11. now right.
    + intros R HP Hcs. apply A12; cbn [flat_map] in *; [|intros x Hx; apply Hcs, in_or_app; now right]. intros x Hx. apply in_app_or in Hx as [Hx|Hx]; [apply Hcs, in_or_app; now left|now apply HP].
Qed.
Lemma nth_error_skipn : forall A n m (l : list A), nth_error (skipn n l) m = nth_error l (n + m).
Proof. intros A. induction n as [|n IH]; intros m l; [reflexivity|]. destruct l as [|x l]; [now destruct m|]. apply IH. Qed.
Definition unused (u : uac) : Prop := ua_calls u = [] /\ ua_cseqs u = [] /\ ua_tags u = [].
Lemma unused_inv : forall u, unused u -> reg_inv [] u.
Proof. intros u (H1 & H2 & H3). constructor; rewrite ?H1, ?H2, ?H3; cbn; try constructor; try tauto; try discriminate; intros v []. Qed.
(** two REGISTERs of one history *)
Lemma two_registers : forall u cs u' os i j fi fj ri rj ei ej qi qj,
  unused u -> perform_all u cs = (u', os) -> NoDup (map (fun x => fr_call (fst x)) cs) -> llen cs < 4294967295 -> (i < j)%nat ->
  nth_error cs i = Some (fi, CRegister ri ei) -> nth_error os i = Some (Ret (Some qi)) ->
  nth_error cs j = Some (fj, CRegister rj ej) -> nth_error os j = Some (Ret (Some qj)) ->
  exists a b c d, registered a b fi ri qi /\ registered c d fj rj qj /\ grows a b /\ grows b c /\ grows c d
    /\ NoDup (map snd (ua_calls c)) /\ ~ In (call_of fj) (map snd (ua_calls c)) /\ call_of fi <> call_of fj
    /\ (~ In (call_of fi) (map snd (ua_calls b)) -> ~ In (call_of fi) (map snd (ua_calls c)))
    /\ (forall R, incl (flat_map reg_keys cs) R -> llen R <= 100 -> look (u_raw ri) (ua_calls a) = None -> llen (ua_calls a) < 100).
Proof.
  intros u cs u' os i j fi fj ri rj ei ej qi qj Hu H Nd Ln Hij Hci Hoi Hcj Hoj.
  assert (Nd' : NoDup (calls_of (rev cs ++ []))).
  { rewrite app_nil_r. unfold calls_of. rewrite map_rev. apply NoDup_rev. clear - Nd. induction cs as [|[f c] cs IH]; [constructor|]. cbn [map fst] in *. inversion Nd as [|? ? X Y]; subst. constructor; [|now apply IH].
    intros K. apply X. apply in_map_iff in K as (y & E & K). apply in_map_iff. exists y. split; [now apply call_of_inj|assumption]. }
  destruct (walk i [] cs u u' os fi (CRegister ri ei) (Ret (Some qi)) (unused_inv u Hu) H Nd') as (P1 & a & b & A1 & A2 & A3 & A4 & A5 & A6 & A7 & A8 & A9 & A10 & A11 & A12 & A13); [rewrite llen_nil; lia|exact Hci|exact Hoi|].
  destruct (walk (j - S i) ((fi, CRegister ri ei) :: P1) (skipn (S i) cs) b u' (skipn (S i) os) fj (CRegister rj ej) (Ret (Some qj)) A3 A6 A7 A8) as (P2 & c & d & B1 & B2 & B3 & B4 & B5 & _ & _ & _ & B9 & B10 & B11 & B12 & B13).
  { rewrite nth_error_skipn. replace (S i + (j - S i))%nat with j by lia. exact Hcj. }
  { rewrite nth_error_skipn. replace (S i + (j - S i))%nat with j by lia. exact Hoj. }
  exists a, b, c, d. split; [now apply (A13 ri ei)|]. split; [now apply (B13 rj ej)|]. split; [assumption|]. split; [assumption|]. split; [assumption|]. split; [apply B1|].
  assert (Fi : In (call_of fi) (calls_of P2)) by (apply B11; now left).
  split; [intros X; now apply (ri_past P2 c B1) in X|]. split; [intros E; rewrite E in Fi; now apply B10|]. split.
  - intros X. apply B9; [now left|exact X].
  - intros R HR HL Hn. apply (lookup_none str_eqb str_eqb_spec) in Hn. rewrite <- keys_len.
    assert (IR : incl (flat_map reg_keys P1) R) by (apply A12; [intros x []|assumption]).
    assert (K : NoDup (u_raw ri :: keys (ua_calls a))) by (constructor; [assumption|apply A1]).
    apply NoDup_incl_length with (l' := R) in K.
    + cbn [List.length] in K. unfold llen in *. lia.
    + intros x [<-|Hx]; [|now apply IR, (ri_asked P1 a A1)]. apply HR. apply in_flat_map. exists (fi, CRegister ri ei). split; [eapply nth_error_In; exact Hci|now left].
Qed.
Lemma order : forall u cs u' os i j fi fj ri rj ei ej qi qj cl k l,
  unused u -> perform_all u cs = (u', os) -> NoDup (map (fun x => fr_call (fst x)) cs) -> llen cs < 4294967295 -> (i < j)%nat ->
  nth_error cs i = Some (fi, CRegister ri ei) -> nth_error os i = Some (Ret (Some qi)) ->
  nth_error cs j = Some (fj, CRegister rj ej) -> nth_error os j = Some (Ret (Some qj)) ->
  once qi "Call-ID" cl -> once qj "Call-ID" cl ->
  once qi "CSeq" (print_N k ++ lit " REGISTER") -> once qj "CSeq" (print_N l ++ lit " REGISTER") -> k < l.
Proof.
  intros u cs u' os i j fi fj ri rj ei ej qi qj cl k l Hu H Nd Ln Hij Hci Hoi Hcj Hoj Li Lj Ki Kj.
  destruct (two_registers u cs u' os i j fi fj ri rj ei ej qi qj Hu H Nd Ln Hij Hci Hoi Hcj Hoj) as (a & b & c & d & Ri & Rj & G1 & G2 & G3 & N1 & N2 & N3 & N4 & _).
  destruct Ri as (cl1 & tg1 & n1 & O1 & _ & O2 & Ri). destruct Rj as (cl2 & tg2 & n2 & O3 & _ & O4 & Rj).
  unfold once in *. rewrite Li in O1. rewrite Lj in O3. injection O1 as <-. injection O3 as <-. rewrite Ki in O2. rewrite Kj in O4. injection O2 as O2. injection O4 as O4. apply app_inv_tail in O2, O4. apply print_N_inj in O2, O4. subst n1 n2.
  destruct Ri as [(S1 & S2 & S3 & _ & _)|(F1 & _ & _ & F2)].
  - assert (Sc := gr_calls b c G2 _ _ S1). assert (Ic : In cl (map snd (ua_calls c))) by (apply (lookup_in str_eqb str_eqb_spec) in Sc; apply in_map_iff; now exists (u_raw ri, cl)).
    destruct Rj as [(T1 & T2 & T3 & T4 & T5)|(F1 & _)]; [|subst cl; now destruct (N2 Ic)]. destruct T4 as [->|T4]; [now destruct (N2 Ic)|].
    assert (E : u_raw ri = u_raw rj).
    { apply (lookup_in str_eqb str_eqb_spec) in Sc, T4. clear - N1 Sc T4. induction (ua_calls c) as [|[x y] m IH]; [destruct Sc|]. cbn [map snd] in N1. inversion N1 as [|? ? X Y]; subst.
      assert (Z : forall w, In (w, cl) m -> In cl (map snd m)) by (intros w Hw; apply in_map_iff; now exists (w, cl)).
      destruct Sc as [[= -> ->]|Sc], T4 as [T4|T4]; [congruence| | |now apply IH]. - now destruct (X (Z _ T4)). - injection T4 as -> ->. now destruct (X (Z _ Sc)). }
    rewrite E in S3. destruct (gr_cseqs b c G2 _ _ S3) as (n' & Le & X). specialize (T5 _ X). lia.
  - subst cl. specialize (N4 F2). destruct Rj as [(T1 & T2 & T3 & T4 & T5)|(F1' & _)]; [|now destruct (N3 F1')]. destruct T4 as [T4|T4]; [now destruct (N3 T4)|]. destruct N4. apply (lookup_in str_eqb str_eqb_spec) in T4. apply in_map_iff. now exists (u_raw rj, call_of fi).
Qed.
Lemma series : forall u cs u' os i j fi fj ri rj ei ej qi qj R cl v,
  unused u -> perform_all u cs = (u', os) -> NoDup (map (fun x => fr_call (fst x)) cs) -> llen cs < 4294967295 -> (i < j)%nat ->
  nth_error cs i = Some (fi, CRegister ri ei) -> nth_error os i = Some (Ret (Some qi)) ->
  nth_error cs j = Some (fj, CRegister rj ej) -> nth_error os j = Some (Ret (Some qj)) -> u_raw ri = u_raw rj ->
  (forall f r e, In (f, CRegister r e) cs -> In (u_raw r) R) -> llen R <= 100 ->
  once qi "Call-ID" cl -> once qi "From" v -> once qj "Call-ID" cl /\ once qj "From" v.
Proof.
  intros u cs u' os i j fi fj ri rj ei ej qi qj R cl v Hu H Nd Ln Hij Hci Hoi Hcj Hoj E HR HL Li Lv.
  destruct (two_registers u cs u' os i j fi fj ri rj ei ej qi qj Hu H Nd Ln Hij Hci Hoi Hcj Hoj) as (a & b & c & d & Ri & Rj & G1 & G2 & G3 & N1 & N2 & N3 & N4 & N5).
  assert (HR' : incl (flat_map reg_keys cs) R).
  { intros x Hx. apply in_flat_map in Hx as ((f & c0) & Hc & Hx). destruct c0; cbn [reg_keys snd] in Hx; try (now destruct Hx). destruct Hx as [<-|[]]. now apply (HR f registrar expires). }
  destruct Ri as (cl1 & tg1 & n1 & O1 & O2 & _ & Ri). destruct Rj as (cl2 & tg2 & n2 & O3 & O4 & _ & Rj).
  unfold once in *. rewrite Li in O1. injection O1 as <-. rewrite Lv in O2. injection O2 as ->.
  destruct Ri as [(S1 & S2 & S3 & _ & _)|(_ & F1 & F2 & _)]; [|specialize (N5 R HR' HL F2); unfold MAX_REGISTRARS in F1; lia].
  assert (Sc := gr_calls b c G2 _ _ S1). assert (St := gr_tags b c G2 _ _ S2). rewrite E in Sc, St.
  destruct Rj as [(T1 & T2 & T3 & T4 & T5)|(_ & _ & F & _)]; [|congruence].
  assert (Sd := gr_calls c d G3 _ _ Sc). assert (Sd2 := gr_tags c d G3 _ _ St). rewrite T1 in Sd. injection Sd as ->. rewrite T2 in Sd2. injection Sd2 as ->.
  split; [exact O3|]. rewrite O4. rewrite (same_from b c), (same_from a b); [reflexivity|apply G1|apply G2].
Qed.
