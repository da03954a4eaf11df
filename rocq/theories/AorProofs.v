(** Lemmas about the normal form of addresses of record. *)
From Coq Require Import NArith Bool String List Lia Permutation ZifyBool ZifyN ZifyNat.
Import ListNotations.
From Verif Require Import Base BaseFacts NumFacts Headers Text TextFacts Uri UriProofs Msg AnyUri Registrar RegistrarSpec RegistrarProofs.
Open Scope N_scope.
Open Scope list_scope.

(** ** SIP URIs *)
Lemma parse_port : forall s u p, parse_uri s = Some u -> u_port u = Some p -> p <= u16_max.
Proof.
  intros s u p H E. unfold parse_uri in H.
  destruct (existsb is_control s); [discriminate|]. destruct (MAX_URI_LENGTH <? blen s); [discriminate|].
  destruct (split_once 58 s) as [[scheme rest]|] eqn:E1; [|discriminate].
  destruct (negb _ && negb _); [discriminate|].
  destruct (match split_once 63 rest with Some (a, h) => (a, Some h) | None => (rest, None) end) as [addr hpart] eqn:E2.
  destruct (fold_opt add_param (tl (split_on 59 addr)) []) as [params|] eqn:E3; [|discriminate].
  destruct (split_user _) as [[user hp]|] eqn:E4; [|discriminate].
  destruct hp as [|hc ht]; [discriminate|]. remember (hc :: ht) as hp eqn:Hhp. clear Hhp hc ht.
  destruct (split_host_port hp) as [[h port]|] eqn:E5; [|discriminate].
  destruct (pct_decode_str h) as [dh|]; [|discriminate].
  destruct (negb (validate_host (lower dh))); [discriminate|].
  destruct (match port with Some p => _ | None => _ end); [discriminate|].
  destruct (match hpart with Some h => _ | None => _ end) as [hdrs|]; [|discriminate].
  injection H as <-. cbn [u_port] in E. subst port. unfold split_host_port in E5.
  destruct hp as [|c r]; [discriminate|]. destruct (c =? 91).
  - destruct (split_once 93 r) as [[host rest']|]; [|discriminate]. destruct rest' as [|d q]; [discriminate|].
    destruct (d =? 58); [|discriminate]. destruct (parse_uint u16_max q) as [n|] eqn:P; [|discriminate]. injection E5 as <- <-. now apply parse_uint_range in P.
  - destruct (rsplit_once 58 (c :: r)) as [[host q]|]; [|discriminate]. destruct (1 <? count_c 58 (c :: r)); [discriminate|].
    destruct q as [|q0 q]; [discriminate|]. destruct (all_digits (q0 :: q)); [|discriminate].
    destruct (parse_uint u16_max (q0 :: q)) as [n|] eqn:P; [|discriminate]. injection E5 as <- <-. now apply parse_uint_range in P.
Qed.
Lemma sip_aor_raw : forall u, uri_inv u -> lower (u_host u) = u_host u -> mem 58 (u_host u) = false ->
  sip_aor u = build_raw (u_sips u) (u_user u) (u_host u) (u_port u) [] [].
Proof.
  intros u (Hu & Hh & _) Hl Hc. unfold sip_aor, build_raw, aor_user, print_host. rewrite Hl, Hc. cbn [andb flat_map]. rewrite app_nil_r.
  destruct (u_user u) as [n|].
  - destruct (user_chars n Hu) as (Hn & _ & _ & _ & H64). rewrite (proj2 (rsplit_once_none 64 n) H64). destruct n as [|c r]; [congruence|].
    destruct (u_sips u); cbn [app]; rewrite <- ?app_assoc; reflexivity.
  - destruct (u_sips u); reflexivity.
Qed.
Lemma port_short : forall p, (forall x, p = Some x -> x <= u16_max) ->
  blen (match p with Some p => lit ":" ++ print_N p | None => [] end) <= 6.
Proof.
  intros [p|] H; [|cbn; lia]. specialize (H p eq_refl). rewrite blen_app. change (blen (lit ":")) with 1.
  pose proof (print_N_blen p 5) as B. change (10 ^ N.of_nat 5) with 100000 in B. change (N.of_nat 5) with 5 in B.
  unfold u16_max in H. specialize (B ltac:(lia) ltac:(lia)). lia.
Qed.
Lemma host_short : forall h, validate_host h = true -> blen h <= MAX_HOST_LENGTH.
Proof. intros h H. unfold validate_host in H. destruct h as [|c h]; [discriminate|]. destruct (MAX_HOST_LENGTH <? blen (c :: h)) eqn:E; [discriminate|]. lia. Qed.
Lemma user_short : forall h, validate_user h = true -> blen h <= MAX_USER_LENGTH.
Proof. intros h H. unfold validate_user in H. destruct h as [|c h]; [discriminate|]. destruct (MAX_USER_LENGTH <? blen (c :: h)) eqn:E; [discriminate|]. lia. Qed.
Lemma sip_aor_parse : forall s u, parse_uri s = Some u -> mem 58 (u_host u) = false -> plain_user (u_user u) ->
  exists u', parse_uri (sip_aor u) = Some u' /\ u_sips u' = u_sips u /\ u_user u' = u_user u /\ u_host u' = u_host u /\ u_port u' = u_port u
             /\ sip_aor u' = sip_aor u.
Proof.
  intros s u H Hc Hp. destruct (parse_uri_inv s u H) as (I & _ & Hl & _). rewrite (sip_aor_raw u I Hl Hc).
  set (v := mkUri [] (u_sips u) (u_user u) (u_host u) (u_port u) [] []).
  assert (Iv : uri_inv v).
  { destruct I as (A & B & C & _). unfold v, uri_inv. cbn [u_user u_host u_port u_params u_headers]. repeat (split; [assumption|]).
    repeat split; try constructor; cbn; apply N.le_0_l. }
  assert (P : forall x, u_port u = Some x -> x <= u16_max) by (intros x; now apply (parse_port s u)).
  pose proof (print_parse v Iv Hp) as Q. cbn [v u_params u_port u_sips u_user u_host u_headers] in Q. cbv zeta in Q. rewrite Q; clear Q.
  - eexists. split; [reflexivity|]. cbn [u_sips u_user u_host u_port]. rewrite Hl. repeat (split; [reflexivity|]). rewrite <- (sip_aor_raw u I Hl Hc).
    unfold sip_aor, aor_user. cbn [u_sips u_user u_host u_port]. reflexivity.
  - constructor.
  - destruct (u_port u) as [p|]; [now apply P|exact Logic.I].
  - destruct I as (A & B & _). apply host_short in B. pose proof (port_short (u_port u) P) as Q. unfold build_raw, print_host. rewrite Hc. cbn [andb flat_map].
    rewrite !blen_app. cbn [flat_map]. change (blen (@nil N)) with 0. unfold MAX_HOST_LENGTH in B.
    assert (blen (if u_sips u then lit "sips:" else lit "sip:") <= 5) by (destruct (u_sips u); cbn; lia).
    assert (blen (match u_user u with Some u => u ++ lit "@" | None => [] end) <= MAX_USER_LENGTH + 1).
    { destruct (u_user u) as [x|]; [|cbn; lia]. apply user_short in A. rewrite blen_app. change (blen (lit "@")) with 1. lia. }
    apply N.le_trans with (5 + (MAX_USER_LENGTH + 1 + (256 + (6 + (0 + 0))))); [|unfold MAX_USER_LENGTH, MAX_URI_LENGTH; lia].
    apply N.add_le_mono; [assumption|]. apply N.add_le_mono; [assumption|]. apply N.add_le_mono; [assumption|].
    apply N.add_le_mono; [assumption|]. apply N.le_refl.
Qed.
Definition hp_text (h : str) (p : option N) : str := h ++ match p with Some p => lit ":" ++ print_N p | None => [] end.
Lemma hp_inj : forall h h' p p', mem 58 h = false -> mem 58 h' = false -> hp_text h p = hp_text h' p' -> h = h' /\ p = p'.
Proof.
  intros h h' p p' H H' E. unfold hp_text in E. assert (S : forall h p, mem 58 h = false -> split_once 58 (h ++ match p with Some p => lit ":" ++ print_N p | None => [] end)
    = match p with Some p => Some (h, print_N p) | None => None end).
  { clear. intros h [p|] H; [now apply (split_once_app 58 h (print_N p))|]. rewrite app_nil_r. now apply split_once_none. }
  pose proof (S h p H) as A. pose proof (S h' p' H') as B. rewrite E, B in A. destruct p as [p|], p' as [p'|]; try discriminate.
  - injection A as A1 A2. apply print_N_inj in A2. subst. auto.
  - rewrite !app_nil_r in E. auto.
Qed.
Lemma hp_no_at : forall h p, validate_host h = true -> mem 64 (hp_text h p) = false.
Proof.
  intros h p H. unfold hp_text. rewrite mem_app, print_port_nomem by (reflexivity || discriminate). rewrite orb_false_r. now apply host_nomem.
Qed.
Definition up_text (u : option str) (hp : str) : str := match u with Some x => x ++ 64 :: hp | None => hp end.
Lemma up_inj : forall u u' x y, (forall s, u = Some s -> mem 64 s = false) -> (forall s, u' = Some s -> mem 64 s = false) ->
  mem 64 x = false -> mem 64 y = false -> up_text u x = up_text u' y -> u = u' /\ x = y.
Proof.
  intros u u' x y Hu Hu' Hx Hy E. assert (S : forall u x, (forall s, u = Some s -> mem 64 s = false) -> mem 64 x = false -> split_once 64 (up_text u x)
    = match u with Some s => Some (s, x) | None => None end).
  { clear. intros [s|] x Hu Hx; [apply split_once_app; now apply Hu|now apply split_once_none]. }
  pose proof (S u x Hu Hx) as A. pose proof (S u' y Hu' Hy) as B. rewrite E, B in A. destruct u as [u|], u' as [u'|]; try discriminate.
  - injection A as A1 A2. subst. auto.
  - cbn in E. auto.
Qed.
Lemma sip_aor_text : forall u, uri_inv u -> lower (u_host u) = u_host u ->
  sip_aor u = (if u_sips u then lit "sips:" else lit "sip:") ++ up_text (u_user u) (hp_text (u_host u) (u_port u)).
Proof.
  intros u (Hu & Hh & _) Hl. unfold sip_aor, aor_user, up_text, hp_text. rewrite Hl.
  destruct (u_user u) as [n|].
  - destruct (user_chars n Hu) as (Hn & _ & _ & _ & H64). rewrite (proj2 (rsplit_once_none 64 n) H64). destruct n as [|c r]; [congruence|].
    destruct (u_sips u); reflexivity.
  - destruct (u_sips u); reflexivity.
Qed.
Lemma sip_aor_inj : forall s1 s2 u1 u2, parse_uri s1 = Some u1 -> parse_uri s2 = Some u2 -> mem 58 (u_host u1) = false -> mem 58 (u_host u2) = false ->
  sip_aor u1 = sip_aor u2 -> u_sips u1 = u_sips u2 /\ u_user u1 = u_user u2 /\ u_host u1 = u_host u2 /\ u_port u1 = u_port u2.
Proof.
  intros s1 s2 u1 u2 H1 H2 C1 C2 E. destruct (parse_uri_inv _ _ H1) as (I1 & _ & L1 & _). destruct (parse_uri_inv _ _ H2) as (I2 & _ & L2 & _).
  rewrite !sip_aor_text in E by assumption. destruct I1 as (U1 & V1 & _), I2 as (U2 & V2 & _).
  assert (N1 : forall s, u_user u1 = Some s -> mem 64 s = false) by (intros s Es; rewrite Es in U1; now apply user_chars).
  assert (N2 : forall s, u_user u2 = Some s -> mem 64 s = false) by (intros s Es; rewrite Es in U2; now apply user_chars).
  assert (X : u_sips u1 = u_sips u2 /\ up_text (u_user u1) (hp_text (u_host u1) (u_port u1)) = up_text (u_user u2) (hp_text (u_host u2) (u_port u2))).
  { destruct (u_sips u1), (u_sips u2); try (split; [reflexivity|]; now apply app_inv_head in E); discriminate E. }
  destruct X as [X1 X2]. apply up_inj in X2; try assumption; try now apply hp_no_at. destruct X2 as [X2 X3]. apply hp_inj in X3; try assumption. tauto.
Qed.

(** ** Tel URIs *)
Definition raw_param (p : str) : str * option str :=
  match split_once 61 p with Some (k, v) => (k, Some v) | None => (p, None) end.
Definition ctx_key : str := lit "phone-context".
Lemma lower_ctx : forall k, is_context_key k = str_eqb (lower k) ctx_key.
Proof. intros k. unfold is_context_key, eq_ic. reflexivity. Qed.

(** stable sorting by keys that are distinct gives one result *)
Lemma ins_key_perm : forall x l, Permutation (ins_key x l) (x :: l).
Proof.
  intros x l. induction l as [|y l IH]; [reflexivity|]. cbn [ins_key]. destruct (str_ltb (fst y) (fst x)); [|reflexivity].
  rewrite IH. apply perm_swap.
Qed.
Lemma sort_keys_perm : forall l, Permutation (sort_keys l) l.
Proof. induction l as [|x l IH]; [reflexivity|]. cbn [sort_keys fold_right]. fold (sort_keys l). rewrite ins_key_perm. now constructor. Qed.
Lemma ins_key_sorted : forall x l, sorted_keys l -> ~ In (fst x) (keys l) -> sorted_keys (ins_key x l).
Proof.
  intros [k v] l. induction l as [|[k' v'] l IH]; intros H Hn; cbn [ins_key fst].
  - cbn. split; [intros ? []|exact I].
  - cbn [fst] in *. destruct H as [H1 H2]. cbn [keys map fst In] in Hn. destruct (str_ltb k' k) eqn:E.
    + cbn [sorted_keys]. split; [|apply IH; [exact H2|tauto]]. intros q Hq. unfold keys in Hq. rewrite (Permutation_map fst (ins_key_perm (k, v) l)) in Hq.
      cbn [map fst In] in Hq. destruct Hq as [<-|Hq]; [exact E|now apply H1].
    + assert (L : str_ltb k k' = true). { apply str_ltb_total; [|exact E]. apply str_eqb_neq. tauto. }
      cbn [sorted_keys]. split; [|split; assumption]. intros q [<-|Hq]; [exact L|]. apply (str_ltb_trans _ k'); [exact L|now apply H1].
Qed.
Lemma sort_keys_sorted : forall l, NoDup (keys l) -> sorted_keys (sort_keys l).
Proof.
  induction l as [|x l IH]; intros H; [exact I|]. cbn [sort_keys fold_right]. fold (sort_keys l). cbn [keys map] in H. inversion H as [|? ? H1 H2]; subst.
  apply ins_key_sorted; [now apply IH|]. unfold keys. rewrite (Permutation_map fst (sort_keys_perm l)). exact H1.
Qed.
Lemma sorted_unique : forall (l l' : list (str * option str)), sorted_keys l -> sorted_keys l' -> Permutation l l' -> l = l'.
Proof.
  induction l as [|[k v] l IH]; intros l' H H' P; [symmetry; now apply Permutation_nil|].
  destruct l' as [|[k' v'] l']; [now apply Permutation_sym, Permutation_nil in P|]. destruct H as [H1 H2], H' as [K1 K2].
  assert (E : (k, v) = (k', v')).
  { assert (A : In (k, v) ((k', v') :: l')) by (apply (Permutation_in _ P); now left).
    assert (B : In (k', v') ((k, v) :: l)) by (apply (Permutation_in _ (Permutation_sym P)); now left).
    destruct A as [A|A]; [now symmetry|]. destruct B as [B|B]; [exact B|]. exfalso.
    pose proof (K1 k (in_map fst _ _ A)) as X. pose proof (H1 k' (in_map fst _ _ B)) as Y.
    pose proof (str_ltb_trans _ _ _ X Y) as Z. now rewrite str_ltb_irrefl in Z. }
  injection E as <- <-. f_equal. apply IH; try assumption. now apply Permutation_cons_inv in P.
Qed.
Lemma sort_same : forall l l', NoDup (keys l) -> Permutation l l' -> sort_keys l = sort_keys l'.
Proof.
  intros l l' H P. apply sorted_unique.
  - now apply sort_keys_sorted.
  - apply sort_keys_sorted. unfold keys in *. now rewrite <- (Permutation_map fst P).
  - now rewrite !sort_keys_perm.
Qed.

(** what the parameter loop collects *)
Lemma bput_fresh_perm : forall k (v : option str) m, ~ In k (keys m) -> Permutation (bput k v m) ((k, v) :: m).
Proof.
  intros k v m. induction m as [|[x w] m IH]; intros H; [reflexivity|]. cbn [keys map fst In] in H. cbn [bput].
  destruct (str_eqb k x) eqn:E; [apply str_eqb_spec in E; subst; tauto|]. destruct (str_ltb k x); [reflexivity|].
  rewrite IH by tauto. apply perm_swap.
Qed.
Definition lkeys (m : list (str * option str)) : list str := map (fun kv => lower (fst kv)) m.
Definition ctx_of (m : list (str * option str)) (d : option str) : option str :=
  match find (fun kv => is_context_key (fst kv)) m with Some (_, v) => v | None => d end.
Lemma tel_add_some : forall m ctx p m' ctx', tel_add (m, ctx) p = Some (m', ctx') ->
  (p = [] /\ m' = m /\ ctx' = ctx)
  \/ (p <> [] /\ m' = bput (fst (raw_param p)) (snd (raw_param p)) m
      /\ ctx' = (if is_context_key (fst (raw_param p)) then match snd (raw_param p) with Some v => Some v | None => ctx end else ctx)
      /\ tel_param_name (fst (raw_param p)) = true
      /\ (forall v, snd (raw_param p) = Some v -> tel_param_value v = true /\ (is_context_key (fst (raw_param p)) = true -> validate_context v = true))).
Proof.
  intros m ctx p m' ctx' H. unfold tel_add in H. destruct (MAX_TEL_PARAMETERS <=? llen m); [discriminate|].
  destruct p as [|c p]; [left; injection H as <- <-; auto|]. remember (c :: p) as q. right. split; [subst; discriminate|].
  destruct (existsb is_ws q); [discriminate|]. unfold raw_param. destruct (split_once 61 q) as [[k v]|]; cbn [fst snd].
  - destruct (tel_param_name k) eqn:A; [|discriminate]. destruct (tel_param_value v) eqn:B; [|discriminate]. cbn [andb] in H.
    destruct (is_context_key k) eqn:C.
    + destruct (validate_context v) eqn:D; [|discriminate]. injection H as <- <-. repeat split; congruence.
    + injection H as <- <-. repeat split; congruence.
  - destruct (tel_param_name q) eqn:A; [|discriminate]. injection H as <- <-. split; [reflexivity|]. split; [now destruct (is_context_key q)|]. split; [reflexivity|discriminate].
Qed.
Definition ctx_val (m : list (str * option str)) : option str :=
  match find (fun kv => str_eqb (fst kv) ctx_key) m with Some (_, v) => v | None => None end.
Definition lower_key (kv : str * option str) : str * option str := (lower (fst kv), snd kv).
Lemma find_perm : forall (m m' : list (str * option str)), NoDup (keys m) -> Permutation m m' -> ctx_val m = ctx_val m'.
Proof.
  intros m m' H P. unfold ctx_val. induction P as [|[k v] l l' P IH|[k v] [k' v'] l|a b c P1 IH1 P2 IH2].
  - reflexivity.
  - cbn [find fst]. destruct (str_eqb k ctx_key); [reflexivity|]. apply IH. now inversion H.
  - cbn [find fst]. destruct (str_eqb k' ctx_key) eqn:E1, (str_eqb k ctx_key) eqn:E2; try reflexivity.
    apply str_eqb_spec in E1, E2. subst. cbn [keys map fst] in H. inversion H as [|? ? H1 _]. exfalso. apply H1. now left.
  - rewrite IH1 by assumption. apply IH2. unfold keys in *. now rewrite <- (Permutation_map fst P1).
Qed.
Lemma tel_fold : forall ps m ctx m' ctx', fold_opt tel_add ps (m, ctx) = Some (m', ctx') ->
  NoDup (lkeys (map raw_param (filter nonempty_s ps)) ++ lkeys m) ->
  Permutation m' (map raw_param (filter nonempty_s ps) ++ m)
  /\ ctx' = match ctx_val (map lower_key (map raw_param (filter nonempty_s ps))) with Some v => Some v | None => ctx end
  /\ Forall (fun kv => tel_param_name (fst kv) = true
       /\ forall v, snd kv = Some v -> tel_param_value v = true /\ (is_context_key (fst kv) = true -> validate_context v = true))
     (map raw_param (filter nonempty_s ps)).
Proof.
  induction ps as [|p ps IH]; intros m ctx m' ctx' H Hn; cbn [fold_opt] in H.
  - injection H as <- <-. split; [reflexivity|]. split; [reflexivity|constructor].
  - destruct (tel_add (m, ctx) p) as [[m1 ctx1]|] eqn:E; [|discriminate]. apply tel_add_some in E.
    destruct E as [(-> & -> & ->)|(Hp & Em & Ec & Hname & Hval)].
    + cbn [filter nonempty_s] in *. now apply IH.
    + assert (F : filter nonempty_s (p :: ps) = p :: filter nonempty_s ps) by (destruct p; [congruence|reflexivity]).
      rewrite F in *. clear F. cbn [map] in *. destruct (raw_param p) as [k v] eqn:R. cbn [fst snd] in *.
      unfold lkeys in Hn. cbn [map app fst] in Hn. inversion Hn as [|? ? Hx Hr]; subst.
      assert (Fr : ~ In k (keys m)). { intros Hi. apply Hx. apply in_or_app. right. unfold keys in Hi. apply in_map_iff in Hi. destruct Hi as ([k0 v0] & <- & Hi). apply in_map_iff. exists (k0, v0). auto. }
      assert (P1 : Permutation (bput k v m) ((k, v) :: m)) by now apply bput_fresh_perm.
      destruct (IH _ _ _ _ H) as (A & B & C).
      { unfold lkeys. apply (Permutation_NoDup (l := lower k :: (map (fun kv => lower (fst kv)) (map raw_param (filter nonempty_s ps)) ++ map (fun kv => lower (fst kv)) m))); [|exact Hn]. apply Permutation_sym. apply (Permutation_trans (Permutation_app_head _ (Permutation_map _ P1))). cbn [map fst]. apply Permutation_sym. apply (Permutation_middle _ (map (fun kv => lower (fst kv)) m)). }
      split; [|split].
      * apply (Permutation_trans A). apply (Permutation_trans (Permutation_app_head _ P1)). apply Permutation_sym. apply (Permutation_middle _ m).
      * rewrite B. unfold ctx_val at 2. cbn [map find lower_key fst snd]. rewrite <- lower_ctx. destruct (is_context_key k) eqn:Ek.
        -- assert (N0 : ctx_val (map lower_key (map raw_param (filter nonempty_s ps))) = None).
           { unfold ctx_val. destruct (find _ _) as [[k1 v1]|] eqn:Fd; [|reflexivity]. apply find_some in Fd. destruct Fd as [Fi Fe]. cbn [fst] in Fe.
             exfalso. apply Hx. apply in_or_app. left. rewrite lower_ctx in Ek. apply str_eqb_spec in Ek, Fe. rewrite Ek, <- Fe.
             apply in_map_iff in Fi. destruct Fi as (q & Eq & Fi). apply in_map_iff. exists q. split; [|exact Fi]. now injection Eq as <-. }
           rewrite N0. destruct v; reflexivity.
        -- reflexivity.
      * constructor; [|exact C]. cbn [fst snd]. split; assumption.
Qed.
Lemma norm_raw : forall p, norm_param p = (lower (fst (raw_param p)), match snd (raw_param p) with Some v => Some (if is_context_key (fst (raw_param p)) then tel_context_norm v else v) | None => None end).
Proof. intros p. unfold norm_param, raw_param. destruct (split_once 61 p) as [[k v]|]; reflexivity. Qed.
Definition not_ctx (kv : str * option str) : bool := negb (str_eqb (fst kv) ctx_key).
Lemma norm_params_eq : forall ps, map lower_key (filter (fun kv => negb (is_context_key (fst kv))) (map raw_param ps)) = filter not_ctx (map norm_param ps).
Proof.
  induction ps as [|p ps IH]; [reflexivity|]. cbn [map filter]. rewrite norm_raw. unfold not_ctx at 1. cbn [fst]. rewrite <- lower_ctx.
  destruct (is_context_key (fst (raw_param p))) eqn:E; cbn [negb]; [exact IH|]. cbn [map]. rewrite IH. f_equal. unfold lower_key. f_equal. now destruct (snd (raw_param p)).
Qed.
Lemma norm_ctx_eq : forall ps, option_map tel_context_norm (ctx_val (map lower_key (map raw_param ps))) = ctx_val (map norm_param ps).
Proof.
  intros ps. unfold ctx_val. induction ps as [|p ps IH]; [reflexivity|]. cbn [map find]. rewrite norm_raw. cbn [lower_key fst snd]. rewrite <- lower_ctx.
  destruct (is_context_key (fst (raw_param p))); [|exact IH]. unfold lower_key. cbv iota. destruct (snd (raw_param p)); reflexivity.
Qed.
Lemma map_norm_keys : forall ps, map fst (map norm_param ps) = lkeys (map raw_param ps).
Proof. intros ps. unfold lkeys. rewrite !map_map. apply map_ext. intros p. rewrite norm_raw. reflexivity. Qed.
Lemma strip_idem : forall s, strip_seps (strip_seps s) = strip_seps s.
Proof. intros s. unfold strip_seps. now apply filter_impl. Qed.
Lemma starts_plus_strip_eq : forall s, validate_number s = true -> starts_plus (strip_seps s) = starts_plus s.
Proof.
  intros s H. destruct (starts_plus s) eqn:E; [now apply starts_plus_strip|].
  destruct s as [|c s]; [discriminate|]. unfold validate_number in H. cbn [starts_plus] in E. rewrite E in H.
  destruct (_ <? _); [discriminate|]. destruct (existsb is_control _); [discriminate|]. apply andb_true_iff in H. destruct H as [H _].
  destruct (strip_seps (c :: s)) as [|d r] eqn:D; [reflexivity|]. cbn [starts_plus]. apply N.eqb_neq. intros ->.
  assert (X : In 43 (c :: s)). { assert (X : In 43 (strip_seps (c :: s))) by (rewrite D; now left). unfold strip_seps in X. apply filter_In in X. tauto. }
  rewrite forallb_forall in H. apply H in X. discriminate X.
Qed.

Lemma tel_parse_parts : forall num ps t, mem 59 num = false -> Forall (fun p => mem 59 p = false) ps -> tel_parse (tel_text num ps) = Some t ->
  NoDup (map fst (map norm_param (filter nonempty_s ps))) ->
  validate_number (trim num) = true /\
  tel_aor t = lit "tel:" ++ strip_seps (trim num)
    ++ (if starts_plus (strip_seps (trim num)) then []
        else match ctx_val (map norm_param (filter nonempty_s ps)) with Some c => lit ";phone-context=" ++ c | None => [] end)
    ++ flat_map print_param (sort_keys (filter not_ctx (map norm_param (filter nonempty_s ps)))).
Proof.
  intros num ps t Hnum Hps H Hn. unfold tel_parse, tel_text in H. rewrite strip_prefix_app in H. rewrite split_on_join in H; [|discriminate|now constructor].
  cbn [hd tl] in H. destruct (validate_number (trim num)) eqn:V; [|discriminate]. split; [reflexivity|]. cbn [negb] in H.
  destruct (fold_opt tel_add ps ([], None)) as [[m ctx]|] eqn:F; [|discriminate].
  apply tel_fold in F; [|cbn [lkeys map]; now rewrite app_nil_r, <- map_norm_keys]. destruct F as (P & C & _). rewrite app_nil_r in P.
  set (L := filter nonempty_s ps) in *.
  assert (E : tel_aor t = lit "tel:" ++ strip_seps (trim num) ++ (if starts_plus (trim num) then [] else match ctx with Some c => lit ";phone-context=" ++ tel_context_norm c | None => [] end)
               ++ flat_map print_param (sort_keys (map lower_key (filter (fun kv => negb (is_context_key (fst kv))) m)))).
  { destruct (starts_plus (trim num)) eqn:G.
    - cbn [negb andb] in H. destruct (is_some ctx); [discriminate|]. injection H as <-. unfold tel_aor, tel_aor_params. cbn [t_number t_global t_params]. now rewrite strip_idem.
    - cbn [negb andb] in H. destruct (is_none ctx); [discriminate|]. injection H as <-. reflexivity. }
  rewrite E, (starts_plus_strip_eq _ V). f_equal. f_equal. f_equal.
  - destruct (starts_plus (trim num)); [reflexivity|]. rewrite <- norm_ctx_eq, C. destruct (ctx_val _); reflexivity.
  - f_equal. rewrite <- norm_params_eq. symmetry. apply sort_same.
    + rewrite norm_params_eq. clear - Hn. induction (map norm_param L) as [|x l IH]; [constructor|]. cbn [map] in Hn. inversion Hn as [|? ? H1 H2]; subst. cbn [filter].
      destruct (not_ctx x); [|now apply IH]. cbn [keys map]. constructor; [|now apply IH]. intros Hi. apply H1. apply in_map_iff in Hi. destruct Hi as (y & <- & Hi). apply filter_In in Hi. now apply in_map.
    + apply Permutation_map. clear - P. symmetry in P. induction P as [|x l l' P IH|x y l|a b c P1 IH1 P2 IH2]; cbn [filter].
      * reflexivity.
      * destruct (negb _); [now constructor|exact IH].
      * destruct (negb (is_context_key (fst x))), (negb (is_context_key (fst y))); reflexivity || apply perm_swap.
      * now rewrite IH1.
Qed.
Lemma filter_perm : forall A (f : A -> bool) l l', Permutation l l' -> Permutation (filter f l) (filter f l').
Proof.
  intros A f l l' P. induction P as [|x l l' P IH|x y l|a b c P1 IH1 P2 IH2]; cbn [filter].
  - reflexivity.
  - destruct (f x); [now constructor|exact IH].
  - destruct (f x), (f y); reflexivity || apply perm_swap.
  - now rewrite IH1.
Qed.
Lemma tel_equiv : forall num num' ps ps' t t',
  mem 59 num = false -> mem 59 num' = false -> Forall (fun p => mem 59 p = false) ps -> Forall (fun p => mem 59 p = false) ps' ->
  tel_parse (tel_text num ps) = Some t -> tel_parse (tel_text num' ps') = Some t' ->
  strip_seps (trim num) = strip_seps (trim num') ->
  Permutation (map norm_param (filter nonempty_s ps)) (map norm_param (filter nonempty_s ps')) ->
  NoDup (map fst (map norm_param (filter nonempty_s ps))) ->
  tel_aor t = tel_aor t'.
Proof.
  intros num num' ps ps' t t' M M' Q Q' H H' E P N.
  assert (N' : NoDup (map fst (map norm_param (filter nonempty_s ps')))) by now rewrite <- (Permutation_map fst P).
  destruct (tel_parse_parts num ps t M Q H N) as [_ ->]. destruct (tel_parse_parts num' ps' t' M' Q' H' N') as [_ ->].
  rewrite E. f_equal. f_equal. f_equal.
  - now rewrite (find_perm _ _ N P).
  - f_equal. apply sort_same; [|now apply filter_perm].
    clear - N. induction (map norm_param (filter nonempty_s ps)) as [|x l IH]; [constructor|]. cbn [map] in N. inversion N as [|? ? H1 H2]; subst. cbn [filter].
    destruct (not_ctx x); [|now apply IH]. cbn [keys map]. constructor; [|now apply IH]. intros Hi. apply H1. apply in_map_iff in Hi. destruct Hi as (y & <- & Hi). apply filter_In in Hi. now apply in_map.
Qed.

(** ** The normal form of a tel URI parses again *)
Definition pp (kv : str * option str) : str := fst kv ++ match snd kv with Some v => 61 :: v | None => [] end.
Definition param_ok (kv : str * option str) : Prop :=
  tel_param_name (fst kv) = true
  /\ forall v, snd kv = Some v -> tel_param_value v = true /\ (is_context_key (fst kv) = true -> validate_context v = true).
Lemma name_facts : forall n, tel_param_name n = true -> n <> [] /\ mem 61 n = false /\ mem 59 n = false /\ existsb is_ws n = false.
Proof.
  intros n H. destruct n as [|c n]; [discriminate|]. remember (c :: n) as x. split; [subst; discriminate|].
  assert (G : negb (existsb (fun c => is_control c || is_ws c || (c =? 59) || (c =? 61)) x) = true).
  { unfold tel_param_name in H. subst x. apply andb_true_iff in H. tauto. }
  apply negb_true_iff in G. clear - G. induction x as [|d x IH]; [auto|]. cbn [existsb] in G. apply orb_false_iff in G. destruct G as [G1 G2].
  destruct (IH G2) as (A & B & C). repeat rewrite orb_false_iff in G1. split; [apply mem_cons_false; split; [lia|exact A]|]. split; [apply mem_cons_false; split; [lia|exact B]|].
  cbn [existsb]. rewrite C, orb_false_r. tauto.
Qed.
Lemma value_facts : forall v, tel_param_value v = true -> existsb is_ws v = false.
Proof.
  intros v H. unfold tel_param_value in H. apply andb_true_iff in H. destruct H as [_ H]. apply negb_true_iff in H. induction v as [|c v IH]; [reflexivity|].
  cbn [existsb] in *. apply orb_false_iff in H. destruct H as [H1 H2]. apply orb_false_iff in H1. rewrite (IH H2), orb_false_r. tauto.
Qed.
Lemma raw_pp : forall kv, tel_param_name (fst kv) = true -> raw_param (pp kv) = kv.
Proof.
  intros [k v] H. cbn [fst] in H. apply name_facts in H. destruct H as (_ & H & _). unfold raw_param, pp. cbn [fst snd]. destruct v as [v|].
  - now rewrite split_once_app.
  - rewrite app_nil_r. now rewrite (proj2 (split_once_none 61 k) H).
Qed.
Lemma pp_nonempty : forall kv, tel_param_name (fst kv) = true -> nonempty_s (pp kv) = true.
Proof. intros [k v] H. apply name_facts in H. destruct H as (H & _). cbn [fst] in H. destruct k as [|c k]; [congruence|reflexivity]. Qed.
Lemma pp_ws : forall kv, param_ok kv -> existsb is_ws (pp kv) = false.
Proof.
  intros [k v] [H1 H2]. cbn [fst snd] in *. unfold pp. cbn [fst snd]. apply name_facts in H1. destruct H1 as (_ & _ & _ & H1). rewrite existsb_app, H1. cbn [orb].
  destruct v as [v|]; [|reflexivity]. destruct (H2 v eq_refl) as [H3 _]. apply value_facts in H3. cbn [existsb]. now rewrite H3.
Qed.
Lemma tel_fold_ok : forall l m ctx, Forall param_ok l -> llen m + llen l <= 20 ->
  exists r, fold_opt tel_add (map pp l) (m, ctx) = Some r.
Proof.
  induction l as [|kv l IH]; intros m ctx Hf Hl; [now eexists|]. inversion Hf as [|? ? H1 H2]; subst. cbn [map fold_opt]. rewrite llen_cons in Hl.
  assert (E : exists c', tel_add (m, ctx) (pp kv) = Some (bput (fst kv) (snd kv) m, c')).
  { unfold tel_add. replace (MAX_TEL_PARAMETERS <=? llen m) with false by (unfold MAX_TEL_PARAMETERS; lia).
    pose proof (pp_nonempty kv (proj1 H1)) as N0. pose proof (pp_ws kv H1) as W. pose proof (raw_pp kv (proj1 H1)) as R.
    destruct (pp kv) as [|c p] eqn:Ep; [discriminate|]. rewrite <- Ep in *. rewrite W. unfold raw_param in R. destruct H1 as [A B]. destruct kv as [k v]. cbn [fst snd] in *.
    destruct (split_once 61 (pp (k, v))) as [[k' v']|].
    - injection R as -> <-. destruct (B v' eq_refl) as [B1 B2]. rewrite A, B1. cbn [andb]. destruct (is_context_key k); [rewrite (B2 eq_refl)|]; eexists; reflexivity.
    - injection R as R1 <-. rewrite R1, A. eexists; reflexivity. }
  destruct E as [c' ->]. apply IH; [exact H2|]. pose proof (bput_llen (fst kv) (snd kv) m). lia.
Qed.
Lemma tel_fold_len : forall ps m ctx m' ctx', fold_opt tel_add ps (m, ctx) = Some (m', ctx') -> llen m <= 20 -> llen m' <= 20.
Proof.
  induction ps as [|p ps IH]; intros m ctx m' ctx' H L; cbn [fold_opt] in H; [now injection H as <- <-|].
  destruct (tel_add (m, ctx) p) as [[m1 c1]|] eqn:E; [|discriminate]. apply (IH _ _ _ _ H).
  assert (G : llen m < 20). { unfold tel_add in E. destruct (MAX_TEL_PARAMETERS <=? llen m) eqn:X; [discriminate|]. unfold MAX_TEL_PARAMETERS in X. lia. }
  apply tel_add_some in E. destruct E as [(_ & -> & _)|(_ & -> & _)]; [lia|]. pose proof (bput_llen (fst (raw_param p)) (snd (raw_param p)) m). lia.
Qed.
Lemma param_ok_lower : forall kv, param_ok kv -> is_context_key (fst kv) = false -> param_ok (lower_key kv).
Proof.
  intros [k v] [A B] C. unfold lower_key. cbn [fst snd] in *. split; cbn [fst snd].
  - destruct k as [|c k]; [discriminate|]. remember (c :: k) as x. assert (E : forall y, y <> [] -> tel_param_name y = (blen y <=? MAX_TEL_PARAM_NAME) && negb (existsb (fun c => is_control c || is_ws c || (c =? 59) || (c =? 61)) y)) by (intros [|? ?] ?; [congruence|reflexivity]).
    rewrite E in A |- * by (subst; discriminate). rewrite blen_lower, existsb_lower; [exact A|]. intros d. rewrite is_control_lower, is_ws_lower.
    f_equal; [f_equal|]; unfold lower_c, is_upper, in_range; destruct ((65 <=? d) && (d <=? 90)) eqn:U; try reflexivity; lia.
  - intros w Hw. destruct (B w Hw) as [B1 B2]. split; [exact B1|]. intros X. rewrite lower_ctx, lower_idem, <- lower_ctx in X. congruence.
Qed.
Lemma strip_blen : forall s, blen (strip_seps s) <= blen s.
Proof.
  unfold strip_seps. induction s as [|c s IH]; [cbn; lia|]. cbn [filter]. change (c :: s) with ([c] ++ s). rewrite blen_app.
  destruct (negb (visual_sep c)); [|lia]. change (c :: filter (fun c => negb (visual_sep c)) s) with ([c] ++ filter (fun c => negb (visual_sep c)) s). rewrite blen_app. lia.
Qed.
Lemma filter_existsb_false : forall (f g : N -> bool) s, existsb f s = false -> existsb f (filter g s) = false.
Proof. intros f g s. induction s as [|c s IH]; intros H; [reflexivity|]. cbn [existsb filter] in *. apply orb_false_iff in H. destruct H as [A B]. destruct (g c); cbn [existsb]; [rewrite A|]; auto. Qed.
Lemma filter_forallb : forall (f g : N -> bool) s, forallb f s = true -> forallb f (filter g s) = true.
Proof. intros f g s. induction s as [|c s IH]; intros H; [reflexivity|]. cbn [forallb filter] in *. apply andb_true_iff in H. destruct H as [A B]. destruct (g c); cbn [forallb]; [rewrite A|]; auto. Qed.
Lemma validate_number_strip : forall s, validate_number s = true -> validate_number (strip_seps s) = true.
Proof.
  intros s H. pose proof (validate_number_digit s H) as D. rewrite <- strip_digit in D. pose proof (starts_plus_strip_eq s H) as P.
  pose proof (strip_blen s) as L. destruct s as [|c s]; [discriminate|]. remember (c :: s) as x. unfold validate_number in H. rewrite Heqx in H. rewrite <- Heqx in H.
  destruct (MAX_TELEPHONE_NUMBER_LENGTH <? blen x) eqn:E1; [discriminate|]. destruct (existsb is_control x) eqn:E2; [discriminate|].
  assert (E3 : existsb is_control (strip_seps x) = false) by now apply filter_existsb_false.
  destruct (strip_seps x) as [|d r] eqn:S; [discriminate|]. unfold validate_number. replace (MAX_TELEPHONE_NUMBER_LENGTH <? blen (d :: r)) with false by lia. rewrite E3.
  rewrite Heqx in P. cbn [starts_plus] in P. rewrite P. destruct (c =? 43) eqn:Ec.
  - apply N.eqb_eq in Ec. subst c. apply andb_true_iff in H. destruct H as [H1 H2]. subst x. change (strip_seps (43 :: s)) with (43 :: strip_seps s) in S. injection S as <- <-.
    rewrite strip_digit, H2. unfold strip_seps. now rewrite filter_forallb.
  - apply andb_true_iff in H. destruct H as [H1 H2]. rewrite D, andb_true_r, <- S. now apply filter_forallb.
Qed.
Lemma strip_trim : forall s, forallb (fun c => negb (is_ws c)) (strip_seps s) = true -> trim (strip_seps s) = strip_seps s.
Proof. intros s H. apply trim_edge. apply (class_edge (fun c => negb (is_ws c))); [|exact H]. intros c Hc. now apply negb_true_iff in Hc. Qed.
Lemma number_no_ws : forall s, validate_number s = true -> forallb (fun c => negb (is_ws c)) (strip_seps s) = true.
Proof.
  intros s H. apply forallb_forall. intros c Hc. unfold strip_seps in Hc. apply filter_In in Hc. destruct Hc as [Hc Hs].
  destruct s as [|d s]; [contradiction|]. remember (d :: s) as x. unfold validate_number in H. rewrite Heqx in H. rewrite <- Heqx in H.
  destruct (_ <? _); [discriminate|]. destruct (existsb is_control x); [discriminate|]. apply negb_true_iff. 
  assert (K : c = 43 \/ is_digit c = true \/ existsb (N.eqb c) (lit "*#ABCDabcd") = true).
  { apply negb_true_iff in Hs. destruct (d =? 43) eqn:E.
    - apply andb_true_iff in H. destruct H as [H _]. subst x. apply N.eqb_eq in E. destruct Hc as [Hc|Hc]; [left; congruence|]. rewrite forallb_forall in H. apply H in Hc. rewrite Hs, orb_false_r in Hc. auto.
    - apply andb_true_iff in H. destruct H as [H _]. rewrite forallb_forall in H. apply H in Hc. unfold local_char in Hc. rewrite Hs, orb_false_r in Hc. apply orb_true_iff in Hc. tauto. }
  destruct K as [->|[K|K]]; [reflexivity| |].
  - unfold is_digit, in_range in K. unfold is_ws, in_range. lia.
  - cbn in K. unfold is_ws, in_range. lia.
Qed.
Lemma context_norm_ok : forall c, validate_context c = true -> tel_param_value c = true ->
  validate_context (tel_context_norm c) = true /\ tel_param_value (tel_context_norm c) = true /\ tel_context_norm (tel_context_norm c) = tel_context_norm c.
Proof.
  intros c V P. destruct (starts_plus c) eqn:S.
  - assert (S' : starts_plus (strip_seps c) = true) by now apply starts_plus_strip.
    assert (E : tel_context_norm c = strip_seps c) by (unfold tel_context_norm; now rewrite S).
    assert (E' : tel_context_norm (strip_seps c) = strip_seps c) by (unfold tel_context_norm; rewrite S'; apply strip_idem). rewrite !E, E'. clear E E'. split; [|split; [|reflexivity]].
    + destruct c as [|x c]; [discriminate|]. cbn [starts_plus] in S. apply N.eqb_eq in S. subst x. change (strip_seps (43 :: c)) with (43 :: strip_seps c).
      unfold validate_context in V |- *. change (43 =? 43) with true in *. cbv iota in *.
      destruct (MAX_PHONE_CONTEXT_LENGTH <? blen (43 :: c)) eqn:E1; [discriminate|]. destruct (existsb is_control (43 :: c)) eqn:E2; [discriminate|].
      pose proof (strip_blen (43 :: c)) as L. change (strip_seps (43 :: c)) with (43 :: strip_seps c) in L. replace (MAX_PHONE_CONTEXT_LENGTH <? blen (43 :: strip_seps c)) with false by lia.
      pose proof (filter_existsb_false is_control (fun c => negb (visual_sep c)) (43 :: c) E2) as E3. change (filter _ (43 :: c)) with (43 :: strip_seps c) in E3. rewrite E3.
      apply andb_true_iff in V. destruct V as [V1 V2]. rewrite strip_digit, V2, andb_true_r. now apply filter_forallb.
    + unfold tel_param_value in *. apply andb_true_iff in P. destruct P as [P1 P2]. apply negb_true_iff in P2. pose proof (strip_blen c). apply andb_true_iff. split; [lia|].
      apply negb_true_iff. now apply filter_existsb_false.
  - assert (S' : starts_plus (lower c) = false). { destruct c as [|x c]; [reflexivity|]. cbn [starts_plus lower map] in *. unfold lower_c, is_upper, in_range. destruct ((65 <=? x) && (x <=? 90)) eqn:U; lia. }
    assert (E0 : tel_context_norm c = lower c) by (unfold tel_context_norm; now rewrite S).
    assert (E' : tel_context_norm (lower c) = lower c) by (unfold tel_context_norm; rewrite S'; apply lower_idem). rewrite !E0, E'. clear E0 E'. split; [|split; [|reflexivity]].
    + destruct c as [|x c]; [discriminate|]. remember (x :: c) as y. assert (E : forall z, starts_plus z = false -> z <> [] -> validate_context z = if MAX_PHONE_CONTEXT_LENGTH <? blen z then false else if existsb is_control z then false else forallb context_label (split_on 46 (lower z))).
      { intros [|a z] Sz Hz; [congruence|]. cbn [starts_plus] in Sz. unfold validate_context. now rewrite Sz. }
      rewrite E in V by (assumption || (subst; discriminate)). rewrite E; [|exact S'|subst; discriminate]. rewrite blen_lower, lower_idem, existsb_lower; [exact V|]. apply is_control_lower.
    + unfold tel_param_value in *. rewrite blen_lower, existsb_lower; [exact P|]. intros d. now rewrite is_control_lower, is_ws_lower.
Qed.
Lemma join_flat : forall x l, join [59] (x :: l) = x ++ flat_map (fun p => 59 :: p) l.
Proof.
  intros x l. revert x. induction l as [|y l IH]; intros x; [cbn; now rewrite app_nil_r|].
  change (join [59] (x :: y :: l)) with (x ++ [59] ++ join [59] (y :: l)). rewrite IH. reflexivity.
Qed.
Lemma flat_pp : forall l, flat_map print_param l = flat_map (fun p => 59 :: p) (map pp l).
Proof. induction l as [|[k v] l IH]; [reflexivity|]. cbn [flat_map map]. rewrite IH. unfold print_param, pp. destruct v; reflexivity. Qed.
Lemma ctx_val_in : forall m c, ctx_val m = Some c -> In (ctx_key, Some c) m.
Proof.
  intros m c H. unfold ctx_val in H. destruct (find _ m) as [[k v]|] eqn:F; [|discriminate]. apply find_some in F. destruct F as [A B]. cbn [fst] in B.
  apply str_eqb_spec in B. now subst.
Qed.
Lemma ctx_val_none : forall m, Forall (fun kv => not_ctx kv = true) m -> ctx_val m = None.
Proof.
  intros m H. unfold ctx_val. destruct (find _ m) as [[k v]|] eqn:F; [|reflexivity]. apply find_some in F. destruct F as [A B]. rewrite Forall_forall in H.
  apply H in A. unfold not_ctx in A. cbn [fst] in *. now rewrite B in A.
Qed.
Lemma norm_pp : forall kv, tel_param_name (fst kv) = true -> lower (fst kv) = fst kv ->
  (is_context_key (fst kv) = true -> forall v, snd kv = Some v -> tel_context_norm v = v) -> norm_param (pp kv) = kv.
Proof.
  intros [k v] H L C. rewrite norm_raw, (raw_pp (k, v) H). cbn [fst snd] in *. rewrite L. f_equal. destruct v as [v|]; [|reflexivity].
  destruct (is_context_key k); [|reflexivity]. now rewrite (C eq_refl v eq_refl).
Qed.
Lemma raw_mem : forall p, mem 59 p = false -> mem 59 (fst (raw_param p)) = false /\ forall v, snd (raw_param p) = Some v -> mem 59 v = false.
Proof.
  intros p H. unfold raw_param. destruct (split_once 61 p) as [[k v]|] eqn:E; cbn [fst snd]; [|split; [exact H|discriminate]].
  apply split_once_some in E. destruct E as [-> _]. rewrite mem_app in H. apply orb_false_iff in H. destruct H as [A B]. split; [exact A|]. intros w [= <-].
  apply mem_cons_false in B. tauto.
Qed.
Lemma lower_mem59 : forall s, mem 59 s = false -> mem 59 (lower s) = false.
Proof.
  induction s as [|c s IH]; intros H; [reflexivity|]. apply mem_cons_false in H. destruct H as [A B]. cbn [lower map]. apply mem_cons_false. split; [|now apply IH].
  unfold lower_c, is_upper, in_range. destruct ((65 <=? c) && (c <=? 90)) eqn:U; lia.
Qed.
Lemma NoDup_filter_keys : forall (l : list (str * option str)) f, NoDup (map fst l) -> NoDup (map fst (filter f l)).
Proof.
  induction l as [|x l IH]; intros f N; [constructor|]. cbn [map] in N. inversion N as [|? ? H1 H2]; subst. cbn [filter].
  destruct (f x); [|now apply IH]. cbn [map]. constructor; [|now apply IH]. intros Hi. apply H1. apply in_map_iff in Hi. destruct Hi as (y & <- & Hi). apply filter_In in Hi. now apply in_map.
Qed.
Lemma filter_all : forall A (f : A -> bool) l, Forall (fun x => f x = true) l -> filter f l = l.
Proof. intros A f l H. induction H as [|x l Hx Hl IH]; [reflexivity|]. cbn [filter]. now rewrite Hx, IH. Qed.
Lemma sort_sorted_id : forall l, sorted_keys l -> NoDup (keys l) -> sort_keys l = l.
Proof. intros l H N. apply sorted_unique; [now apply sort_keys_sorted|exact H|apply sort_keys_perm]. Qed.

Lemma not_ctx_len : forall l, llen (filter not_ctx l) <= llen l /\ (ctx_val l <> None -> llen (filter not_ctx l) < llen l).
Proof.
  induction l as [|[k v] l [I1 I2]]; [split; [cbn; lia|intros K; exfalso; now apply K]|].
  assert (E : filter not_ctx ((k, v) :: l) = if str_eqb k ctx_key then filter not_ctx l else (k, v) :: filter not_ctx l)
    by (cbn [filter]; unfold not_ctx at 1; cbn [fst]; now destruct (str_eqb k ctx_key)).
  rewrite E, llen_cons. unfold ctx_val in I2 |- *. cbn [find fst]. destruct (str_eqb k ctx_key).
  - split; [lia|intros _; lia].
  - rewrite llen_cons. split; [lia|]. intros K. specialize (I2 K). lia.
Qed.

Lemma tel_idem : forall num ps t, mem 59 num = false -> Forall (fun p => mem 59 p = false) ps -> tel_parse (tel_text num ps) = Some t ->
  NoDup (map fst (map norm_param (filter nonempty_s ps))) ->
  exists t', tel_parse (tel_aor t) = Some t' /\ tel_aor t' = tel_aor t.
Proof.
  intros num ps t Hnum Hps H Hn. destruct (tel_parse_parts num ps t Hnum Hps H Hn) as [V E].
  set (L := filter nonempty_s ps) in *. set (n := strip_seps (trim num)) in *.
  assert (HL : Forall (fun p => mem 59 p = false) L) by (apply Forall_forall; intros p Hp; apply filter_In in Hp; rewrite Forall_forall in Hps; now apply Hps).
  (* what the first parse tells *)
  assert (F : exists m ctx, fold_opt tel_add ps ([], None) = Some (m, ctx) /\ is_some ctx = negb (starts_plus (trim num))).
  { unfold tel_parse, tel_text in H. rewrite strip_prefix_app in H. rewrite split_on_join in H; [|discriminate|now constructor]. cbn [hd tl] in H.
    rewrite V in H. cbn [negb] in H. destruct (fold_opt tel_add ps ([], None)) as [[m ctx]|]; [|discriminate]. exists m, ctx. split; [reflexivity|].
    destruct (starts_plus (trim num)), ctx; (reflexivity || discriminate). }
  destruct F as (m & ctx & F & G). pose proof (tel_fold_len _ _ _ _ _ F (N.le_0_l _)) as Len.
  apply tel_fold in F; [|cbn [lkeys map]; now rewrite app_nil_r, <- map_norm_keys]. fold L in F. destruct F as (P & C & Q). rewrite app_nil_r in P.
  assert (LenL : llen L <= 20). { unfold llen in *. rewrite (Permutation_length P), map_length in Len. exact Len. }
  (* the parameters of the normal form *)
  set (S := sort_keys (filter not_ctx (map norm_param L))) in *.
  assert (HS : forall kv, In kv S -> param_ok kv /\ lower (fst kv) = fst kv /\ not_ctx kv = true /\ mem 59 (pp kv) = false).
  { intros kv Hi. apply (Permutation_in _ (sort_keys_perm _)) in Hi. apply filter_In in Hi. destruct Hi as [Hi Hc]. apply in_map_iff in Hi. destruct Hi as (p & Ep & Hi).
    rewrite norm_raw in Ep. pose proof Hc as Hc'. rewrite <- Ep in Hc'. unfold not_ctx in Hc'. cbn [fst] in Hc'. rewrite <- lower_ctx in Hc'. apply negb_true_iff in Hc'.
    rewrite Hc' in Ep. assert (Ek : kv = lower_key (raw_param p)) by (rewrite <- Ep; unfold lower_key; f_equal; now destruct (snd (raw_param p))).
    assert (Q1 : param_ok (raw_param p)). { rewrite Forall_forall in Q. apply Q. now apply in_map. }
    split; [rewrite Ek; now apply param_ok_lower|]. split; [rewrite Ek; apply lower_idem|]. split; [exact Hc|].
    rewrite Forall_forall in HL. destruct (raw_mem p (HL p Hi)) as [M1 M2]. rewrite Ek. unfold pp, lower_key. cbn [fst snd]. rewrite mem_app, lower_mem59 by exact M1. cbn [orb].
    destruct (snd (raw_param p)) as [v|]; [|reflexivity]. apply mem_cons_false. split; [discriminate|now apply M2]. }
  set (cp := if starts_plus n then [] else match ctx_val (map norm_param L) with Some c => [(ctx_key, Some c)] | None => [] end).
  assert (Et : tel_aor t = tel_text n (map pp (cp ++ S))).
  { rewrite E. unfold tel_text. rewrite join_flat, map_app, flat_map_app, <- !flat_pp. f_equal. f_equal. f_equal. unfold cp. destruct (starts_plus n); [reflexivity|].
    destruct (ctx_val (map norm_param L)); [|reflexivity]. cbn [flat_map]. now rewrite app_nil_r. }
  assert (Hcp : forall kv, In kv cp -> exists c, kv = (ctx_key, Some (tel_context_norm c)) /\ validate_context c = true /\ tel_param_value c = true /\ mem 59 (tel_context_norm c) = false
                 /\ ctx_val (map norm_param L) = Some (tel_context_norm c)).
  { intros kv Hi. unfold cp in Hi. destruct (starts_plus n); [contradiction|]. destruct (ctx_val (map norm_param L)) as [c|] eqn:Ec; [|contradiction]. destruct Hi as [<-|[]].
    rewrite <- norm_ctx_eq in Ec. destruct (ctx_val (map lower_key (map raw_param L))) as [d|] eqn:Ed; [|discriminate]. injection Ec as <-. exists d. split; [reflexivity|].
    apply ctx_val_in in Ed. apply in_map_iff in Ed. destruct Ed as (r & Er & Hr). apply in_map_iff in Hr. destruct Hr as (p & <- & Hp).
    assert (Q1 : param_ok (raw_param p)). { rewrite Forall_forall in Q. apply Q. now apply in_map. }
    unfold lower_key in Er. injection Er as E1 E2. destruct Q1 as [_ Q1]. destruct (Q1 d E2) as [Q2 Q3]. rewrite lower_ctx, E1, str_eqb_refl in Q3.
    split; [now apply Q3|]. split; [exact Q2|]. split; [|reflexivity]. rewrite Forall_forall in HL. destruct (raw_mem p (HL p Hp)) as [_ M2]. specialize (M2 d E2).
    unfold tel_context_norm. destruct (starts_plus d); [now apply filter_mem|now apply lower_mem59]. }
  assert (Hall : forall kv, In kv (cp ++ S) -> param_ok kv /\ lower (fst kv) = fst kv /\ norm_param (pp kv) = kv /\ mem 59 (pp kv) = false).
  { intros kv Hi. apply in_app_or in Hi. destruct Hi as [Hi|Hi].
    - destruct (Hcp kv Hi) as (c & -> & V1 & V2 & V3 & _). destruct (context_norm_ok c V1 V2) as (W1 & W2 & W3).
      assert (PO : param_ok (ctx_key, Some (tel_context_norm c))) by (split; [reflexivity|]; cbn [fst snd]; intros v [= <-]; split; [exact W2|intros _; exact W1]).
      split; [exact PO|]. split; [reflexivity|]. split.
      + apply norm_pp; [reflexivity|reflexivity|]. cbn [fst snd]. intros _ v [= <-]. exact W3.
      + unfold pp. cbn [fst snd]. rewrite mem_app. change (mem 59 ctx_key) with false. cbn [orb]. apply mem_cons_false. split; [discriminate|exact V3].
    - destruct (HS kv Hi) as (A & B & X & D). split; [exact A|]. split; [exact B|]. split; [|exact D]. apply norm_pp; [apply A|exact B|].
      intros K. unfold not_ctx in X. rewrite lower_ctx, B in K. now rewrite K in X. }
  assert (Nm : map norm_param (map pp (cp ++ S)) = cp ++ S).
  { rewrite map_map. rewrite <- map_id. apply map_ext_in. intros kv Hi. now apply Hall. }
  assert (Ne : filter nonempty_s (map pp (cp ++ S)) = map pp (cp ++ S)).
  { apply filter_all. apply Forall_forall. intros p Hp. apply in_map_iff in Hp. destruct Hp as (kv & <- & Hi). apply pp_nonempty. now apply Hall. }
  assert (NS : NoDup (keys S)).
  { unfold keys. apply (Permutation_NoDup (l := map fst (filter not_ctx (map norm_param L)))); [apply Permutation_map, Permutation_sym, sort_keys_perm|now apply NoDup_filter_keys]. }
  assert (SS : sorted_keys S) by (apply sort_keys_sorted; now apply NoDup_filter_keys).
  assert (Nd : NoDup (map fst (map norm_param (filter nonempty_s (map pp (cp ++ S)))))).
  { rewrite Ne, Nm, map_app. unfold cp. destruct (starts_plus n); [exact NS|]. destruct (ctx_val (map norm_param L)); [|exact NS]. cbn [map fst app]. constructor; [|exact NS].
    intros Hi. apply in_map_iff in Hi. destruct Hi as (kv & Ek & Hi). destruct (HS kv Hi) as (_ & _ & X & _). unfold not_ctx in X. rewrite Ek, str_eqb_refl in X. discriminate. }
  assert (M' : Forall (fun p => mem 59 p = false) (map pp (cp ++ S))).
  { apply Forall_forall. intros p Hp. apply in_map_iff in Hp. destruct Hp as (kv & <- & Hi). now apply Hall. }
  assert (Mn : mem 59 n = false) by (apply filter_mem; now apply trim_mem).
  assert (Tn : trim n = n) by (apply strip_trim; now apply number_no_ws).
  assert (Vn : validate_number n = true) by now apply validate_number_strip.
  assert (Sn : starts_plus n = starts_plus (trim num)) by now apply starts_plus_strip_eq.
  assert (LS : llen (cp ++ S) <= 20).
  { assert (X : llen (filter not_ctx (map norm_param L)) <= llen L /\ (ctx_val (map norm_param L) <> None -> llen (filter not_ctx (map norm_param L)) < llen L)).
    { pose proof (not_ctx_len (map norm_param L)) as Y.
      replace (llen (map norm_param L)) with (llen L) in Y by (unfold llen; now rewrite map_length). exact Y. }
    assert (LenS : llen S = llen (filter not_ctx (map norm_param L))) by (unfold llen, S; f_equal; apply Permutation_length, sort_keys_perm).
    rewrite llen_app, LenS. unfold cp. destruct (starts_plus n); [change (llen (@nil (str * option str))) with 0; lia|].
    destruct (ctx_val (map norm_param L)) as [c|]; [|change (llen (@nil (str * option str))) with 0; lia]. rewrite llen_cons. change (llen (@nil (str * option str))) with 0.
    destruct X as [_ X]. specialize (X ltac:(discriminate)). lia. }
  (* the second parse *)
  assert (Pt : exists t', tel_parse (tel_text n (map pp (cp ++ S))) = Some t').
  { unfold tel_parse, tel_text. rewrite strip_prefix_app. rewrite split_on_join; [|discriminate|now constructor]. cbn [hd tl]. rewrite Tn, Vn. cbn [negb].
    destruct (tel_fold_ok (cp ++ S) [] None) as [[m2 c2] F2]; [apply Forall_forall; intros kv Hi; now apply Hall|exact LS|]. rewrite F2.
    apply tel_fold in F2; [|cbn [lkeys map]; now rewrite app_nil_r, <- map_norm_keys]. destruct F2 as (_ & C2 & _). rewrite Ne in C2.
    assert (C3 : option_map tel_context_norm c2 = ctx_val (cp ++ S)).
    { rewrite <- Nm, <- norm_ctx_eq, C2. destruct (ctx_val (map lower_key (map raw_param (map pp (cp ++ S))))); reflexivity. }
    assert (C4 : is_some c2 = negb (starts_plus n)).
    { assert (I : is_some c2 = is_some (ctx_val (cp ++ S))) by (rewrite <- C3; now destruct c2). rewrite I, Sn, <- G, C.
      assert (Y : is_some (ctx_val (map lower_key (map raw_param L))) = is_some (ctx_val (map norm_param L))) by (rewrite <- norm_ctx_eq; now destruct (ctx_val (map lower_key (map raw_param L)))).
      assert (Z : ctx_val S = None) by (apply ctx_val_none, Forall_forall; intros kv Hi; now apply HS).
      assert (W : is_some (ctx_val (map lower_key (map raw_param L))) = negb (starts_plus (trim num))) by (rewrite <- G, C; now destruct (ctx_val (map lower_key (map raw_param L)))).
      unfold cp. rewrite Sn. destruct (starts_plus (trim num)) eqn:Sp.
      - cbn [app]. rewrite Z. cbn [negb] in W. destruct (ctx_val (map lower_key (map raw_param L))); [discriminate W|reflexivity].
      - cbn [negb] in W. rewrite W in Y. destruct (ctx_val (map norm_param L)) as [c|]; [|discriminate Y]. cbn [app]. unfold ctx_val at 1. cbn [find fst]. rewrite str_eqb_refl.
        destruct (ctx_val (map lower_key (map raw_param L))); [reflexivity|discriminate W]. }
    destruct (starts_plus n); cbn [negb andb] in C4 |- *; destruct c2; try discriminate; eexists; reflexivity. }
  destruct Pt as [t' Pt]. exists t'. rewrite Et. split; [exact Pt|].
  destruct (tel_parse_parts n _ t' Mn M' Pt Nd) as [_ E2]. rewrite E2, <- Et, E, Tn, Ne, Nm. fold n. unfold n at 1. rewrite strip_idem. fold n. f_equal. f_equal. f_equal.
  - replace (strip_seps n) with n by (unfold n; now rewrite strip_idem). unfold cp. destruct (starts_plus n) eqn:Sp; [reflexivity|]. 
    destruct (ctx_val (map norm_param L)) as [c|] eqn:Ec.
    + cbn [app]. unfold ctx_val at 1. cbn [find fst]. rewrite str_eqb_refl. reflexivity.
    + cbn [app]. rewrite ctx_val_none; [reflexivity|]. apply Forall_forall. intros kv Hi. now apply HS.
  - f_equal. assert (X : filter not_ctx (cp ++ S) = S).
    { rewrite filter_app. replace (filter not_ctx cp) with (@nil (str * option str)).
      - cbn [app]. apply filter_all, Forall_forall. intros kv Hi. now apply HS.
      - unfold cp. destruct (starts_plus n); [reflexivity|]. destruct (ctx_val (map norm_param L)); reflexivity. }
    rewrite X. now apply sort_sorted_id.
Qed.
