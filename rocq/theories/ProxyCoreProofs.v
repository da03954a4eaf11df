(** Proofs about the proxy helpers. *)
From Coq Require Import NArith ZArith Bool String List Lia ZifyBool ZifyN ZifyNat Permutation Sorted.
Import ListNotations.
From Verif Require Import Base BaseFacts Headers HeadersProofs Method Text TextFacts Uri UriProofs Msg AnyUri
  PrackProofs NumFacts ProxyFork ProxyCore ProxyCoreSpec.
Open Scope N_scope.
Open Scope list_scope.

(** ** Headers *)
Lemma named_eq : forall n h, named n h = name_eq h n.
Proof. reflexivity. Qed.
Lemma hget_cons_other : forall n h hs, eq_ic (fst h) n = false -> hget n (h :: hs) = hget n hs.
Proof. intros n h hs H; unfold hget, name_eq; cbn [find]; now rewrite H. Qed.
Lemma hget_cons_same : forall n h hs, eq_ic (fst h) n = true -> hget n (h :: hs) = Some (snd h).
Proof. intros n h hs H; unfold hget, name_eq; cbn [find]; now rewrite H. Qed.
Lemma hget_snoc_other : forall n h hs, eq_ic (fst h) n = false -> hget n (hs ++ [h]) = hget n hs.
Proof.
  intros n h hs H; unfold hget, name_eq. induction hs as [|x r IH]; cbn [app find].
  - now rewrite H.
  - destruct (eq_ic (fst x) n); [reflexivity | exact IH].
Qed.
Lemma hget_set_first_other : forall m n v hs hs', set_first n v hs = Some hs' -> eq_ic n m = false -> hget m hs' = hget m hs.
Proof.
  intros m n v hs; induction hs as [|x r IH]; intros hs' H Hn; cbn in H; [discriminate|].
  unfold name_eq in H. destruct (eq_ic (fst x) n) eqn:E.
  - injection H as <-.
    assert (eq_ic (fst x) m = false) as F.
    { destruct (eq_ic (fst x) m) eqn:F; [|reflexivity]. rewrite eq_ic_sym in E. pose proof (eq_ic_trans _ _ _ E F); congruence. }
    now rewrite !hget_cons_other.
  - destruct (set_first n v r) as [r'|] eqn:S; [|discriminate]. injection H as <-.
    unfold hget, name_eq; cbn [find]. destruct (eq_ic (fst x) m); [reflexivity|]. now apply (IH r').
Qed.
Lemma hget_set_first_same : forall n v hs hs', set_first n v hs = Some hs' -> hget n hs' = Some v.
Proof.
  intros n v hs; induction hs as [|x r IH]; intros hs' H; cbn in H; [discriminate|].
  unfold name_eq in H. destruct (eq_ic (fst x) n) eqn:E.
  - injection H as <-. now rewrite hget_cons_same.
  - destruct (set_first n v r) as [r'|] eqn:S; [|discriminate]. injection H as <-.
    rewrite hget_cons_other by exact E. now apply IH.
Qed.
Lemma others_set_first : forall n v hs hs', set_first n v hs = Some hs' -> others n hs' = others n hs.
Proof.
  intros n v hs; induction hs as [|x r IH]; intros hs' H; cbn in H; [discriminate|].
  unfold name_eq in H. destruct (eq_ic (fst x) n) eqn:E.
  - injection H as <-. unfold others; cbn [filter fst]. now rewrite E.
  - destruct (set_first n v r) as [r'|] eqn:S; [|discriminate]. injection H as <-.
    unfold others in *; cbn [filter]. rewrite E. cbn. f_equal. now apply IH.
Qed.
Lemma set_first_is : forall n hs v, hget n hs <> None -> exists hs', set_first n v hs = Some hs'.
Proof.
  intros n hs v; induction hs as [|x r IH]; intros H; [exfalso; apply H; reflexivity|].
  cbn. unfold name_eq. destruct (eq_ic (fst x) n) eqn:E; [eauto|].
  rewrite hget_cons_other in H by exact E. destruct (IH H) as [r' ->]; eauto.
Qed.
Lemma hget_remove_other : forall m n hs, eq_ic n m = false -> hget m (hremove n hs) = hget m hs.
Proof.
  intros m n hs H; unfold hremove; induction hs as [|x r IH]; [reflexivity|].
  cbn [filter]. unfold name_eq. destruct (eq_ic (fst x) n) eqn:E; cbn [negb].
  - assert (eq_ic (fst x) m = false) as F.
    { destruct (eq_ic (fst x) m) eqn:F; [|reflexivity]. rewrite eq_ic_sym in E. pose proof (eq_ic_trans _ _ _ E F); congruence. }
    rewrite hget_cons_other by exact F. exact IH.
  - unfold hget, name_eq; cbn [find]. destruct (eq_ic (fst x) m); [reflexivity|exact IH].
Qed.
Lemma hget_all_cons : forall n h hs, hget_all n (h :: hs) = if eq_ic (fst h) n then snd h :: hget_all n hs else hget_all n hs.
Proof. intros; unfold hget_all, name_eq; cbn [filter]. now destruct (eq_ic (fst h) n). Qed.
Lemma hget_all_app : forall n (a b : list header), hget_all n (a ++ b) = hget_all n a ++ hget_all n b.
Proof.
  intros n a b; induction a as [|h r IH]; [reflexivity|].
  cbn [app]. rewrite !hget_all_cons. destruct (eq_ic (fst h) n); rewrite IH; reflexivity.
Qed.
Lemma hget_all_remove_other : forall m n hs, eq_ic n m = false -> hget_all m (hremove n hs) = hget_all m hs.
Proof.
  intros m n hs H; unfold hremove; induction hs as [|x r IH]; [reflexivity|].
  cbn [filter]. unfold name_eq at 1. destruct (eq_ic (fst x) n) eqn:E; cbn [negb].
  - rewrite hget_all_cons.
    assert (eq_ic (fst x) m = false) as F.
    { destruct (eq_ic (fst x) m) eqn:F; [|reflexivity]. rewrite eq_ic_sym in E. pose proof (eq_ic_trans _ _ _ E F); congruence. }
    rewrite F. exact IH.
  - rewrite !hget_all_cons, IH. reflexivity.
Qed.
Lemma hget_all_set_first_other : forall m n v hs hs', set_first n v hs = Some hs' -> eq_ic n m = false -> hget_all m hs' = hget_all m hs.
Proof.
  intros m n v hs; induction hs as [|x r IH]; intros hs' H Hn; cbn in H; [discriminate|].
  unfold name_eq in H. destruct (eq_ic (fst x) n) eqn:E.
  - injection H as <-.
    assert (eq_ic (fst x) m = false) as F.
    { destruct (eq_ic (fst x) m) eqn:F; [|reflexivity]. rewrite eq_ic_sym in E. pose proof (eq_ic_trans _ _ _ E F); congruence. }
    rewrite !hget_all_cons. cbn [fst]. now rewrite F.
  - destruct (set_first n v r) as [r'|] eqn:S; [|discriminate]. injection H as <-.
    rewrite !hget_all_cons, (IH r'); auto.
Qed.
Lemma set_or_push_cases : forall hs n v hs', hset_or_push hs n v = Ok hs' ->
  set_first n v hs = Some hs' \/ (set_first n v hs = None /\ hs' = hs ++ [(n, v)]).
Proof.
  intros hs n v hs' H; unfold hset_or_push in H.
  destruct (validate_header_name n); [discriminate|]. destruct (validate_header_value v); [discriminate|].
  destruct (set_first n v hs) as [x|] eqn:E; [left; congruence|].
  destruct (MAX_HEADERS <=? llen hs); [discriminate|]. right; split; congruence.
Qed.
Lemma set_or_push_other : forall m hs n v, eq_ic n m = false -> hget m (or_same hs (hset_or_push hs n v)) = hget m hs.
Proof.
  intros m hs n v H; destruct (hset_or_push hs n v) as [hs'|] eqn:E; [|reflexivity]. cbn.
  destruct (set_or_push_cases _ _ _ _ E) as [S | [_ ->]].
  - now apply (hget_set_first_other m n v).
  - now apply hget_snoc_other.
Qed.
Lemma set_or_push_all_other : forall m hs n v, eq_ic n m = false -> hget_all m (or_same hs (hset_or_push hs n v)) = hget_all m hs.
Proof.
  intros m hs n v H; destruct (hset_or_push hs n v) as [hs'|] eqn:E; [|reflexivity]. cbn.
  destruct (set_or_push_cases _ _ _ _ E) as [S | [_ ->]].
  - now apply (hget_all_set_first_other m n v).
  - etransitivity; [exact (hget_all_app m hs [(n, v)])|]. rewrite hget_all_cons. cbn [fst]. rewrite H. cbn. apply app_nil_r.
Qed.
Lemma remove_first_split : forall n (a : list header) (h : header) (r : list header), Forall (fun x : header => eq_ic (fst x) n = false) a -> eq_ic (fst h) n = true ->
  remove_first n (a ++ h :: r) = a ++ r.
Proof.
  intros n a h r Ha Hh; induction Ha as [|x a Hx _ IH]; cbn; unfold named.
  - now rewrite Hh.
  - rewrite Hx. now rewrite IH.
Qed.
Lemma remove_first_none : forall n a, Forall (fun x => eq_ic (fst x) n = false) a -> remove_first n a = a.
Proof. intros n a Ha; induction Ha as [|x a Hx _ IH]; cbn; unfold named; [reflexivity|]. now rewrite Hx, IH. Qed.
Lemma others_remove_first : forall n hs, others n (remove_first n hs) = others n hs.
Proof.
  intros n hs; unfold others; induction hs as [|x r IH]; cbn; [reflexivity|].
  unfold named. destruct (eq_ic (fst x) n) eqn:E; cbn; [reflexivity|]. rewrite E; cbn. now rewrite IH.
Qed.
Lemma hget_all_remove_first : forall n hs, hget_all n (remove_first n hs) = tl (hget_all n hs).
Proof.
  intros n hs; induction hs as [|x r IH]; [reflexivity|].
  cbn [remove_first]. rewrite (hget_all_cons n x r). unfold named. destruct (eq_ic (fst x) n) eqn:E; [reflexivity|].
  now rewrite hget_all_cons, E.
Qed.

(** ** Words *)
Lemma split_ws_two : forall a b, a <> [] -> b <> [] ->
  forallb (fun c => negb (is_ws c)) a = true -> forallb (fun c => negb (is_ws c)) b = true ->
  split_ws (a ++ 32 :: b) = [a; b].
Proof.
  intros a b Ha Hb Wa Wb; unfold split_ws.
  rewrite split_ws_aux_word by exact Wa. cbn [split_ws_aux]. change (is_ws 32) with true. cbn iota.
  assert (rev a ++ [] <> []) as N. { rewrite app_nil_r. intros E; apply Ha. rewrite <- (rev_involutive a), E; reflexivity. }
  destruct (rev a ++ []) as [|x l] eqn:E; [congruence|]. rewrite <- E, app_nil_r, rev_involutive. f_equal.
  rewrite <- (app_nil_r b) at 1. rewrite split_ws_aux_word by exact Wb. cbn [split_ws_aux].
  destruct (rev b ++ []) as [|y m] eqn:F.
  - exfalso. apply Hb. rewrite app_nil_r in F. rewrite <- (rev_involutive b), F; reflexivity.
  - rewrite <- F, app_nil_r, rev_involutive; reflexivity.
Qed.
Lemma word_ws : forall s, word s -> forallb (fun c => negb (is_ws c)) s = true.
Proof. intros s [_ H]; apply forallb_forall; intros c Hc; destruct (H c Hc) as [-> _]; reflexivity. Qed.
Lemma word_semi : forall s, word s -> mem 59 s = false.
Proof. intros s [_ H]; apply mem_false; intros Hc; destruct (H 59 Hc) as [_ X]; auto. Qed.
Lemma alnum_word : forall s, forallb is_alnum s = true -> forallb (fun c => negb (is_ws c)) s = true /\ mem 59 s = false.
Proof.
  intros s H; split.
  - apply (forallb_impl is_alnum); [|exact H]. intros c Hc. apply alnum_ascii in Hc.
    apply negb_true_iff. unfold is_ws, in_range in *. assert (c < 128) by lia. lia.
  - apply (forallb_mem is_alnum); [reflexivity|exact H].
Qed.

Definition via_head (tr host : str) : str := lit "SIP/2.0/" ++ tr ++ lit " " ++ host.
Lemma via_value_eq : forall tr host b, via_value tr host b = via_head tr host ++ 59 :: (lit "branch=" ++ b) ++ 59 :: lit "rport".
Proof. intros; unfold via_value, via_head. rewrite <- !app_assoc. reflexivity. Qed.
Lemma via_head_semi : forall tr host, word tr -> word host -> mem 59 (via_head tr host) = false.
Proof. intros tr host Ht Hh; unfold via_head. rewrite !mem_app, (word_semi tr), (word_semi host) by auto. reflexivity. Qed.
Lemma via_parts : forall tr host b, word tr -> word host -> mem 59 b = false ->
  split_on 59 (via_value tr host b) = [via_head tr host; lit "branch=" ++ b; lit "rport"].
Proof.
  intros tr host b Ht Hh Hb. rewrite via_value_eq.
  rewrite split_on_app by (apply via_head_semi; auto).
  rewrite split_on_app by (rewrite mem_app, Hb; reflexivity). reflexivity.
Qed.
Lemma word_edge : forall s, word s -> no_edge is_ws s.
Proof. intros s H; apply no_ws_edge, word_ws, H. Qed.
Lemma no_edge_ends : forall p a b, a <> [] -> b <> [] ->
  match a with [] => True | c :: _ => p c = false end -> match rev b with [] => True | c :: _ => p c = false end -> no_edge p (a ++ b).
Proof.
  intros p a b Ha Hb A B; split.
  - destruct a; [now elim Ha|exact A].
  - rewrite rev_app_distr. destruct (rev b) eqn:E; [|exact B]. elim Hb. rewrite <- (rev_involutive b), E. reflexivity.
Qed.
Lemma via_head_trim : forall tr host, word tr -> word host -> trim (via_head tr host) = via_head tr host.
Proof.
  intros tr host Ht Hh; apply trim_edge. unfold via_head. rewrite !app_assoc. apply no_edge_ends.
  - discriminate.
  - apply Hh.
  - reflexivity.
  - apply (word_edge host Hh).
Qed.
Lemma via_sent_by_value : forall tr host b, word tr -> word host -> forallb (fun c => negb (is_ws c)) b = true ->
  via_sent_by (via_value tr host b) = Some host.
Proof.
  intros tr host b Ht Hh Hb; unfold via_sent_by, via_value.
  replace (lit "SIP/2.0/" ++ tr ++ lit " " ++ host ++ lit ";branch=" ++ b ++ lit ";rport")
    with ((lit "SIP/2.0/" ++ tr) ++ 32 :: (host ++ lit ";branch=" ++ b ++ lit ";rport"))
    by (rewrite <- !app_assoc; reflexivity).
  rewrite split_ws_two.
  - change (host ++ lit ";branch=" ++ b ++ lit ";rport") with (host ++ 59 :: lit "branch=" ++ b ++ lit ";rport").
    rewrite split_on_app by (apply word_semi; auto). reflexivity.
  - discriminate.
  - destruct host; [destruct Hh as [Nh _]; now elim Nh|discriminate].
  - rewrite forallb_app, (word_ws tr) by auto. reflexivity.
  - rewrite !forallb_app, (word_ws host), Hb by auto. reflexivity.
Qed.
Lemma trim_word : forall s, forallb (fun c => negb (is_ws c)) s = true -> trim s = s.
Proof. intros; apply trim_edge, no_ws_edge; auto. Qed.
Lemma via_branch_value : forall tr host b, word tr -> word host -> forallb (fun c => negb (is_ws c)) b = true -> mem 59 b = false ->
  via_branch (via_value tr host b) = Some b.
Proof.
  intros tr host b Ht Hh Hw Hb; unfold via_branch. rewrite via_parts by auto. cbn [map find_map].
  rewrite via_head_trim by auto.
  replace (strip_prefix (lit "branch=") (via_head tr host)) with (@None str) by reflexivity.
  rewrite trim_word by (rewrite forallb_app, Hw; reflexivity).
  now rewrite strip_prefix_app.
Qed.

(** ** Via *)
Lemma push_via_spec : forall q v q', push_via q v = Ret q' -> q' = with_headers q ((VIA, v) :: q_headers q)
  /\ validate_header_value v = None /\ llen (q_headers q') <= MAX_HEADERS.
Proof.
  intros q v q' H; unfold push_via in H. destruct (header_new VIA v) as [h|] eqn:E; [|discriminate].
  unfold hfrom_vec in H. destruct (MAX_HEADERS <? llen (h :: q_headers q)) eqn:L; [discriminate|].
  unfold header_new in E. destruct (validate_header_name VIA); [discriminate|].
  destruct (validate_header_value v) eqn:V; [discriminate|]. injection E as <-. injection H as <-.
  split; [reflexivity|]. split; [reflexivity|]. cbn [q_headers with_headers]. lia.
Qed.
Lemma remove_top_general : forall r hs, p_headers r = hs ->
  hget_all VIA (p_headers (prepare_response r)) = tl (hget_all VIA hs) /\ others VIA (p_headers (prepare_response r)) = others VIA hs.
Proof.
  intros r hs <-; unfold prepare_response; cbn [p_headers]. unfold remove_top_via.
  split; [apply hget_all_remove_first|apply others_remove_first].
Qed.
Lemma via_chain_lines : forall hops q q', via_chain hops q = Ret q' ->
  exists vs, length vs = length hops /\ hget_all VIA (q_headers q') = vs ++ hget_all VIA (q_headers q).
Proof.
  induction hops as [|((host, tr), b) r IH]; intros q q' H; cbn in H.
  - injection H as <-. exists []; split; reflexivity.
  - destruct (add_via q host tr b) as [q1|] eqn:E; [|discriminate].
    apply push_via_spec in E. destruct E as [-> [_ _]].
    destruct (IH _ _ H) as (vs & L & Hv). exists (vs ++ [via_value tr host b]). split.
    + rewrite app_length, L. cbn. lia.
    + rewrite Hv. cbn [with_headers q_headers]. rewrite hget_all_cons. change (eq_ic (fst (VIA, via_value tr host b)) VIA) with true.
      cbn [snd]. now rewrite <- app_assoc.
Qed.
Lemma pop_n_spec : forall k r, hget_all VIA (p_headers (pop_n k r)) = skipn k (hget_all VIA (p_headers r))
  /\ others VIA (p_headers (pop_n k r)) = others VIA (p_headers r)
  /\ p_code (pop_n k r) = p_code r /\ p_reason (pop_n k r) = p_reason r /\ p_body (pop_n k r) = p_body r.
Proof.
  induction k as [|k IH]; intros r; [repeat split; reflexivity|].
  cbn [pop_n]. destruct (IH (prepare_response r)) as (A & B & C & D & F).
  destruct (remove_top_general r _ eq_refl) as [G H].
  rewrite A, B, C, D, F, G, H. repeat split; try reflexivity.
  destruct (hget_all VIA (p_headers r)); cbn; [now destruct k|reflexivity].
Qed.

(** ** Loop detection *)
Section L.
Variable hash16 : str -> str.
Lemma detect_true : forall q host, detect_loop_hashed hash16 q host = true <->
  exists h, In h (q_headers q) /\ via_line h /\ names_host (snd h) host /\ via_branch (snd h) = Some (loop_branch hash16 q host).
Proof.
  intros q host; unfold detect_loop_hashed; rewrite existsb_exists; split.
  - intros (h & Hi & H). exists h. split; [exact Hi|]. apply andb_true_iff in H; destruct H as [V H].
    destruct (via_sent_by (snd h)) as [sb|] eqn:S; [|discriminate]. apply andb_true_iff in H; destruct H as [M H].
    destruct (via_branch (snd h)) as [b|] eqn:B; [|discriminate]. apply str_eqb_spec in H. subst b.
    split; [|split].
    + unfold is_via, named in V. apply orb_true_iff in V. destruct V; [now left|now right].
    + now exists sb.
    + reflexivity.
  - intros (h & Hi & V & (sb & S & M) & B). exists h; split; [exact Hi|].
    rewrite S, M, B, str_eqb_refl. unfold is_via, named. destruct V as [V|V]; unfold VIA; rewrite V; cbn; try rewrite orb_true_r; reflexivity.
Qed.
End L.
Lemma loop_text_fields : forall q host, loop_text q host =
  let '(a, b, c, d, e) := routing_fields q in join [31] [a; b; c; d; e; host].
Proof. reflexivity. Qed.
Lemma loop_text_inj : forall q1 q2 h, no_separator q1 -> no_separator q2 -> loop_text q1 h = loop_text q2 h ->
  routing_fields q1 = routing_fields q2.
Proof.
  intros q1 q2 h N1 N2 E. rewrite !loop_text_fields in E. unfold no_separator in *.
  destruct (routing_fields q1) as [[[[a b] c] d] e]. destruct (routing_fields q2) as [[[[a' b'] c'] d'] e'].
  assert (forall x y r s, ~ In 31 x -> ~ In 31 y -> x ++ 31 :: r = y ++ 31 :: s -> x = y /\ r = s) as C.
  { intros x y r s Hx Hy H. assert (split_once 31 (x ++ 31 :: r) = split_once 31 (y ++ 31 :: s)) as S by now rewrite H.
    rewrite !split_once_app in S by (apply mem_false; auto). injection S as <- <-. auto. }
  cbn [join app] in E.
  apply C in E; [|apply N1; cbn; auto 7|apply N2; cbn; auto 7]. destruct E as [-> E].
  apply C in E; [|apply N1; cbn; auto 7|apply N2; cbn; auto 7]. destruct E as [-> E].
  apply C in E; [|apply N1; cbn; auto 7|apply N2; cbn; auto 7]. destruct E as [-> E].
  apply C in E; [|apply N1; cbn; auto 7|apply N2; cbn; auto 7]. destruct E as [-> E].
  apply C in E; [|apply N1; cbn; auto 7|apply N2; cbn; auto 7]. destruct E as [-> E]. reflexivity.
Qed.
Lemma loop_branch_fields : forall hash16 q1 q2 h, routing_fields q1 = routing_fields q2 -> loop_branch hash16 q1 h = loop_branch hash16 q2 h.
Proof. intros hash16 q1 q2 h E; unfold loop_branch. now rewrite !loop_text_fields, E. Qed.
Lemma routing_push_via : forall q v q', push_via q v = Ret q' -> routing_fields q' = routing_fields q.
Proof.
  intros q v q' H; apply push_via_spec in H; destruct H as [-> _].
  unfold routing_fields, get_or_empty, cseq_num; cbn [with_headers q_headers q_uri].
  rewrite !hget_cons_other by reflexivity. reflexivity.
Qed.
Lemma detect_hops_spec : forall host hs n, n <= MAX_VIA_HOPS -> detect_hops host n hs = false <->
  n + llen (filter is_via hs) <= MAX_VIA_HOPS /\ (forall h, In h hs -> via_line h -> ~ names_host (snd h) host).
Proof.
  intros host hs; induction hs as [|h r IH]; intros n Hn; cbn [detect_hops filter].
  - rewrite llen_nil. split; [intros _; split; [lia|intros h []]|reflexivity].
  - assert (via_line h <-> is_via h = true) as VL.
    { unfold via_line, is_via, named, VIA. rewrite orb_true_iff. reflexivity. }
    destruct (is_via h) eqn:V.
    + rewrite llen_cons. destruct (MAX_VIA_HOPS <? n + 1) eqn:L.
      { split; [discriminate|]. intros [A _]. lia. }
      destruct (match via_sent_by (snd h) with Some sb => sent_by_matches sb host | None => false end) eqn:S.
      * split; [discriminate|]. intros [_ A]. exfalso. apply (A h); [now left|now apply VL|].
        destruct (via_sent_by (snd h)) as [sb|] eqn:S'; [|discriminate]. now exists sb.
      * rewrite IH by lia. split; intros [A B]; (split; [lia|]).
        -- intros x [<- | Hx] Hv; [|now apply B]. intros (sb & S1 & S2). rewrite S1 in S. congruence.
        -- intros x Hx; apply B; now right.
    + rewrite IH by lia. split; intros [A B]; (split; [lia|]).
      * intros x [<- | Hx] Hv; [|now apply B]. apply VL in Hv. congruence.
      * intros x Hx; apply B; now right.
Qed.

(** ** Max-Forwards *)
Lemma decrement_spec : forall hs hs' m, decrement_mf hs = Ok (hs', m) ->
  hget MF hs' = Some (print_N m) /\ others MF hs' = others MF hs
  /\ match hget MF hs with Some v => hop_value v (m + 1) /\ m + 1 <= 255 | None => m = 69 end.
Proof.
  intros hs hs' m H; unfold decrement_mf in H. destruct (hget MF hs) as [v|] eqn:G.
  - destruct (all_digits (trim v)) eqn:D; cbn [negb] in H; [|discriminate].
    destruct (parse_uint u16_max (trim v)) as [n|] eqn:P; [|discriminate].
    destruct (255 <? n) eqn:L; [discriminate|]. destruct (n =? 0) eqn:Z; [discriminate|].
    destruct (hset_or_push hs MF (print_N (n - 1))) as [x|] eqn:S; [|discriminate]. injection H as <- <-.
    assert (set_first MF (print_N (n - 1)) hs = Some x) as F.
    { destruct (set_or_push_cases _ _ _ _ S) as [F | [F _]]; [exact F|].
      destruct (set_first_is MF hs (print_N (n - 1))) as [y Y]; [congruence|congruence]. }
    split; [now apply (hget_set_first_same _ _ hs)|]. split; [now apply (others_set_first _ (print_N (n - 1)))|].
    split; [|lia]. split; [exact D|]. rewrite P. f_equal. lia.
  - unfold hpush in H. destruct (MAX_HEADERS <=? llen hs); [discriminate|].
    change (header_new MF (lit "69")) with (@Ok header header_error (MF, lit "69")) in H. cbn iota in H. injection H as <- <-.
    split; [|split; [|reflexivity]].
    + clear - G. change (print_N 69) with (lit "69"). induction hs as [|x r IH]; [reflexivity|].
      destruct (eq_ic (fst x) MF) eqn:E; [rewrite hget_cons_same in G by exact E; discriminate|].
      rewrite hget_cons_other in G by exact E. cbn [app]. rewrite hget_cons_other by exact E. now apply IH.
    + unfold others. rewrite filter_app. cbn. apply app_nil_r.
Qed.
Lemma check_mf_spec : forall q q', check_max_forwards q = Some q' ->
  q_method q' = q_method q /\ q_uri q' = q_uri q /\ q_body q' = q_body q
  /\ others MF (q_headers q') = others MF (q_headers q)
  /\ exists m, hget MF (q_headers q') = Some (print_N m)
     /\ match hget MF (q_headers q) with Some v => hop_value v (m + 1) /\ m + 1 <= 255 | None => m = 69 end.
Proof.
  intros q q' H; unfold check_max_forwards in H. destruct (decrement_mf (q_headers q)) as [[hs m]|] eqn:E; [|discriminate].
  injection H as <-. destruct (decrement_spec _ _ _ E) as (A & B & C). cbn.
  repeat (split; [reflexivity || exact B|]). exists m. auto.
Qed.
Lemma print_trim : forall n, trim (print_N n) = print_N n.
Proof.
  intros n; apply trim_word. apply forallb_forall. intros c Hc. apply print_N_digits in Hc.
  apply negb_true_iff. unfold is_ws, in_range. lia.
Qed.
Lemma hop_value_print : forall n m, hop_value (print_N n) m -> m = n.
Proof.
  intros n m [_ H]. rewrite print_trim in H. pose proof (print_N_spec n) as (P1 & P2 & P3).
  unfold parse_uint in H. destruct (print_N n) as [|c s] eqn:E; [congruence|].
  assert (c <> 43) as Hc by (unfold all_digits in P2; cbn [forallb] in P2; unfold is_digit, in_range in P2; lia).
  apply N.eqb_neq in Hc. rewrite Hc, P2 in H. cbv zeta in H. rewrite P1 in H. destruct (n <=? u16_max); congruence.
Qed.
Lemma add_rr_spec : forall q u q', add_record_route q u = Ret q' ->
  q' = with_headers q (q_headers q ++ [(lit "Record-Route", record_route_value u)]).
Proof.
  intros q u q' H; unfold add_record_route, hpush in H. destruct (MAX_HEADERS <=? llen (q_headers q)); [discriminate|].
  destruct (header_new (lit "Record-Route") (record_route_value u)) as [h|] eqn:E; [|discriminate].
  apply header_new_ok in E. destruct E as [-> _]. now injection H as <-.
Qed.
(** what [prepare_forward] gives *)
Lemma prepare_forward_spec : forall q t host tr rr b q', prepare_forward q t host tr rr b = Some (Ret q') ->
  exists q1 tail, check_max_forwards (with_uri q (SipU t)) = Some q1
    /\ q_headers q' = (VIA, via_value tr host b) :: q_headers q1 ++ tail
    /\ tail = match rr with Some u => [(lit "Record-Route", record_route_value u)] | None => [] end
    /\ q_method q' = q_method q /\ q_uri q' = SipU t /\ q_body q' = q_body q
    /\ validate_header_value (via_value tr host b) = None.
Proof.
  intros q t host tr rr b q' H; unfold prepare_forward in H. unfold set_request_uri in H.
  destruct (check_max_forwards (with_uri q (SipU t))) as [q1|] eqn:C; [|discriminate].
  destruct (check_mf_spec _ _ C) as (M & U & B & _).
  destruct (add_via q1 host tr b) as [q2|] eqn:V; [|discriminate]. apply push_via_spec in V. destruct V as (-> & V & _).
  exists q1. cbn in M, U, B.
  destruct rr as [u|].
  - injection H as H. apply add_rr_spec in H. subst q'. cbn. eexists. repeat split; auto.
  - injection H as <-. exists []. cbn. rewrite app_nil_r. repeat split; auto.
Qed.
Lemma hget_app_none : forall n a b, hget n a <> None -> hget n (a ++ b) = hget n a.
Proof.
  intros n a b; induction a as [|x r IH]; intros H; [exfalso; apply H; reflexivity|].
  cbn [app]. destruct (eq_ic (fst x) n) eqn:E; [now rewrite !hget_cons_same by exact E|].
  rewrite !hget_cons_other in * by exact E. now apply IH.
Qed.
Lemma forwards_mf : forall q q', forwards q q' -> exists m, hget MF (q_headers q') = Some (print_N m)
  /\ match hget MF (q_headers q) with Some v => hop_value v (m + 1) /\ m + 1 <= 255 | None => m = 69 end.
Proof.
  intros q q' [H | (t & host & tr & rr & b & H)].
  - destruct (check_mf_spec _ _ H) as (_ & _ & _ & _ & X). exact X.
  - destruct (prepare_forward_spec _ _ _ _ _ _ _ H) as (q1 & tail & C & Hh & _).
    destruct (check_mf_spec _ _ C) as (_ & _ & _ & _ & m & Hm & X). exists m. split; [|exact X].
    rewrite Hh, hget_cons_other by reflexivity. rewrite hget_app_none by congruence. exact Hm.
Qed.
Lemma hops_bound : forall k q q', hops k q q' -> (k > 0)%nat ->
  exists m, hget MF (q_headers q') = Some (print_N m) /\ N.of_nat k + m <= 255
    /\ (hget MF (q_headers q) = None -> N.of_nat k + m <= 70)
    /\ (forall v n, hget MF (q_headers q) = Some v -> hop_value v n -> N.of_nat k + m <= n).
Proof.
  intros k q q' H; induction H as [q|k q q1 q2 q3 H IH R F]; intros K; [lia|].
  destruct (forwards_mf _ _ F) as (m & Hm & B). exists m. split; [exact Hm|].
  assert (forall v n, hop_value v n -> forall n', hop_value v n' -> n = n') as U by (intros v n [_ A] n' [_ A']; congruence).
  destruct k as [|k].
  - inversion H; subst; clear H IH. destruct R as [R | (a & b & Ra & Rb & Hab)].
    + rewrite R in B. destruct (hget MF (q_headers q1)) as [v|].
      * destruct B as [B L]. split; [lia|]. split; [discriminate|]. intros v0 n E V. injection E as <-. pose proof (U _ _ V _ B). lia.
      * subst m. split; [lia|]. split; [lia|]. discriminate.
    + rewrite Rb in B. destruct B as [B L]. rewrite Ra. split; [lia|]. split; [discriminate|].
      intros v n E V. injection E as <-. apply hop_value_print in V. apply hop_value_print in B. lia.
  - destruct (IH ltac:(lia)) as (m1 & Hm1 & L1 & L2 & L3).
    assert (m + 1 <= m1).
    { destruct R as [R | (a & b & Ra & Rb & Hab)].
      - rewrite R, Hm1 in B. destruct B as [B _]. apply hop_value_print in B. lia.
      - rewrite Rb in B. rewrite Hm1 in Ra. injection Ra as Ra. apply print_N_inj in Ra. subst a.
        destruct B as [B _]. apply hop_value_print in B. lia. }
    split; [lia|]. split; [intros X; specialize (L2 X); lia|]. intros v n X Y. specialize (L3 v n X Y). lia.
Qed.

(** ** Strict routing *)
Lemma last_line : forall n (hs : list header) vs v, hget_all n hs = vs ++ [v] -> exists (a : list header) (h : header) (b : list header), hs = a ++ h :: b /\ snd h = v
  /\ eq_ic (fst h) n = true /\ Forall (fun x : header => eq_ic (fst x) n = false) b.
Proof.
  intros n hs; induction hs as [|x r IH] using rev_ind; intros vs v H; [destruct vs; discriminate|].
  rewrite hget_all_app, hget_all_cons in H. destruct (eq_ic (fst x) n) eqn:E.
  - apply app_inj_tail in H. destruct H as [_ <-]. exists r, x, []. auto.
  - cbn in H. rewrite app_nil_r in H. destruct (IH _ _ H) as (a & h & b & -> & Hv & Hn & Hb).
    exists a, h, (b ++ [x]). rewrite <- app_assoc. repeat split; auto. apply Forall_app. auto.
Qed.
Lemma find_skip : forall (f : header -> bool) a h r, Forall (fun x => f x = false) a -> f h = true -> find f (a ++ h :: r) = Some h.
Proof. intros f a h r Ha Hh; induction Ha as [|x a Hx _ IH]; cbn; [now rewrite Hh|]. now rewrite Hx. Qed.
Lemma Forall_rev' : forall A (P : A -> Prop) l, Forall P l -> Forall P (rev l).
Proof. intros A P l H; apply Forall_forall; intros x Hx; apply in_rev in Hx. rewrite Forall_forall in H; auto. Qed.
Lemma remove_last_split : forall n (a : list header) (h : header) (b : list header), Forall (fun x : header => eq_ic (fst x) n = false) b -> eq_ic (fst h) n = true ->
  find (named n) (rev (a ++ h :: b)) = Some h /\ remove_last n (a ++ h :: b) = a ++ b.
Proof.
  intros n a h b Hb Hh. unfold remove_last. rewrite rev_app_distr. cbn [rev]. rewrite <- app_assoc. cbn [app]. split.
  - apply find_skip; [|exact Hh]. now apply Forall_rev'.
  - rewrite (remove_first_split n (rev b) h (rev a)); [|now apply Forall_rev'|exact Hh].
    rewrite rev_app_distr, !rev_involutive. reflexivity.
Qed.
Lemma scan_plain : forall stop t r, stop <> 34 -> ~ In 34 t -> ~ In stop t ->
  scan_to stop false false (t ++ stop :: r) = Some (t, r).
Proof.
  intros stop t r S; induction t as [|c t IH]; intros Hq Hs; cbn [app scan_to andb].
  - replace (stop =? 34) with false by lia. now rewrite N.eqb_refl.
  - assert (c <> 34) by (intros ->; apply Hq; now left). assert (c <> stop) by (intros ->; apply Hs; now left).
    replace (c =? 34) with false by lia. replace (c =? stop) with false by lia.
    rewrite IH by (intros X; apply Hq + apply Hs; now right). reflexivity.
Qed.
Lemma blen_cons : forall c s, blen (c :: s) = len_utf8 c + blen s.
Proof. reflexivity. Qed.
Lemma route_parse_brackets : forall t a, parse_any t = Some a -> ~ In 34 t -> ~ In 62 t -> trim t = t -> blen t <= 2046 ->
  route_parse (lit "<" ++ t ++ lit ">") = Some (mkNa None a []).
Proof.
  intros t a P Q G T B. change (lit "<" ++ t ++ lit ">") with (60 :: t ++ [62]).
  unfold route_parse. rewrite blen_cons, blen_app. change (len_utf8 60) with 1. change (blen [62]) with 1.
  replace (2048 <? 1 + (blen t + 1)) with false by lia.
  rewrite trim_edge by (change (60 :: t ++ [62]) with ((60 :: t) ++ [62]); apply no_edge_ends; try discriminate; reflexivity).
  unfold route_name_addr.
  change (scan_to 60 false false (60 :: t ++ [62])) with (Some (@nil N, t ++ [62])). cbn iota.
  rewrite scan_plain by (auto; discriminate). rewrite T, P. reflexivity.
Qed.
Lemma trim_brackets : forall t, trim (lit "<" ++ t ++ lit ">") = lit "<" ++ t ++ lit ">".
Proof.
  intros t; apply trim_edge. change (lit "<" ++ t ++ lit ">") with ((60 :: t) ++ [62]). apply no_edge_ends; try discriminate; reflexivity.
Qed.
Lemma llen_remove_first : forall n hs, find (named n) hs <> None -> llen (remove_first n hs) + 1 = llen hs.
Proof.
  intros n hs; induction hs as [|x r IH]; intros H; [exfalso; apply H; reflexivity|]. cbn [remove_first find] in *.
  destruct (named n x); [rewrite llen_cons; lia|]. rewrite !llen_cons. specialize (IH H). lia.
Qed.
Lemma hget_all_find : forall n hs, find (named n) hs <> None -> hget_all n hs <> [].
Proof.
  intros n hs; induction hs as [|x r IH]; intros H; [exfalso; apply H; reflexivity|]. rewrite hget_all_cons.
  cbn in H. unfold named at 1 in H. destruct (eq_ic (fst x) n); [discriminate|auto].
Qed.
Lemma parse_any_control : forall t a, parse_any t = Some a -> existsb is_control t = false.
Proof. intros t a H; unfold parse_any in H. now destruct (existsb is_control t). Qed.
Lemma mem_control : forall c t, is_control c = true -> existsb is_control t = false -> mem c t = false.
Proof.
  intros c t Hc Ht. apply mem_false. intros Hi.
  assert (existsb is_control t = true) by (apply existsb_exists; eauto). congruence.
Qed.
Lemma bracket_value_ok : forall t, existsb is_control t = false -> blen t <= 2046 -> validate_header_value (lit "<" ++ t ++ lit ">") = None.
Proof.
  intros t C B. unfold validate_header_value. rewrite !blen_app, !mem_app.
  rewrite (mem_control 13 t), (mem_control 10 t), (mem_control 0 t) by (auto; reflexivity).
  change (blen (lit "<")) with 1. change (blen (lit ">")) with 1. unfold MAX_HEADER_VALUE_LENGTH.
  replace (8192 <? 1 + (blen t + 1)) with false by lia. reflexivity.
Qed.
Lemma swap_spec : forall q q1, llen (q_headers q) <= MAX_HEADERS -> bracketable (q_uri q) -> strict_swap q = (true, q1) ->
  q_headers q1 = remove_first ROUTE (q_headers q) ++ [(ROUTE, lit "<" ++ uri_text (q_uri q) ++ lit ">")]
  /\ hget_all ROUTE (q_headers q) <> [] /\ q_method q1 = q_method q /\ q_body q1 = q_body q.
Proof.
  intros q q1 L ((a & P & U) & B1 & B2 & B3 & B4) H. unfold strict_swap in H.
  destruct (find (named ROUTE) (q_headers q)) as [h|] eqn:F; [|discriminate].
  destruct (route_parse (trim (snd h))) as [r|]; [|discriminate]. destruct (route_has_lr r); [discriminate|].
  injection H as <-. cbn [q_headers q_method q_body].
  pose proof (llen_remove_first ROUTE (q_headers q) ltac:(congruence)) as Ll.
  pose proof (hget_all_find ROUTE (q_headers q) ltac:(congruence)) as Ne.
  unfold hpush. replace (MAX_HEADERS <=? llen (remove_first ROUTE (q_headers q))) with false by lia.
  unfold header_new. change (validate_header_name ROUTE) with (@None header_error). cbn iota.
  pose proof (bracket_value_ok (uri_text (q_uri q)) (parse_any_control _ _ P) B4) as X.
  change (lit "<" ++ uri_text (q_uri q) ++ lit ">") with (60 :: uri_text (q_uri q) ++ lit ">") in X |- *. rewrite X. cbn [or_same]. auto.
Qed.
Lemma recover_spec : forall q is_self q1 vs, bracketable (q_uri q) -> is_self (q_uri q1) = true ->
  hget_all ROUTE (q_headers q1) = vs ++ [lit "<" ++ uri_text (q_uri q) ++ lit ">"] ->
  exists hs, strict_recover is_self q1 = (true, mkReq (q_method q1) (q_uri q) hs (q_body q1))
    /\ hget_all ROUTE hs = vs /\ others ROUTE hs = others ROUTE (q_headers q1).
Proof.
  intros q is_self q1 vs ((a & P & U) & B1 & B2 & B3 & B4) S H.
  destruct (last_line _ _ _ _ H) as (x & h & y & E & Hv & Hn & Hy).
  destruct (remove_last_split ROUTE x h y Hy Hn) as [Ff Fr].
  unfold strict_recover. rewrite S. cbn [negb]. rewrite E, Ff, Hv, trim_brackets.
  rewrite (route_parse_brackets _ a) by auto. cbn [na_uri]. rewrite U, Fr.
  exists (x ++ y). split; [reflexivity|]. rewrite E in H.
  assert (hget_all ROUTE y = []) as Yn.
  { clear - Hy. induction Hy as [|z y Hz _ IH]; [reflexivity|]. now rewrite hget_all_cons, Hz. }
  split.
  - rewrite hget_all_app, hget_all_cons, Hn, Yn in H. rewrite hget_all_app, Yn, app_nil_r. apply app_inj_tail in H. tauto.
  - unfold others. rewrite !filter_app. cbn [filter]. now rewrite Hn.
Qed.

(** ** Cohorts *)
Section Cohorts.
Variable far : Z -> Z -> bool.
Definition qge (a b : target) : Prop := (q_of b <= q_of a)%Z.
Lemma ins_q_perm : forall t l, Permutation (ins_q t l) (t :: l).
Proof.
  intros t l; induction l as [|x r IH]; cbn; [reflexivity|]. destruct (q_of x <=? q_of t)%Z; [reflexivity|].
  rewrite IH. apply perm_swap.
Qed.
Lemma sort_q_perm : forall l, Permutation (sort_q l) l.
Proof. induction l as [|t l IH]; cbn; [reflexivity|]. etransitivity; [apply ins_q_perm|]. now apply perm_skip. Qed.
Lemma ins_q_sorted : forall t l, StronglySorted qge l -> StronglySorted qge (ins_q t l).
Proof.
  intros t l H; induction H as [|x r Hr IH Hx]; cbn; [repeat constructor|].
  destruct (q_of x <=? q_of t)%Z eqn:E.
  - constructor; [constructor; auto|]. constructor; [unfold qge; lia|].
    revert Hx; apply Forall_impl; intros y; unfold qge; lia.
  - constructor; [exact IH|]. apply Forall_forall. intros y Hy.
    apply (Permutation_in _ (ins_q_perm t r)) in Hy. destruct Hy as [<- | Hy]; [unfold qge; lia|].
    rewrite Forall_forall in Hx; auto.
Qed.
Lemma sort_q_sorted : forall l, StronglySorted qge (sort_q l).
Proof. induction l as [|t l IH]; cbn; [constructor|now apply ins_q_sorted]. Qed.
Lemma ins_q_filter : forall z t l, filter (fun x => q_of x =? z)%Z (ins_q t l) = filter (fun x => q_of x =? z)%Z (t :: l).
Proof.
  intros z t l; induction l as [|x r IH]; [reflexivity|]. cbn [ins_q].
  destruct (q_of x <=? q_of t)%Z eqn:E; [reflexivity|]. cbn [filter] in *.
  rewrite IH. destruct (q_of t =? z)%Z eqn:A, (q_of x =? z)%Z eqn:B; try reflexivity. lia.
Qed.
Lemma sort_q_filter : forall z l, filter (fun x => q_of x =? z)%Z (sort_q l) = filter (fun x => q_of x =? z)%Z l.
Proof. intros z l; induction l as [|t l IH]; [reflexivity|]. cbn [sort_q fold_right]. rewrite ins_q_filter. cbn [filter]. unfold sort_q in IH. now rewrite IH. Qed.
Lemma group_concat : forall l q cur, concat (group_from far q cur l) = rev cur ++ l.
Proof.
  induction l as [|t r IH]; intros q cur; cbn [group_from].
  - destruct cur; cbn [concat]; now rewrite ?app_nil_r.
  - destruct (far (q_of t) q); [cbn [concat]; rewrite IH; reflexivity|]. rewrite IH. cbn [rev]. now rewrite <- app_assoc.
Qed.
Fixpoint desc (l : list (list target)) : Prop :=
  match l with
  | [] => True
  | g :: r => (forall s t, In s g -> In t (concat r) -> (q_of t < q_of s)%Z) /\ desc r
  end.
Lemma sorted_app_le : forall a b s t, StronglySorted qge (a ++ b) -> In s a -> In t b -> (q_of t <= q_of s)%Z.
Proof.
  induction a as [|x a IH]; intros b s t H Hs Ht; [destruct Hs|].
  inversion H as [|? ? Hr Hx]; subst. destruct Hs as [<- | Hs]; [|eapply IH; eauto].
  rewrite Forall_forall in Hx. apply Hx. apply in_or_app; auto.
Qed.
Lemma sorted_app_r : forall a b, StronglySorted qge (a ++ b) -> StronglySorted qge b.
Proof. induction a as [|x a IH]; intros b H; [exact H|]. inversion H; auto. Qed.
Lemma group_desc : forall l q cur, StronglySorted qge (rev cur ++ l) -> (forall x, In x cur -> far (q_of x) q = false) ->
  (forall a, far a a = false) -> desc (group_from far q cur l).
Proof.
  induction l as [|t r IH]; intros q cur S N F; cbn [group_from].
  - destruct cur; cbn; [exact I|]. split; [intros ? ? _ []|exact I].
  - destruct (far (q_of t) q) eqn:E.
    + cbn [desc]. rewrite group_concat. cbn [rev app]. split.
      * intros s u Hs Hu. pose proof (in_rev cur s) as Rv. assert (In s cur) as Hc by now apply Rv.
        pose proof (sorted_app_le _ _ _ _ S Hs (or_introl eq_refl)) as A. pose proof (sorted_app_r _ _ S) as S'.
        inversion S' as [|? ? Hr Hx]; subst. rewrite Forall_forall in Hx.
        assert (q_of u <= q_of t)%Z as B by (destruct Hu as [<- | Hu]; [lia|apply Hx; auto]).
        assert (q_of t <> q_of s) as D by (intros D; rewrite D, (N s Hc) in E; discriminate). lia.
      * apply IH; [cbn; now apply (sorted_app_r (rev cur))| |exact F]. intros x [<- | []]. apply F.
    + apply IH; [cbn [rev]; rewrite <- app_assoc; exact S| |exact F]. intros x [<- | Hx]; auto.
Qed.
Lemma group_first : forall l q cur g, In g (group_from far q cur l) -> (forall x, In x cur -> far (q_of x) q = false) ->
  (forall a, far a a = false) -> (exists f r, rev cur = f :: r /\ q_of f = q) ->
  exists f r, g = f :: r /\ forall x, In x g -> far (q_of x) (q_of f) = false.
Proof.
  induction l as [|t r IH]; intros q cur g Hg N F (f & c & Ec & Eq); cbn [group_from] in Hg.
  - assert (g = rev cur) as ->.
    { destruct cur; [destruct Hg|]. destruct Hg as [<- | []]; reflexivity. }
    exists f, c. split; [exact Ec|]. intros x Hx. rewrite Eq. apply N. now apply in_rev.
  - destruct (far (q_of t) q) eqn:E.
    + destruct Hg as [<- | Hg].
      * exists f, c. split; [exact Ec|]. intros x Hx. rewrite Eq. apply N. now apply in_rev.
      * apply (IH (q_of t) [t] g Hg); [intros x [<- | []]; apply F|exact F|]. exists t, []. auto.
    + apply (IH q (t :: cur) g Hg); [intros x [<- | Hx]; auto|exact F|]. exists f, (c ++ [t]). cbn [rev]. rewrite Ec. auto.
Qed.
Lemma desc_descending : forall l, desc l -> descending l.
Proof.
  intros l H a; revert l H; induction a as [|g a IH]; intros l H x b y c E s t Hs Ht; subst l.
  - destruct H as [H _]. apply (H s t Hs). rewrite concat_app. apply in_or_app. right. cbn. apply in_or_app. now left.
  - destruct H as [_ H]. exact (IH _ H x b y c eq_refl s t Hs Ht).
Qed.
Lemma desc_share : forall l s t, desc l -> In s (concat l) -> In t (concat l) -> q_of s = q_of t ->
  exists g, In g l /\ In s g /\ In t g.
Proof.
  induction l as [|g r IH]; intros s t HD Hs Ht E; [destruct Hs|]. destruct HD as [H D]. cbn in Hs, Ht.
  apply in_app_or in Hs. apply in_app_or in Ht. destruct Hs as [Hs|Hs], Ht as [Ht|Ht].
  - exists g. cbn; auto.
  - pose proof (H s t Hs Ht). lia.
  - pose proof (H t s Ht Hs). lia.
  - destruct (IH s t D Hs Ht E) as (k & K1 & K2). exists k. cbn; auto.
Qed.
Hypothesis far_refl : forall a, far a a = false.
Lemma group_by_q_cases : forall l, sort_q (map fix_nan l) = [] /\ group_by_q far l = [] \/
  exists t r, sort_q (map fix_nan l) = t :: r /\ group_by_q far l = group_from far (q_of t) [t] r.
Proof.
  intros l; unfold group_by_q. destruct (sort_q (map fix_nan l)) as [|t r] eqn:E; [now left|]. right. exists t, r.
  split; [reflexivity|]. cbn [group_from]. now rewrite far_refl.
Qed.
Lemma group_by_q_concat : forall l, concat (group_by_q far l) = sort_q (map fix_nan l).
Proof. intros l; destruct (group_by_q_cases l) as [[E ->] | (t & r & E & ->)]; rewrite E; [reflexivity|]. now rewrite group_concat. Qed.
Lemma group_by_q_desc : forall l, desc (group_by_q far l).
Proof.
  intros l; destruct (group_by_q_cases l) as [[E ->] | (t & r & E & ->)]; [exact I|].
  apply group_desc; [cbn; rewrite <- E; apply sort_q_sorted|intros x [<- | []]; apply far_refl|exact far_refl].
Qed.
Lemma group_by_q_first : forall l g, In g (group_by_q far l) ->
  exists f r, g = f :: r /\ forall x, In x g -> far (q_of x) (q_of f) = false.
Proof.
  intros l g; destruct (group_by_q_cases l) as [[E ->] | (t & r & E & ->)]; [intros []|]. intros Hg.
  apply (group_first _ _ _ _ Hg); [intros x [<- | []]; apply far_refl|exact far_refl|]. exists t, []. auto.
Qed.
End Cohorts.

(** ** CANCEL *)
Lemma rebranch_value : forall tr host tb b, word tr -> word host -> forallb (fun c => negb (is_ws c)) tb = true -> mem 59 tb = false ->
  rebranch b (via_value tr host tb) = via_value tr host b.
Proof.
  intros tr host tb b Ht Hh Hw Hs; unfold rebranch. rewrite via_parts by auto. cbn [map].
  rewrite via_head_trim by auto.
  rewrite trim_word by (rewrite forallb_app, Hw; reflexivity).
  cbn [set_branch].
  change (starts_with (lit "branch=") (lower (via_head tr host))) with false. cbn iota.
  rewrite lower_app. change (lower (lit "branch=")) with (lit "branch="). rewrite starts_with_app.
  rewrite via_value_eq. change (trim (lit "rport")) with (lit "rport"). cbn [join]. rewrite <- !app_assoc. reflexivity.
Qed.
Lemma others_hget : forall m n hs hs', others m hs' = others m hs -> eq_ic m n = false ->
  hget n hs' = hget n hs /\ hget_all n hs' = hget_all n hs.
Proof.
  intros m n hs hs' E H. split.
  - rewrite <- (hget_remove_other n m hs), <- (hget_remove_other n m hs') by exact H. change (hget n (others m hs') = hget n (others m hs)). now rewrite E.
  - rewrite <- (hget_all_remove_other n m hs), <- (hget_all_remove_other n m hs') by exact H.
    change (hget_all n (others m hs') = hget_all n (others m hs)). now rewrite E.
Qed.
(** the names of the headers that neither forwarding nor cancelling touches *)
Definition untouched (n : str) : Prop :=
  eq_ic VIA n = false /\ eq_ic MF n = false /\ eq_ic (lit "Record-Route") n = false /\ eq_ic (lit "Content-Type") n = false
  /\ eq_ic (lit "Content-Length") n = false.
Lemma forward_untouched : forall q t host tr rr b q' n, prepare_forward q t host tr rr b = Some (Ret q') -> untouched n ->
  hget n (q_headers q') = hget n (q_headers q) /\ hget_all n (q_headers q') = hget_all n (q_headers q).
Proof.
  intros q t host tr rr b q' n H (U1 & U2 & U3 & _ & _).
  destruct (prepare_forward_spec _ _ _ _ _ _ _ H) as (q1 & tail & C & Hh & Ht & _).
  destruct (check_mf_spec _ _ C) as (_ & _ & _ & O & _). cbn [with_uri q_headers] in O.
  destruct (others_hget MF n _ _ O U2) as [A B].
  rewrite Hh, hget_cons_other by exact U1. rewrite hget_all_cons. cbn [fst]. rewrite U1.
  subst tail. destruct rr as [u|].
  - rewrite hget_snoc_other by exact U3. rewrite hget_all_app, hget_all_cons. cbn [fst]. rewrite U3. cbn. rewrite app_nil_r. auto.
  - rewrite app_nil_r. auto.
Qed.
Lemma cancel_template_spec : forall q host tr tb t, cancel_template q host tr tb = Ret t ->
  q_method t = MCancel /\ q_body t = [] /\ hget VIA (q_headers t) = Some (via_value tr host tb)
  /\ (forall n, untouched n -> eq_ic (lit "CSeq") n = false ->
        hget n (q_headers t) = hget n (q_headers q) /\ hget_all n (q_headers t) = hget_all n (q_headers q))
  /\ (forall num, hget (lit "CSeq") (q_headers q) = Some (num ++ lit " INVITE") -> mem 32 num = false ->
        validate_header_value (num ++ lit " INVITE") = None -> hget (lit "CSeq") (q_headers t) = Some (num ++ lit " CANCEL")).
Proof.
  intros q host tr tb t H. unfold cancel_template in H.
  set (hs0 := hremove (lit "Content-Length") (hremove (lit "Content-Type") (q_headers q))) in *.
  destruct (add_via (mkReq MCancel (q_uri q) hs0 []) host tr tb) as [c|] eqn:V; [|discriminate].
  apply push_via_spec in V. destruct V as (-> & V & _). cbn [with_headers q_headers q_method q_body q_uri] in *.
  set (hs1 := (VIA, via_value tr host tb) :: hs0) in *.
  assert (hget (lit "CSeq") hs1 = hget (lit "CSeq") (q_headers q)) as Cq.
  { unfold hs1. rewrite hget_cons_other by reflexivity. unfold hs0. rewrite !hget_remove_other by reflexivity. reflexivity. }
  assert (forall n, untouched n -> hget n hs1 = hget n (q_headers q) /\ hget_all n hs1 = hget_all n (q_headers q)) as Un.
  { intros n (U1 & U2 & U3 & U4 & U5). unfold hs1. rewrite hget_cons_other by exact U1. rewrite hget_all_cons. cbn [fst]. rewrite U1.
    unfold hs0. rewrite !hget_remove_other, !hget_all_remove_other by assumption. auto. }
  assert (hget VIA hs1 = Some (via_value tr host tb)) as Hv by (unfold hs1; rewrite hget_cons_same; reflexivity).
  rewrite Cq in H. destruct (hget (lit "CSeq") (q_headers q)) as [v|] eqn:G.
  - destruct (split_once 32 v) as [[n r]|] eqn:S.
    + injection H as <-. cbn [with_headers q_headers q_method q_body q_uri].
      split; [reflexivity|]. split; [reflexivity|]. split; [|split].
      * rewrite set_or_push_other by reflexivity. exact Hv.
      * intros m U D. rewrite set_or_push_other, set_or_push_all_other by exact D. now apply Un.
      * intros num E M W. injection E as E. subst v.
        change (num ++ lit " INVITE") with (num ++ 32 :: lit "INVITE") in S. rewrite split_once_app in S by exact M. injection S as <- <-.
        destruct (set_first_is (lit "CSeq") hs1 (num ++ lit " CANCEL")) as [hs' F]; [congruence|].
        unfold hset_or_push. change (validate_header_name (lit "CSeq")) with (@None header_error). cbn iota.
        assert (validate_header_value (num ++ lit " CANCEL") = None) as W'.
        { unfold validate_header_value in W |- *. rewrite blen_app, !mem_app in W |- *.
          change (blen (lit " CANCEL")) with (blen (lit " INVITE")).
          change (mem 13 (lit " CANCEL")) with (mem 13 (lit " INVITE")). change (mem 10 (lit " CANCEL")) with (mem 10 (lit " INVITE")).
          change (mem 0 (lit " CANCEL")) with (mem 0 (lit " INVITE")). exact W. }
        rewrite W', F. cbn [or_same]. now apply (hget_set_first_same _ _ hs1).
    + injection H as <-. cbn [with_headers q_headers q_method q_body q_uri].
      split; [reflexivity|]. split; [reflexivity|]. split; [exact Hv|]. split; [intros m U _; now apply Un|].
      intros num E M _. injection E as ->. apply split_once_none in S. rewrite mem_app in S.
      change (mem 32 (lit " INVITE")) with true in S. rewrite orb_true_r in S. discriminate.
  - injection H as <-. cbn [with_headers q_headers q_method q_body q_uri].
    split; [reflexivity|]. split; [reflexivity|]. split; [exact Hv|]. split; [intros m U _; now apply Un|]. discriminate.
Qed.
Lemma prepare_cancel_spec : forall t tr host tb b, hget VIA (q_headers t) = Some (via_value tr host tb) ->
  word tr -> word host -> forallb (fun c => negb (is_ws c)) tb = true -> mem 59 tb = false ->
  validate_header_value (via_value tr host b) = None ->
  q_method (prepare_cancel t b) = q_method t /\ q_body (prepare_cancel t b) = q_body t
  /\ hget VIA (q_headers (prepare_cancel t b)) = Some (via_value tr host b)
  /\ (forall n, eq_ic VIA n = false -> hget n (q_headers (prepare_cancel t b)) = hget n (q_headers t)
        /\ hget_all n (q_headers (prepare_cancel t b)) = hget_all n (q_headers t)).
Proof.
  intros t tr host tb b Hv Ht Hh Hw Hs V. unfold prepare_cancel. rewrite Hv.
  rewrite rebranch_value by auto. cbn [with_headers q_headers q_method q_body].
  split; [reflexivity|]. split; [reflexivity|]. split.
  - destruct (set_first_is VIA (q_headers t) (via_value tr host b)) as [hs' F]; [congruence|].
    unfold hset_or_push. change (validate_header_name VIA) with (@None header_error). cbn iota. rewrite V, F. cbn [or_same].
    now apply (hget_set_first_same _ _ (q_headers t)).
  - intros n D. split; [now apply set_or_push_other|now apply set_or_push_all_other].
Qed.

Definition shape (c : ctx) : list (str * sip_uri) := map (fun e => (fst e, br_target (snd e))) (cx_branches c).
Lemma shape_upd : forall b f m, (forall x, br_target (f x) = br_target x) ->
  map (fun e : str * branch => (fst e, br_target (snd e))) (upd b f m) = map (fun e => (fst e, br_target (snd e))) m.
Proof.
  intros b f m H; unfold upd. rewrite map_map. apply map_ext. intros [k br]; cbn. destruct (str_eqb b k); cbn; [now rewrite H|reflexivity].
Qed.
Lemma shape_cancel : forall c w, shape (cancel_others c w) = shape c.
Proof.
  intros c w; unfold shape, cancel_others; cbn. rewrite map_map. apply map_ext. intros [k br]; cbn.
  destruct (str_eqb k w); [reflexivity|]. destruct (br_state br); reflexivity.
Qed.
Lemma shape_process : forall ord c b r, shape (fst (process ord c b r)) = shape c /\ cx_req (fst (process ord c b r)) = cx_req c.
Proof.
  intros ord c b r; unfold process, record_response.
  destruct (lookup str_eqb b (cx_branches c)) as [br|]; [|auto].
  set (c1 := set_timers _ _). assert (shape c1 = shape c /\ cx_req c1 = cx_req c) as [S1 R1].
  { split; [|reflexivity]. unfold c1, shape; cbn. now apply shape_upd. }
  destruct (is_final r); [|exact (conj S1 R1)].
  assert (forall sel c2, rank_response (count_down c1) r = (sel, c2) -> shape c2 = shape c /\ cx_req c2 = cx_req c) as K.
  { intros sel c2. unfold rank_response. destruct (select_best _ _); intros [= <- <-]; split; auto. }
  destruct (rank_response (count_down c1) r) as [sel c2] eqn:E. destruct (K _ _ eq_refl) as [S2 R2].
  destruct (sel && is_2xx r); [cbn [fst]; rewrite shape_cancel; auto|].
  destruct (sel && is_6xx r); [cbn [fst]; rewrite shape_cancel; auto|]. auto.
Qed.
Lemma shape_run : forall ord ops c, forallb (fun o => negb (is_add o)) ops = true ->
  shape (fst (prun ord c ops)) = shape c /\ cx_req (fst (prun ord c ops)) = cx_req c.
Proof.
  intros ord ops; induction ops as [|o ops IH]; intros c H; [auto|]. cbn [forallb] in H. apply andb_true_iff in H. destruct H as [Ho H].
  assert (shape (fst (pstep ord c o)) = shape c /\ cx_req (fst (pstep ord c o)) = cx_req c) as [S R].
  { destruct o as [b t|b r|b|b]; [discriminate|apply shape_process| |]; cbn [pstep].
    - unfold report_error. destruct (error_applies c b); [apply shape_process|auto].
    - destruct (remove_one b (cx_timers c)) as [l|]; [|auto]. unfold fire_timer_c.
      destruct (timer_applies _ b); [|auto]. destruct (shape_process ord (set_timers c l) b (timeout_408 (set_timers c l))) as [A B].
      rewrite A, B. auto. }
  cbn [prun]. destruct (pstep ord c o) as [c1 l1]. cbn [fst] in S, R. destruct (IH c1 H) as [S' R'].
  destruct (prun ord c1 ops) as [c2 l2]. cbn [fst] in *. split; congruence.
Qed.
Lemma fork_loop_spec : forall q host tr rr ts ids c sent c' sent',
  fork_loop q host tr rr ids ts c sent = FStarted c' sent' ->
  cx_req c' = cx_req c /\ (forall x, In x sent -> In x sent')
  /\ (forall b t, In (b, t) (shape c') -> In (b, t) (shape c)
        \/ exists q', In (b, q') sent' /\ prepare_forward q t host tr rr b = Some (Ret q')).
Proof.
  intros q host tr rr ts; induction ts as [|t ts IH]; intros ids c sent c' sent' H; cbn in H.
  - injection H as <- <-. repeat split; auto.
  - destruct ids as [|b ids]; [injection H as <- <-; repeat split; auto|].
    destruct (prepare_forward q (pt_uri t) host tr rr b) as [[q'|]|] eqn:P; [|discriminate|].
    + destruct (validate_branch_id b); [|discriminate].
      destruct (add_branch c b (pt_uri t)) as [c1|] eqn:A; [|discriminate].
      destruct (IH _ _ _ _ _ H) as (R & I & S).
      unfold add_branch, add_insert in A. destruct (add_check c); [|discriminate].
      destruct (MAX_BRANCHES_PER_CONTEXT <=? llen (cx_branches c)); [discriminate|]. injection A as <-.
      split; [exact R|]. split; [intros x Hx; apply I, in_or_app; now left|].
      intros b' t' Hb. destruct (S b' t' Hb) as [Hs|Hs]; [|now right].
      unfold shape in Hs. cbn in Hs. destruct Hs as [E|Hs].
      * injection E as <- <-. right. exists q'. split; [apply I, in_or_app; right; now left|exact P].
      * left. apply in_map_iff in Hs. destruct Hs as (e & E & Hi). unfold shape. apply in_map_iff. exists e. split; [exact E|].
        unfold remove_key in Hi. apply filter_In in Hi. tauto.
    + exact (IH _ _ _ _ _ H).
Qed.
Lemma forwarded_code : forall ord c f, forwarded (finish ord c) = Some f -> exists best, cx_best c = Some best /\ p_code f = p_code best.
Proof.
  intros ord c f H; unfold finish in H. destruct (cx_count c =? 0); [|discriminate].
  destruct (cx_best c) as [best|]; [|discriminate]. exists best. split; [reflexivity|]. cbn in H. injection H as <-.
  destruct (is_challenge best); reflexivity.
Qed.
(** a 2xx that is forwarded was the one just received, all siblings marked *)
Lemma process_2xx : forall ord c b r c' ev, process ord c b r = (c', ev) -> is_2xx r = true -> forwarded ev = Some r ->
  (forall b' br, In (b', br) (cx_branches c) -> b' <> b -> br_state br <> BCompleted -> exists br', In (b', br') (cx_branches c') /\ br_state br' = BCancelled)
  /\ (forall b' br', In (b', br') (cx_branches c') -> b' = b -> br_state br' = BCompleted).
Proof.
  intros ord c b r c' ev H T F. unfold process, record_response in H.
  destruct (lookup str_eqb b (cx_branches c)) as [br0|] eqn:L; [|injection H as <- <-; discriminate].
  assert (is_final r = true) as Fi by (unfold is_2xx, is_final in *; lia).
  assert (is_prov r = false) as Pr by (unfold is_2xx, is_prov in *; lia).
  rewrite Fi, Pr in H. set (c1 := set_timers _ _) in H.
  destruct (rank_response (count_down c1) r) as [sel c2] eqn:E.
  assert (cx_branches c2 = cx_branches c1) as B2.
  { unfold rank_response in E. destruct (select_best _ _); injection E as <- <-; reflexivity. }
  rewrite T in H. destruct sel; cbn [andb] in H.
  - injection H as <- <-. unfold cancel_others. cbn [cx_branches set_branches]. rewrite B2. split.
    + intros b' br Hi Hn Hs. unfold c1; cbn. unfold upd. rewrite map_map.
      exists (match br_state br with BCancelled => br | _ => mkBranch (br_target br) BCancelled (br_resp br) end).
      apply str_eqb_neq in Hn. split.
      * apply in_map_iff. exists (b', br). split; [|exact Hi]. cbn. rewrite (str_eqb_sym b b'), Hn. cbn. rewrite Hn.
        destruct (br_state br); congruence || reflexivity.
      * destruct (br_state br) eqn:St; auto.
    + intros b' br' Hi ->. unfold c1 in Hi; cbn in Hi. unfold upd in Hi. rewrite map_map in Hi. apply in_map_iff in Hi.
      destruct Hi as ((k, x) & E' & _). cbn in E'. destruct (str_eqb b k) eqn:K; cbn in E'.
      * apply str_eqb_spec in K. subst k. rewrite str_eqb_refl in E'. injection E' as <-. reflexivity.
      * rewrite str_eqb_sym in K. rewrite K in E'. destruct (br_state x) eqn:St; injection E' as -> _; rewrite str_eqb_refl in K; discriminate.
  - exfalso. injection H as <- <-. cbn [app] in F. change (forwarded (Got b r :: finish ord c2)) with (forwarded (finish ord c2)) in F.
    destruct (forwarded_code _ _ _ F) as (best & Hb & Hc).
    unfold rank_response in E. destruct (select_best (cx_best (count_down c1)) r) eqn:Se; [discriminate|]. injection E as <-.
    rewrite Hb in Se. unfold select_best in Se. rewrite <- Hc in Se.
    unfold is_2xx in T. assert (p_code r / 100 = 2) as D by (symmetry; apply (N.div_unique _ 100 2 (p_code r - 200)); lia).
    rewrite D in Se. cbn in Se. discriminate.
Qed.

(** ** The [lr] parameter *)
Lemma split_on_app_any : forall c a b, split_on c (a ++ c :: b) = split_on c a ++ split_on c b.
Proof.
  intros c a b; induction a as [|x a IH]; cbn [app split_on].
  - now rewrite N.eqb_refl.
  - destruct (x =? c) eqn:E; [now rewrite IH|]. rewrite IH. pose proof (split_on_nonempty c a).
    destruct (split_on c a) as [|h t]; [congruence|reflexivity].
Qed.
Lemma split_once_app_l : forall c s a b r, split_once c s = Some (a, b) -> split_once c (s ++ r) = Some (a, b ++ r).
Proof.
  intros c s a b r H. apply split_once_some in H. destruct H as [-> M]. rewrite <- app_assoc. cbn [app]. now apply split_once_app.
Qed.
Lemma fold_opt_snoc : forall A B (f : A -> B -> option A) l x a, fold_opt f (l ++ [x]) a = match fold_opt f l a with Some y => f y x | None => None end.
Proof.
  intros A B f l x; induction l as [|y l IH]; intros a; cbn; [destruct (f a x); reflexivity|].
  destruct (f a y); [apply IH|reflexivity].
Qed.
Lemma parse_uri_lr : forall s u, parse_uri s = Some u -> mem 63 s = false -> llen (u_params u) < MAX_PARAMS -> blen s + 3 <= MAX_URI_LENGTH ->
  exists u', parse_uri (s ++ lit ";lr") = Some u' /\ u_params u' = bput (lit "lr") None (u_params u)
    /\ u_host u' = u_host u /\ u_port u' = u_port u /\ u_user u' = u_user u /\ u_sips u' = u_sips u.
Proof.
  intros s u H M L B. unfold parse_uri in H |- *.
  destruct (existsb is_control s) eqn:C; [discriminate|]. destruct (MAX_URI_LENGTH <? blen s) eqn:Bl; [discriminate|].
  rewrite existsb_app, C. change (false || existsb is_control (lit ";lr")) with false. cbn iota.
  rewrite blen_app. change (blen (lit ";lr")) with 3. replace (MAX_URI_LENGTH <? blen s + 3) with false by lia.
  destruct (split_once 58 s) as [[scheme rest]|] eqn:E1; [|discriminate].
  rewrite (split_once_app_l _ _ _ _ _ E1).
  destruct (negb _ && negb _); [discriminate|].
  assert (mem 63 rest = false) as Mr.
  { apply split_once_some in E1. destruct E1 as [-> _]. rewrite mem_app in M. apply orb_false_iff in M. destruct M as [_ M].
    apply mem_cons_false in M. tauto. }
  assert (split_once 63 rest = None) as S1 by now apply split_once_none.
  assert (split_once 63 (rest ++ lit ";lr") = None) as S2 by (apply split_once_none; rewrite mem_app, Mr; reflexivity).
  rewrite S1 in H. rewrite S2.
  change (rest ++ lit ";lr") with (rest ++ 59 :: lit "lr"). rewrite split_on_app_any. change (split_on 59 (lit "lr")) with [lit "lr"].
  pose proof (split_on_nonempty 59 rest) as Ne. destruct (split_on 59 rest) as [|base ps] eqn:Sp; [congruence|]. cbn [hd tl app] in *.
  rewrite fold_opt_snoc. destruct (fold_opt add_param ps []) as [params|] eqn:E3; [|discriminate].
  destruct (split_user (trim base)) as [[user hp]|] eqn:E4; [|discriminate].
  destruct hp as [|hc ht]; [discriminate|]. remember (hc :: ht) as hp eqn:Hhp. clear Hhp hc ht.
  destruct (split_host_port hp) as [[h port]|] eqn:E5; [|discriminate].
  destruct (pct_decode_str h) as [dh|]; [|discriminate].
  destruct (negb (validate_host (lower dh))); [discriminate|].
  destruct (match port with Some p => _ | None => _ end); [discriminate|].
  injection H as <-. cbn [u_params] in L.
  unfold add_param at 1. replace (MAX_PARAMS <=? llen params) with false by lia.
  change (trim (lit "lr")) with (lit "lr"). change (split_once 61 (lit "lr")) with (@None (str * str)).
  change (validate_param_name (lit "lr")) with true. change (lower (lit "lr")) with (lit "lr"). cbn iota.
  eexists. split; [reflexivity|]. cbn. auto.
Qed.
