(** Proofs about the stateful proxy model. *)
From Coq Require Import NArith Arith Bool String Lia ZifyBool ZifyN ZifyNat List Permutation.
Import ListNotations.
From Verif Require Import Base BaseFacts Headers HeadersProofs Msg Uri ProxyFork ProxyForkSpec.
Open Scope N_scope.
Open Scope list_scope.

(** ** Logs *)
Lemma always_nil : forall Q, always Q [].
Proof. intros Q l1 e l2 H. destruct l1; discriminate. Qed.
Lemma always_snoc : forall Q l e, always Q l -> Q l e -> always Q (l ++ [e]).
Proof.
  intros Q l e A H l1 x l2 E.
  destruct (exists_last (l := x :: l2)) as [l3 [y E2]]; [discriminate|].
  destruct l2 as [|z l2].
  - apply app_inj_tail in E. destruct E as [-> ->]. exact H.
  - rewrite E2, app_assoc in E. apply app_inj_tail in E. destruct E as [E ->].
    destruct l3 as [|w l3]; [discriminate|]. injection E2 as -> E2.
    eapply A. exact E.
Qed.
Lemma always_prefix : forall Q l l', always Q (l ++ l') -> always Q l.
Proof.
  intros Q l l' A l1 e l2 ->. apply (A l1 e (l2 ++ l')). rewrite <- app_assoc. reflexivity.
Qed.
Lemma always_at : forall (Q : list event -> event -> Prop) l e l2, always Q (l ++ e :: l2) -> Q l e.
Proof. intros Q l e l2 A. eapply A. reflexivity. Qed.

Lemma finals_app : forall a b, finals (a ++ b) = finals a ++ finals b.
Proof. intros. apply flat_map_app. Qed.
Lemma finished_app : forall a b, finished (a ++ b) = finished a ++ finished b.
Proof. intros. apply flat_map_app. Qed.
Lemma added_app : forall a b, added (a ++ b) = added a ++ added b.
Proof. intros. apply flat_map_app. Qed.
Lemma sent_finals_app : forall a b, sent_finals (a ++ b) = sent_finals a ++ sent_finals b.
Proof. intros. apply flat_map_app. Qed.
Lemma sent_failures_app : forall a b, sent_failures (a ++ b) = sent_failures a ++ sent_failures b.
Proof. intros. unfold sent_failures. rewrite sent_finals_app, filter_app. reflexivity. Qed.
Lemma last_resp_app : forall b l l', last_resp b (l ++ l') =
  fold_left (fun acc e => match e with
                          | Added b' => if str_eqb b b' then None else acc
                          | Got b' r => if str_eqb b b' then Some r else acc
                          | Sent _ _ => acc end) l' (last_resp b l).
Proof. intros. unfold last_resp. apply fold_left_app. Qed.

Lemma finished_finals : forall l, length (finished l) = length (finals l).
Proof.
  induction l as [|[b|b r|k r] l IH]; [reflexivity|exact IH| |exact IH].
  unfold finished, finals in *. cbn [flat_map].
  destruct (is_final r); cbn [app length]; rewrite ?IH; reflexivity.
Qed.

(** ** Selection *)
Definition best_fold (rs : list resp) : option resp :=
  fold_left (fun acc r => if select_best acc r then Some r else acc) rs None.
Lemma best_fold_snoc : forall rs r,
  best_fold (rs ++ [r]) = if select_best (best_fold rs) r then Some r else best_fold rs.
Proof. intros. unfold best_fold. rewrite fold_left_app. reflexivity. Qed.


Lemma class_final : forall r, is_final r = true -> 2 <= class r.
Proof.
  intros r H. unfold is_final in H. unfold class.
  apply N.div_le_lower_bound; lia.
Qed.
Lemma select_rank : forall c n, is_final c = true -> is_final n = true ->
  select_best (Some c) n = ((rank n <? rank c) || ((rank n =? rank c) && (rank n <=? 1))).
Proof.
  intros c n Fc Fn. apply class_final in Fc, Fn. unfold select_best, rank. unfold class in *.
  revert Fc Fn. generalize (p_code c / 100) (p_code n / 100). intros x y Fx Fy.
  destruct (y =? 6) eqn:A; destruct (x =? 6) eqn:B; destruct (y =? 2) eqn:C; destruct (x =? 2) eqn:D; lia.
Qed.
Lemma best_fold_none : forall rs, best_fold rs = None -> rs = [].
Proof.
  intros rs. destruct rs as [|r rs] using rev_ind; [reflexivity|].
  rewrite best_fold_snoc. destruct (select_best (best_fold rs) r) eqn:E; [discriminate|].
  intros H. rewrite H in E. discriminate.
Qed.
Lemma best_fold_spec : forall rs r, forallb is_final rs = true -> best_fold rs = Some r -> best_of rs r.
Proof.
  intros rs. induction rs as [|n rs IH] using rev_ind; intros r F H; [discriminate|].
  rewrite forallb_app in F. apply andb_prop in F. destruct F as [F Fn].
  cbn in Fn. rewrite andb_true_r in Fn.
  rewrite best_fold_snoc in H.
  destruct (best_fold rs) as [c|] eqn:B.
  - specialize (IH c F eq_refl). destruct IH as (a & b & -> & Ha & Hb).
    assert (Fc : is_final c = true).
    { rewrite forallb_app in F. apply andb_prop in F. destruct F as [_ F]. cbn in F. now apply andb_prop in F. }
    rewrite (select_rank c n Fc Fn) in H.
    destruct ((rank n <? rank c) || ((rank n =? rank c) && (rank n <=? 1))) eqn:S.
    + injection H as <-. exists (a ++ c :: b), []. split; [reflexivity|]. split; [|intros x []].
      intros x Hx. apply in_app_or in Hx. destruct Hx as [Hx|[<-|Hx]].
      * specialize (Ha x Hx). destruct (rank c <=? 1) eqn:R; destruct (rank n <=? 1) eqn:R'; lia.
      * destruct (rank n <=? 1) eqn:R'; lia.
      * specialize (Hb x Hx). destruct (rank c <=? 1) eqn:R; destruct (rank n <=? 1) eqn:R'; lia.
    + injection H as <-. exists a, (b ++ [n]). split; [now rewrite <- app_assoc|]. split; [exact Ha|].
      intros x Hx. apply in_app_or in Hx. destruct Hx as [Hx|[<-|[]]]; [exact (Hb x Hx)|].
      destruct (rank c <=? 1) eqn:R; lia.
  - apply best_fold_none in B. subst rs. injection H as <-.
    exists [], []. repeat split; intros x [].
Qed.
Lemma finals_final : forall l, forallb is_final (finals l) = true.
Proof.
  induction l as [|[b|b r|k r] l IH]; [reflexivity|exact IH| |exact IH].
  unfold finals in *. cbn [flat_map]. destruct (is_final r) eqn:F; [|exact IH].
  cbn. rewrite F. exact IH.
Qed.

(** ** The map of branches *)
Lemma upd_keys : forall b f m, keys (upd b f m) = keys m.
Proof.
  intros b f m. unfold keys, upd. rewrite map_map. apply map_ext.
  intros [k v]. cbn. now destruct (str_eqb b k).
Qed.
Lemma lookup_upd_same : forall b f m, lookup str_eqb b (upd b f m) =
  match lookup str_eqb b m with Some v => Some (f v) | None => None end.
Proof.
  intros b f. induction m as [|[k v] m IH]; [reflexivity|].
  unfold upd in *. cbn [map fst lookup]. destruct (str_eqb b k) eqn:E; cbn [lookup snd]; rewrite E; [reflexivity|exact IH].
Qed.
Lemma lookup_upd_other : forall b b' f m, b' <> b -> lookup str_eqb b' (upd b f m) = lookup str_eqb b' m.
Proof.
  intros b b' f m Hn. induction m as [|[k v] m IH]; [reflexivity|].
  unfold upd in *. cbn [map fst lookup]. destruct (str_eqb b k) eqn:E; cbn [lookup snd]; destruct (str_eqb b' k) eqn:E'; try exact IH; [|reflexivity].
  apply str_eqb_spec in E, E'. congruence.
Qed.
Definition cancel1 (winner : str) (e : str * branch) : str * branch :=
  if str_eqb (fst e) winner then e
  else match br_state (snd e) with
       | BCompleted | BCancelled => e
       | _ => (fst e, mkBranch (br_target (snd e)) BCancelled (br_resp (snd e)))
       end.
Lemma cancel_map : forall c w, cx_branches (cancel_others c w) = map (cancel1 w) (cx_branches c).
Proof. reflexivity. Qed.
Lemma cancel1_fst : forall w e, fst (cancel1 w e) = fst e.
Proof. intros w [k v]. unfold cancel1. cbn. destruct (str_eqb k w); [reflexivity|]. now destruct (br_state v). Qed.
Lemma cancel1_resp : forall w e, br_resp (snd (cancel1 w e)) = br_resp (snd e).
Proof. intros w [k v]. unfold cancel1. cbn. destruct (str_eqb k w); [reflexivity|]. now destruct (br_state v). Qed.
Lemma cancel1_target : forall w e, br_target (snd (cancel1 w e)) = br_target (snd e).
Proof. intros w [k v]. unfold cancel1. cbn. destruct (str_eqb k w); [reflexivity|]. now destruct (br_state v). Qed.
Lemma keys_cancel : forall w m, keys (map (cancel1 w) m) = keys m.
Proof. intros w m. unfold keys. rewrite map_map. apply map_ext. apply cancel1_fst. Qed.
Lemma lookup_cancel : forall w b m, lookup str_eqb b (map (cancel1 w) m) =
  match lookup str_eqb b m with Some v => Some (snd (cancel1 w (b, v))) | None => None end.
Proof.
  intros w b. induction m as [|[k v] m IH]; [reflexivity|].
  cbn [map lookup]. pose proof (cancel1_fst w (k, v)) as F.
  destruct (cancel1 w (k, v)) as [k' v'] eqn:E. cbn in F. subst k'. cbn [lookup].
  destruct (str_eqb b k) eqn:K; [|exact IH].
  apply str_eqb_spec in K. subst k. now rewrite E.
Qed.

(** what the map of branches says about the log *)
Record core (m : list (str * branch)) (l : list event) : Prop := mkCore {
  k_nodup : NoDup (keys m);
  k_keys : forall b, In b (keys m) <-> In b (added l);
  k_resp : forall b br, lookup str_eqb b m = Some br -> br_resp br = last_resp b l;
  k_len : llen m <= MAX_BRANCHES_PER_CONTEXT;
  k_fin : forall b, In b (finished l) -> In b (added l)
}.
Lemma core_new : core [] [].
Proof.
  constructor; cbn; try tauto; try discriminate.
  constructor.
Qed.
Lemma core_sent : forall m l k r, core m l -> core m (l ++ [Sent k r]).
Proof.
  intros m l k r [A B C D E]. constructor; auto.
  - intros b. rewrite added_app. cbn. rewrite app_nil_r. apply B.
  - intros b br H. rewrite last_resp_app. cbn. apply C. exact H.
  - intros b. rewrite finished_app, added_app. cbn. rewrite !app_nil_r. apply E.
Qed.
Lemma llen_le : forall A (a b : list A), (length a <= length b)%nat -> llen a <= llen b.
Proof. intros. unfold llen. lia. Qed.
Lemma core_add : forall m l b t, core m l -> llen m < MAX_BRANCHES_PER_CONTEXT ->
  core (insert str_eqb b (mkBranch t BTrying None) m) (l ++ [Added b]).
Proof.
  intros m l b t [A B C D E] L. constructor.
  - apply (insert_nodup _ str_eqb_spec). exact A.
  - intros b'. rewrite added_app. cbn [added flat_map app]. unfold insert, keys. cbn [map fst].
    rewrite in_app_iff, <- B. cbn [In]. destruct (str_eq_dec b' b) as [->|N]; [tauto|].
    split.
    + intros [H|H]; [now right; left|]. left.
      apply in_map_iff in H. destruct H as [e [<- H]]. apply (remove_key_in _ str_eqb_spec) in H.
      unfold keys. apply in_map. tauto.
    + intros [H|[H|[]]]; [|now left]. right.
      destruct (lookup str_eqb b' m) as [v|] eqn:K.
      * rewrite <- (lookup_remove_other _ str_eqb_spec b' b m N) in K.
        apply (lookup_in _ str_eqb_spec) in K. apply (in_map fst) in K. exact K.
      * apply (lookup_none _ str_eqb_spec) in K. tauto.
  - intros b' br H. rewrite last_resp_app. cbn [fold_left].
    destruct (str_eq_dec b' b) as [->|N].
    + rewrite (lookup_insert_same _ str_eqb_spec) in H. injection H as <-. rewrite str_eqb_refl. reflexivity.
    + rewrite (lookup_insert_other _ str_eqb_spec) in H by exact N.
      assert (str_eqb b' b = false) as -> by now apply str_eqb_neq.
      apply C. exact H.
  - unfold insert. rewrite llen_cons.
    pose proof (llen_le _ _ _ (remove_key_length str_eqb str_eqb_spec b m)). lia.
  - intros b'. rewrite finished_app, added_app. cbn. rewrite app_nil_r, in_app_iff. intros H. left. apply E. exact H.
Qed.
Lemma core_record : forall c l b r c1, core (cx_branches c) l -> record_response c b r = Some c1 ->
  core (cx_branches c1) (l ++ [Got b r]) /\ In b (added l).
Proof.
  intros c l b r c1 [A B C D E] H. unfold record_response in H.
  destruct (lookup str_eqb b (cx_branches c)) as [br|] eqn:L; [|discriminate].
  injection H as <-. cbn [cx_branches set_timers set_branches].
  assert (Hb : In b (added l)).
  { apply B. apply (lookup_in _ str_eqb_spec) in L. apply (in_map fst) in L. exact L. }
  split; [|exact Hb]. constructor.
  - rewrite upd_keys. exact A.
  - intros b'. rewrite upd_keys, added_app. cbn. rewrite app_nil_r. apply B.
  - intros b' br' H. rewrite last_resp_app. cbn [fold_left].
    destruct (str_eq_dec b' b) as [->|N].
    + rewrite lookup_upd_same, L in H. injection H as <-. rewrite str_eqb_refl. reflexivity.
    + rewrite lookup_upd_other in H by exact N.
      assert (str_eqb b' b = false) as -> by now apply str_eqb_neq.
      apply C. exact H.
  - unfold upd, llen. rewrite map_length. exact D.
  - intros b'. rewrite finished_app, added_app. cbn. rewrite !app_nil_r, in_app_iff.
    specialize (E b'). destruct (is_final r); cbn; [intros [H|[<-|[]]]; auto|intros [H|[]]; auto].
Qed.
Lemma core_cancel : forall m l w, core m l -> core (map (cancel1 w) m) l.
Proof.
  intros m l w [A B C D E]. constructor; auto.
  - rewrite keys_cancel. exact A.
  - intros b. rewrite keys_cancel. apply B.
  - intros b br H. rewrite lookup_cancel in H. destruct (lookup str_eqb b m) as [v|] eqn:L; [|discriminate].
    injection H as <-. rewrite cancel1_resp. cbn. apply C. exact L.
  - unfold llen. rewrite map_length. exact D.
Qed.

(** ** Aggregated challenges *)
Lemma collect_spec : forall vals seen, exists extra, collect_new seen vals = seen ++ extra
  /\ incl extra vals /\ incl vals (seen ++ extra) /\ (NoDup seen -> NoDup (seen ++ extra)).
Proof.
  induction vals as [|v vals IH]; intros seen; cbn [collect_new fold_left].
  - exists []. rewrite app_nil_r. repeat split; auto; intros x [].
  - destruct (existsb (str_eqb v) seen) eqn:E.
    + destruct (IH seen) as (x & H1 & H2 & H3 & H4). exists x. repeat split; auto.
      * intros y Hy. right. apply H2. exact Hy.
      * intros y [<-|Hy]; [|apply H3; exact Hy].
        apply existsb_exists in E. destruct E as [z [Hz E]]. apply str_eqb_spec in E. subst z.
        apply in_or_app. now left.
    + destruct (IH (seen ++ [v])) as (x & H1 & H2 & H3 & H4). exists (v :: x).
      rewrite <- app_assoc in H1, H3, H4. cbn in H1, H3, H4. repeat split; auto.
      * intros y [<-|Hy]; [now left|right; apply H2; exact Hy].
      * intros y [<-|Hy]; [apply in_or_app; right; now left|apply H3; exact Hy].
      * intros N. apply H4.
        apply (NoDup_Add (a := v) (l := seen)); [|split; [exact N|]].
        { rewrite <- (app_nil_r seen) at 1. apply Add_app. }
        intros Hv. assert (existsb (str_eqb v) seen = true); [|congruence].
        apply existsb_exists. exists v. split; [exact Hv|apply str_eqb_refl].
Qed.
Lemma new_values_spec : forall name bs best, exists extra,
  new_values name bs best = extra /\ incl extra (challenges name bs)
  /\ incl (challenges name bs) (hget_all name (p_headers best) ++ extra).
Proof.
  intros name bs best. unfold new_values.
  destruct (collect_spec (challenges name bs) (hget_all name (p_headers best))) as (x & H1 & H2 & H3 & _).
  exists x. rewrite H1, skipn_app, skipn_all, Nat.sub_diag. auto.
Qed.
Lemma push_all_spec : forall name vs hs, exists vs', push_all name vs hs = hs ++ map (fun v => (name, v)) vs' /\ incl vs' vs.
Proof.
  intros name. induction vs as [|v vs IH]; intros hs; cbn [push_all fold_left].
  - exists []. rewrite app_nil_r. split; [reflexivity|intros x []].
  - destruct (IH (or_same hs (hpush hs name v))) as (x & H1 & H2). unfold push_all in H1. rewrite H1.
    unfold hpush, header_new.
    destruct (MAX_HEADERS <=? llen hs); [exists x; split; [reflexivity|intros y Hy; right; apply H2; exact Hy]|].
    destruct (validate_header_name name); [exists x; split; [reflexivity|intros y Hy; right; apply H2; exact Hy]|].
    destruct (validate_header_value v); [exists x; split; [reflexivity|intros y Hy; right; apply H2; exact Hy]|].
    cbn [or_same]. exists (v :: x). rewrite <- app_assoc. split; [reflexivity|].
    intros y [<-|Hy]; [now left|right; apply H2; exact Hy].
Qed.
Lemma push_all_full : forall name vs hs, validate_header_name name = None ->
  (forall v, In v vs -> validate_header_value v = None) ->
  llen (push_all name vs hs) < MAX_HEADERS -> push_all name vs hs = hs ++ map (fun v => (name, v)) vs.
Proof.
  intros name. induction vs as [|v vs IH]; intros hs Hn Hv L; cbn [push_all fold_left] in *.
  - now rewrite app_nil_r.
  - assert (P : hpush hs name v = Ok (hs ++ [(name, v)])).
    { unfold hpush, header_new. rewrite Hn, (Hv v) by now left.
      destruct (MAX_HEADERS <=? llen hs) eqn:E; [|reflexivity].
      destruct (push_all_spec name vs (or_same hs (hpush hs name v))) as (x & H1 & _).
      unfold push_all in H1. rewrite H1 in L.
      unfold hpush in L. rewrite E in L. cbn [or_same] in L. rewrite llen_app in L. lia. }
    rewrite P in *. cbn [or_same] in *. unfold push_all in IH. rewrite IH; auto.
    + rewrite <- app_assoc. reflexivity.
    + intros v' Hv'. apply Hv. now right.
Qed.
Lemma challenges_in : forall name bs v, In v (challenges name bs) <->
  exists b br x, In (b, br) bs /\ br_resp br = Some x /\ is_challenge x = true /\ In v (hget_all name (p_headers x)).
Proof.
  intros name bs v. unfold challenges. rewrite in_flat_map. split.
  - intros [[b br] [Hi H]]. cbn in H. destruct (br_resp br) as [x|] eqn:R; [|destruct H].
    destruct (is_challenge x) eqn:Cx; [|destruct H]. exists b, br, x. auto.
  - intros (b & br & x & Hi & R & Cx & H). exists (b, br). split; [exact Hi|]. cbn. rewrite R, Cx. exact H.
Qed.

Section Order.
Variable ord : list (str * branch) -> list (str * branch).
Hypothesis ord_ok : forall m, Permutation (ord m) m.

Lemma aggregate_adds : forall c best,
  adds_challenges (fun x => exists b br, In (b, br) (cx_branches c) /\ br_resp br = Some x) best (aggregate ord c best).
Proof.
  intros c best. unfold aggregate, adds_challenges. cbn [p_code p_reason p_body p_headers].
  repeat split.
  destruct (new_values_spec WWW (ord (cx_branches c)) best) as (w & Ew & Iw & _).
  destruct (new_values_spec PRX (ord (cx_branches c)) best) as (x & Ex & Ix & _).
  rewrite Ew, Ex.
  destruct (push_all_spec WWW w (p_headers best)) as (w' & Hw & Iw').
  destruct (push_all_spec PRX x (push_all WWW w (p_headers best))) as (x' & Hx & Ix').
  rewrite Hx, Hw. rewrite <- app_assoc. eexists. split; [reflexivity|].
  intros h Hh. apply in_app_or in Hh.
  assert (K : forall name v, In v (challenges name (ord (cx_branches c))) ->
    exists x0, (exists b br, In (b, br) (cx_branches c) /\ br_resp br = Some x0) /\ is_challenge x0 = true /\ In v (hget_all name (p_headers x0))).
  { intros name v Hv. apply challenges_in in Hv. destruct Hv as (b & br & y & Hi & R & Cy & Hv).
    exists y. split; [|auto]. exists b, br. split; [|exact R].
    apply (Permutation_in _ (ord_ok _)). exact Hi. }
  destruct Hh as [Hh|Hh]; apply in_map_iff in Hh; destruct Hh as [v [<- Hv]]; cbn [fst snd].
  - split; [now left|]. apply K. auto.
  - split; [now right|]. apply K. auto.
Qed.
Lemma hget_all_app : forall n a b, hget_all n (a ++ b) = hget_all n a ++ hget_all n b.
Proof. intros. unfold hget_all. rewrite filter_app, map_app. reflexivity. Qed.
Lemma hget_all_names : forall n vs, hget_all n (map (fun v => (n, v)) vs) = vs.
Proof.
  intros n vs. induction vs as [|v vs IH]; [reflexivity|].
  unfold hget_all in *. cbn [map filter]. unfold name_eq at 1. cbn [fst]. rewrite eq_ic_refl.
  cbn [map snd]. now rewrite IH.
Qed.
Lemma aggregate_full : forall c best b br x name,
  In (b, br) (cx_branches c) -> br_resp br = Some x -> is_challenge x = true ->
  (forall b br x v, In (b, br) (cx_branches c) -> br_resp br = Some x ->
     In v (hget_all WWW (p_headers x)) \/ In v (hget_all PRX (p_headers x)) -> validate_header_value v = None) ->
  llen (p_headers (aggregate ord c best)) < MAX_HEADERS ->
  name = WWW \/ name = PRX ->
  incl (hget_all name (p_headers x)) (hget_all name (p_headers (aggregate ord c best))).
Proof.
  intros c best b br x name Hi R Cx V L Hname. unfold aggregate in *. cbn [p_headers] in *.
  destruct (new_values_spec WWW (ord (cx_branches c)) best) as (w & Ew & Iw & Jw).
  destruct (new_values_spec PRX (ord (cx_branches c)) best) as (y & Ey & Iy & Jy).
  rewrite Ew, Ey in *.
  assert (K : forall name v, name = WWW \/ name = PRX -> In v (challenges name (ord (cx_branches c))) -> validate_header_value v = None).
  { intros n v Hn Hv. apply challenges_in in Hv. destruct Hv as (b' & br' & z & Hi' & R' & Cz & Hv).
    apply (V b' br' z v); [|exact R'|].
    - apply (Permutation_in _ (ord_ok _)). exact Hi'.
    - destruct Hn as [-> | ->]; tauto. }
  assert (M : incl (hget_all name (p_headers x)) (challenges name (ord (cx_branches c)))).
  { intros v Hv. apply challenges_in. exists b, br, x. repeat split; auto.
    apply (Permutation_in _ (Permutation_sym (ord_ok _))). exact Hi. }
  assert (F2 : push_all PRX y (push_all WWW w (p_headers best)) = push_all WWW w (p_headers best) ++ map (fun v => (PRX, v)) y).
  { apply push_all_full; [reflexivity| |exact L]. intros v Hv. apply (K PRX); auto. }
  rewrite F2 in *.
  assert (F1 : push_all WWW w (p_headers best) = p_headers best ++ map (fun v => (WWW, v)) w).
  { apply push_all_full; [reflexivity| |rewrite llen_app in L; lia]. intros v Hv. apply (K WWW); auto. }
  rewrite F1 in *. clear F1 F2 L.
  intros v Hv. apply M in Hv. rewrite !hget_all_app.
  destruct Hname as [-> | ->].
  - apply Jw in Hv. rewrite hget_all_names. apply in_or_app. left. exact Hv.
  - apply Jy in Hv. rewrite hget_all_names. rewrite <- app_assoc. apply in_app_or in Hv. apply in_or_app.
    destruct Hv as [Hv|Hv]; [now left|]. right. apply in_or_app. now right.
Qed.

(** ** Calls one after the other *)
Definition best_and (c1 : ctx) (r : resp) : ctx := set_best (count_down c1) (Some r).
Lemma process_cases : forall c b r c' ev, process ord c b r = (c', ev) ->
  (record_response c b r = None /\ c' = c /\ ev = []) \/
  exists c1, record_response c b r = Some c1 /\
    ((is_final r = false /\ c' = c1 /\ ev = [Got b r; Sent Prov r]) \/
     (is_final r = true /\ select_best (cx_best c1) r = true /\ is_2xx r = true /\
        c' = cancel_others (best_and c1 r) b /\ ev = [Got b r; Sent Now r]) \/
     (is_final r = true /\ select_best (cx_best c1) r = true /\ is_6xx r = true /\ is_2xx r = false /\
        c' = cancel_others (set_term (best_and c1 r)) b /\ ev = [Got b r; Sent Now r]) \/
     (is_final r = true /\ (select_best (cx_best c1) r = false \/ (is_2xx r = false /\ is_6xx r = false)) /\
        c' = (if select_best (cx_best c1) r then best_and c1 r else count_down c1) /\ ev = Got b r :: finish ord c')).
Proof.
  intros c b r c' ev H. unfold process in H.
  destruct (record_response c b r) as [c1|] eqn:R.
  - right. exists c1. split; [reflexivity|].
    destruct (is_final r) eqn:F.
    + unfold rank_response in H. cbn [count_down cx_best set_count] in H.
      change (cx_best (count_down c1)) with (cx_best c1) in H.
      destruct (select_best (cx_best c1) r) eqn:S.
      * cbn [andb] in H. destruct (is_2xx r) eqn:X2.
        { inversion H; subst. right. left. auto. }
        destruct (is_6xx r) eqn:X6.
        { inversion H; subst. right. right. left. auto 8. }
        inversion H; subst. right. right. right. auto 8.
      * cbn [andb] in H. inversion H; subst. right. right. right. auto 8.
    + inversion H; subst. left. auto.
  - left. inversion H; subst. auto.
Qed.
Lemma record_fields : forall c b r c1, record_response c b r = Some c1 ->
  cx_best c1 = cx_best c /\ cx_count c1 = cx_count c /\ cx_term c1 = cx_term c /\ cx_req c1 = cx_req c.
Proof.
  intros c b r c1 H. unfold record_response in H.
  destruct (lookup str_eqb b (cx_branches c)); [|discriminate]. inversion H; subst. cbn. auto.
Qed.

Record inv (c : ctx) (l : list event) : Prop := mkInv {
  i_core : core (cx_branches c) l;
  i_best : cx_best c = best_fold (finals l);
  i_term : cx_term c = existsb is_6xx (finals l);
  i_count : one_final_each l -> cx_count c + llen (finals l) = llen (added l)
}.
Lemma finals_got : forall l b r, is_final r = true -> finals (l ++ [Got b r]) = finals l ++ [r].
Proof. intros l b r F. rewrite finals_app. cbn. rewrite F. reflexivity. Qed.
Lemma added_got : forall l b r, added (l ++ [Got b r]) = added l.
Proof. intros. rewrite added_app. apply app_nil_r. Qed.
Lemma llen_one : forall A (x : A), llen [x] = 1.
Proof. reflexivity. Qed.
Lemma NoDup_app_l : forall A (a b : list A), NoDup (a ++ b) -> NoDup a.
Proof.
  intros A a b H. induction a as [|x a IH]; [constructor|]. inversion H; subst.
  constructor; [|auto]. intros Hx. apply H2. apply in_or_app. now left.
Qed.
Lemma one_prefix : forall l l', one_final_each (l ++ l') -> one_final_each l.
Proof.
  intros l l' [A B]. rewrite added_app in A. rewrite finished_app in B.
  split; eapply NoDup_app_l; eassumption.
Qed.
Lemma one_bound : forall m l, core m l -> one_final_each l -> llen (finals l) <= llen (added l).
Proof.
  intros m l K [A B]. unfold llen. rewrite <- finished_finals.
  pose proof (NoDup_incl_length B (l' := added l) (k_fin _ _ K)). lia.
Qed.
Lemma count_step : forall c1 l b r m', core m' (l ++ [Got b r]) -> is_final r = true ->
  (one_final_each l -> cx_count c1 + llen (finals l) = llen (added l)) ->
  one_final_each (l ++ [Got b r]) ->
  cx_count (count_down c1) + llen (finals (l ++ [Got b r])) = llen (added (l ++ [Got b r])).
Proof.
  intros c1 l b r m' K F H O. specialize (H (one_prefix _ _ O)).
  pose proof (one_bound _ _ K O) as L. revert L.
  rewrite finals_got, added_got, llen_app, llen_one by exact F. intros L. unfold count_down. cbn [cx_count set_count].
  destruct (0 <? cx_count c1) eqn:Z; lia.
Qed.
Lemma select_6xx : forall o r, is_6xx r = true -> select_best o r = true.
Proof.
  intros [x|] r H; [|reflexivity]. unfold select_best, is_6xx in *.
  assert (p_code r / 100 = 6) as ->; [|reflexivity].
  symmetry. apply (N.div_unique _ _ _ (p_code r - 600)); lia.
Qed.
Lemma finals_got_prov : forall l b r, is_final r = false -> finals (l ++ [Got b r]) = finals l.
Proof. intros l b r F. rewrite finals_app. cbn. rewrite F. apply app_nil_r. Qed.
Lemma finals_sent : forall l k r, finals (l ++ [Sent k r]) = finals l.
Proof. intros. rewrite finals_app. apply app_nil_r. Qed.
Lemma inv_sent : forall c l k r, inv c l -> inv c (l ++ [Sent k r]).
Proof.
  intros c l k r [A B C D]. constructor; [apply core_sent; exact A|..]; rewrite finals_sent; try assumption.
  intros O. apply one_prefix in O. rewrite added_app. cbn. rewrite app_nil_r. exact (D O).
Qed.
Lemma inv_finish : forall c c' l, inv c l -> inv c (l ++ finish ord c').
Proof.
  intros c c' l I. unfold finish. destruct (cx_count c' =? 0); [|now rewrite app_nil_r].
  destruct (cx_best c'); [apply inv_sent; exact I|now rewrite app_nil_r].
Qed.

(** the state right after the response has been recorded, counted and ranked *)
Lemma inv_process : forall c l b r c' ev, inv c l -> process ord c b r = (c', ev) -> inv c' (l ++ ev) /\
  (ev = [] \/ exists tl, ev = Got b r :: tl /\ inv c' (l ++ [Got b r]) /\ In b (added l)).
Proof.
  intros c l b r c' ev I H. apply process_cases in H.
  destruct H as [(_ & -> & ->)|(c1 & R & H)]; [rewrite app_nil_r; split; [exact I|now left]|].
  destruct I as [K B T N0]. destruct (core_record _ _ _ _ _ K R) as [K1 Hb].
  destruct (record_fields _ _ _ _ R) as (Eb & Ec & Et & _). rewrite <- Ec in N0.
  assert (G : forall k x, l ++ [Got b r; Sent k x] = (l ++ [Got b r]) ++ [Sent k x]).
  { intros. rewrite <- app_assoc. reflexivity. }
  destruct H as [(F & -> & ->)|[(F & S & X & -> & ->)|[(F & S & X & X2 & -> & ->)|(F & NS & E & ->)]]].
  - assert (I1 : inv c1 (l ++ [Got b r])).
    { constructor; [exact K1|..]; rewrite finals_got_prov by exact F; try congruence.
      intros O. apply one_prefix in O. rewrite added_app. cbn. rewrite app_nil_r. exact (N0 O). }
    rewrite G. split; [apply inv_sent; exact I1|]. right. exists [Sent Prov r]. auto.
  - assert (I1 : inv (cancel_others (best_and c1 r) b) (l ++ [Got b r])).
    { constructor.
      - rewrite cancel_map. apply core_cancel. exact K1.
      - cbn. rewrite finals_got by exact F. rewrite best_fold_snoc, <- B, <- Eb, S. reflexivity.
      - cbn. rewrite finals_got by exact F. rewrite existsb_app. cbn. rewrite Et, T.
        assert (is_6xx r = false) as ->; [|now rewrite orb_false_r].
        unfold is_6xx, is_2xx in *. lia.
      - exact (count_step _ _ _ _ _ K1 F N0). }
    rewrite G. split; [apply inv_sent; exact I1|]. right. exists [Sent Now r]. auto.
  - assert (I1 : inv (cancel_others (set_term (best_and c1 r)) b) (l ++ [Got b r])).
    { constructor.
      - rewrite cancel_map. apply core_cancel. exact K1.
      - cbn. rewrite finals_got by exact F. rewrite best_fold_snoc, <- B, <- Eb, S. reflexivity.
      - cbn. rewrite finals_got by exact F. rewrite existsb_app. cbn. rewrite X. cbn. now rewrite orb_true_r.
      - exact (count_step _ _ _ _ _ K1 F N0). }
    rewrite G. split; [apply inv_sent; exact I1|]. right. exists [Sent Now r]. auto.
  - assert (X : is_6xx r = false).
    { destruct (is_6xx r) eqn:X; [|reflexivity]. rewrite (select_6xx _ _ X) in NS. destruct NS as [NS|[_ NS]]; discriminate. }
    assert (I1 : inv c' (l ++ [Got b r])).
    { constructor.
      - subst c'. destruct (select_best (cx_best c1) r); exact K1.
      - rewrite finals_got by exact F. rewrite best_fold_snoc, <- B, <- Eb. subst c'.
        destruct (select_best (cx_best c1) r); [reflexivity|]. exact eq_refl.
      - rewrite finals_got by exact F. rewrite existsb_app. cbn. rewrite X, orb_false_r. rewrite <- T, <- Et.
        subst c'. destruct (select_best (cx_best c1) r); reflexivity.
      - pose proof (count_step _ _ _ _ _ K1 F N0) as Z. subst c'.
        destruct (select_best (cx_best c1) r); exact Z. }
    split; [|right; exists (finish ord c'); auto].
    change (Got b r :: finish ord c') with ([Got b r] ++ finish ord c'). rewrite app_assoc. apply inv_finish. exact I1.
Qed.
Lemma inv_timers : forall c l ts, inv c l -> inv (set_timers c ts) l.
Proof. intros c l ts [A B C D]. constructor; assumption. Qed.
Lemma step_cases : forall c o c' ev, pstep ord c o = (c', ev) ->
  (ev = [] /\ exists ts, c' = set_timers c ts) \/
  (exists b t, o = PAdd b t /\ add_branch c b t = Ok c' /\ ev = [Added b]) \/
  (exists b r ts, process ord (set_timers c ts) b r = (c', ev)).
Proof.
  intros c o c' ev H.
  assert (Z : forall c0, set_timers c0 (cx_timers c0) = c0) by (intros []; reflexivity).
  destruct o as [b t|b r|b|b]; cbn in H.
  - destruct (add_branch c b t) as [c2|e] eqn:A; inversion H; subst.
    + right. left. exists b, t. auto.
    + left. split; [reflexivity|]. exists (cx_timers c'). symmetry. apply Z.
  - right. right. exists b, r, (cx_timers c). rewrite Z. exact H.
  - unfold report_error in H. destruct (error_applies c b).
    + right. right. exists b, (unavailable_503 c), (cx_timers c). rewrite Z. exact H.
    + inversion H; subst. left. split; [reflexivity|]. exists (cx_timers c'). symmetry. apply Z.
  - destruct (remove_one b (cx_timers c)) as [ts|].
    + unfold fire_timer_c in H. destruct (timer_applies (set_timers c ts) b).
      * right. right. exists b, (timeout_408 (set_timers c ts)), ts. exact H.
      * inversion H; subst. left. split; [reflexivity|]. exists ts. reflexivity.
    + inversion H; subst. left. split; [reflexivity|]. exists (cx_timers c'). symmetry. apply Z.
Qed.
Lemma inv_add : forall c l b t c', inv c l -> add_branch c b t = Ok c' -> inv c' (l ++ [Added b]).
Proof.
  intros c l b t c' [K B T N0] H. unfold add_branch in H. destruct (add_check c); [|discriminate].
  unfold add_insert in H. destruct (MAX_BRANCHES_PER_CONTEXT <=? llen (cx_branches c)) eqn:L; [discriminate|].
  inversion H; subst. constructor.
  - apply core_add; [exact K|lia].
  - cbn. rewrite finals_app. cbn. rewrite app_nil_r. exact B.
  - cbn. rewrite finals_app. cbn. rewrite app_nil_r. exact T.
  - intros O. pose proof (N0 (one_prefix _ _ O)) as Z. cbn [cx_count set_count]. rewrite finals_app, added_app. cbn [finals added flat_map app]. rewrite app_nil_r, llen_app, llen_one. lia.
Qed.
Lemma inv_step : forall c l o c' ev, inv c l -> pstep ord c o = (c', ev) -> inv c' (l ++ ev).
Proof.
  intros c l o c' ev I H. apply step_cases in H.
  destruct H as [[-> [ts ->]]|[(b & t & -> & A & ->)|(b & r & ts & P)]].
  - rewrite app_nil_r. apply inv_timers. exact I.
  - eapply inv_add; eassumption.
  - apply (inv_timers _ _ ts) in I. destruct (inv_process _ _ _ _ _ _ I P) as [I' _]. exact I'.
Qed.
(** a general induction principle: an invariant of states and logs *)
Lemma prun_ind : forall (P : ctx -> list event -> Prop),
  (forall c l o c' ev, inv c l -> P c l -> pstep ord c o = (c', ev) -> P c' (l ++ ev)) ->
  forall ops c l c' ev, inv c l -> P c l -> prun ord c ops = (c', ev) -> inv c' (l ++ ev) /\ P c' (l ++ ev).
Proof.
  intros P Hs. induction ops as [|o ops IH]; intros c l c' ev I Hp H; cbn in H.
  - inversion H; subst. rewrite app_nil_r. auto.
  - destruct (pstep ord c o) as [c1 l1] eqn:S. destruct (prun ord c1 ops) as [c2 l2] eqn:R.
    inversion H; subst. rewrite app_assoc. eapply IH; [|eapply Hs; eassumption|exact R].
    eapply inv_step; eassumption.
Qed.
Lemma inv_new : forall q, inv (ctx_new q) [].
Proof. intros q. constructor; try reflexivity. exact core_new. Qed.
Lemma prun_inv : forall q ops c l, prun ord (ctx_new q) ops = (c, l) -> inv c l.
Proof.
  intros q ops c l H.
  destruct (prun_ind (fun _ _ => True) (fun _ _ _ _ _ _ _ _ => I) ops (ctx_new q) [] c l (inv_new q) I H) as [J _].
  exact J.
Qed.

(** every event logged by a step satisfies [Q] *)
Lemma prun_always : forall (Q : list event -> event -> Prop),
  (forall l b, Q l (Added b)) -> (forall l b r, Q l (Got b r)) ->
  (forall c l b r c' k x, inv c l -> process ord c b r = (c', [Got b r; Sent k x]) -> inv c' (l ++ [Got b r]) ->
     Q (l ++ [Got b r]) (Sent k x)) ->
  forall q ops c l, prun ord (ctx_new q) ops = (c, l) -> always Q l.
Proof.
  intros Q Qa Qg Qs q ops c l H.
  destruct (prun_ind (fun _ l => always Q l)) with (ops := ops) (c := ctx_new q) (l := @nil event) (c' := c) (ev := l) as [_ A];
    [|apply inv_new|apply always_nil|exact H|exact A].
  clear - Qa Qg Qs ord_ok. intros c l o c' ev I A S. apply step_cases in S.
  destruct S as [[-> _]|[(b & t & -> & _ & ->)|(b & r & ts & P)]].
  - rewrite app_nil_r. exact A.
  - apply always_snoc; [exact A|apply Qa].
  - apply (inv_timers _ _ ts) in I. pose proof (inv_process _ _ _ _ _ _ I P) as [_ [-> | (tl & -> & I1 & _)]]; [now rewrite app_nil_r|].
    assert (T : tl = [] \/ exists k x, tl = [Sent k x]).
    { pose proof P as P'. apply process_cases in P'.
      destruct P' as [(_ & _ & E)|(c1 & _ & [(_ & _ & E)|[(_ & _ & _ & _ & E)|[(_ & _ & _ & _ & _ & E)|(_ & _ & _ & E)]]])];
        try discriminate; injection E as ->; try (right; eauto; fail).
      unfold finish. destruct (cx_count c' =? 0); [|now left]. destruct (cx_best c'); [right; eauto|now left]. }
    destruct T as [-> | (k & x & ->)].
    + apply always_snoc; [exact A|apply Qg].
    + change [Got b r; Sent k x] with ([Got b r] ++ [Sent k x]). rewrite app_assoc.
      apply always_snoc; [apply always_snoc; [exact A|apply Qg]|]. eapply Qs; eassumption.
Qed.

Lemma final_code : forall r r', p_code r = p_code r' -> is_final r = is_final r'.
Proof. intros r r' E. unfold is_final. now rewrite E. Qed.
Lemma best_final_is : forall rs r, forallb is_final rs = true -> best_fold rs = Some r -> is_final r = true.
Proof.
  intros rs r F H. apply (best_fold_spec _ _ F) in H. destruct H as (a & b & -> & _).
  rewrite forallb_app in F. apply andb_prop in F. destruct F as [_ F]. cbn in F. now apply andb_prop in F.
Qed.
Lemma adds_weaken : forall (P P' : resp -> Prop) a b, (forall x, P x -> P' x) -> adds_challenges P a b -> adds_challenges P' a b.
Proof.
  intros P P' a b W (A & B & C & extra & E & H). split; [exact A|]. split; [exact B|]. split; [exact C|].
  exists extra. split; [exact E|]. intros h Hh. destruct (H h Hh) as [G (x & Px & Q)].
  split; [exact G|]. exists x. split; [apply W; exact Px|exact Q].
Qed.
Lemma adds_refl : forall P a, adds_challenges P a a.
Proof. intros P a. repeat split. exists []. rewrite app_nil_r. split; [reflexivity|intros h []]. Qed.

Definition done_of (c : ctx) (best : resp) : resp := if is_challenge best then aggregate ord c best else best.
Lemma finish_sent : forall c k x, finish ord c = [Sent k x] ->
  exists best, cx_count c = 0 /\ cx_best c = Some best /\ k = Done /\ x = done_of c best.
Proof.
  intros c k x H. unfold finish in H. destruct (cx_count c =? 0) eqn:Z; [|discriminate].
  destruct (cx_best c) as [best|]; [|discriminate]. inversion H; subst. exists best. split; [lia|auto].
Qed.
Lemma core_stored : forall m l b br x, core m l -> In (b, br) m -> br_resp br = Some x -> last_resp b l = Some x.
Proof.
  intros m l b br x K Hi R. rewrite <- R. symmetry. apply (k_resp _ _ K).
  apply (in_lookup _ str_eqb_spec); [exact (k_nodup _ _ K)|exact Hi].
Qed.
Lemma done_adds : forall c l best, core (cx_branches c) l ->
  adds_challenges (fun x => exists b, last_resp b l = Some x) best (done_of c best).
Proof.
  intros c l best K. unfold done_of. destruct (is_challenge best); [|apply adds_refl].
  eapply adds_weaken; [|apply aggregate_adds]. intros x (b & br & Hi & R). exists b. eapply core_stored; eassumption.
Qed.
Lemma process_done : forall c l b r c' k x, inv c l -> process ord c b r = (c', [Got b r; Sent k x]) ->
  (k = Done /\ exists best, cx_count c' = 0 /\ cx_best c' = Some best /\ x = done_of c' best /\ is_final r = true) \/
  (k = Now /\ x = r /\ is_final r = true /\ (is_2xx r = true \/ is_6xx r = true)) \/ (k = Prov /\ x = r /\ is_final r = false).
Proof.
  intros c l b r c' k x I P. apply process_cases in P.
  destruct P as [(_ & _ & E)|(c1 & _ & [(F & _ & E)|[(F & _ & X & _ & E)|[(F & _ & X & _ & _ & E)|(F & _ & _ & E)]]])]; try discriminate.
  - injection E as -> ->. auto.
  - injection E as -> ->. auto 8.
  - injection E as -> ->. auto 8.
  - injection E as E. symmetry in E. apply finish_sent in E. destruct E as (best & Z & B & -> & ->).
    left. split; [reflexivity|]. exists best. auto.
Qed.

Lemma all_done : forall m l, core m l -> one_final_each l -> llen (finals l) = llen (added l) -> all_finished l.
Proof.
  intros m l K [A B] E b Hb. unfold llen in E. rewrite <- finished_finals in E.
  apply (NoDup_length_incl B (l' := added l)); [lia|exact (k_fin _ _ K)|exact Hb].
Qed.

Lemma seq_best : forall q ops c l, prun ord (ctx_new q) ops = (c, l) ->
  always (fun l1 e => match e with
    | Sent Done r => exists r0, best_of (finals l1) r0
        /\ adds_challenges (fun x => exists b, last_resp b l1 = Some x) r0 r
    | _ => True end) l.
Proof.
  apply prun_always; auto.
  intros c l b r c' k x I P I1. destruct (process_done _ _ _ _ _ _ _ I P) as [(-> & best & Z & B & -> & F)|[(-> & _)|(-> & _)]]; auto.
  exists best. split.
  - apply best_fold_spec; [apply finals_final|]. rewrite <- (i_best _ _ I1). exact B.
  - apply done_adds. exact (i_core _ _ I1).
Qed.
Lemma seq_challenges : forall q ops c l, prun ord (ctx_new q) ops = (c, l) ->
  always (fun l1 e => match e with
    | Sent Done r => is_challenge r = true -> llen (p_headers r) < MAX_HEADERS ->
        (forall b x h, In (Got b x) l1 -> In h (p_headers x) -> validate_header_value (snd h) = None) ->
        forall b x name, In b (added l1) -> last_resp b l1 = Some x -> is_challenge x = true -> name = WWW \/ name = PRX ->
          incl (hget_all name (p_headers x)) (hget_all name (p_headers r))
    | _ => True end) l.
Proof.
  apply prun_always; auto.
  intros c l b r c' k x I P I1. destruct (process_done _ _ _ _ _ _ _ I P) as [(-> & best & Z & B & -> & F)|[(-> & _)|(-> & _)]]; auto.
  intros Cr L V b0 x name Hb R Cx Hn. pose proof (i_core _ _ I1) as K.
  unfold done_of in *. destruct (is_challenge best) eqn:Cb; [|congruence].
  apply (k_keys _ _ K) in Hb.
  destruct (lookup str_eqb b0 (cx_branches c')) as [br|] eqn:Lk; [|apply (lookup_none _ str_eqb_spec) in Lk; tauto].
  pose proof (k_resp _ _ K _ _ Lk) as Rb. rewrite R in Rb.
  eapply aggregate_full; eauto.
  - apply (lookup_in _ str_eqb_spec). exact Lk.
  - intros b1 br1 x1 v Hi R1 Hv.
    pose proof (core_stored _ _ _ _ _ K Hi R1) as Lr.
    assert (G : exists b2, In (Got b2 x1) (l ++ [Got b r])).
    { clear - Lr. revert Lr. generalize (l ++ [Got b r]). intros l0. induction l0 as [|e l0 IH] using rev_ind; [discriminate|].
      rewrite last_resp_app. cbn [fold_left]. destruct e as [b2|b2 r2|k2 r2].
      - destruct (str_eqb b1 b2); [discriminate|]. intros H. destruct (IH H) as [b3 H3]. exists b3. apply in_or_app. auto.
      - destruct (str_eqb b1 b2); intros H.
        + injection H as ->. exists b2. apply in_or_app. right. now left.
        + destruct (IH H) as [b3 H3]. exists b3. apply in_or_app. auto.
      - intros H. destruct (IH H) as [b3 H3]. exists b3. apply in_or_app. auto. }
    destruct G as [b2 G].
    assert (Hh : exists h, In h (p_headers x1) /\ snd h = v).
    { unfold hget_all in Hv. destruct Hv as [Hv|Hv]; apply in_map_iff in Hv; destruct Hv as [h [E Hh]];
        apply filter_In in Hh; exists h; tauto. }
    destruct Hh as (h & Hh & <-). eapply V; eassumption.
Qed.
Lemma seq_when : forall q ops c l, prun ord (ctx_new q) ops = (c, l) ->
  always (fun l1 e => match e with
    | Sent k r => is_final r = true -> one_final_each l1 ->
        (exists b, In (Got b r) l1 /\ (is_2xx r = true \/ is_6xx r = true)) \/ all_finished l1
    | _ => True end) l.
Proof.
  apply prun_always; auto.
  intros c l b r c' k x I P I1 F O.
  destruct (process_done _ _ _ _ _ _ _ I P) as [(-> & best & Z & B & -> & Fr)|[(-> & -> & _ & X)|(-> & -> & Fr)]].
  - right. pose proof (i_count _ _ I1 O) as E. rewrite Z in E.
    eapply all_done; [exact (i_core _ _ I1)|exact O|lia].
  - left. exists b. split; [apply in_or_app; right; now left|exact X].
  - congruence.
Qed.
Lemma seq_one : forall q ops c l, prun ord (ctx_new q) ops = (c, l) ->
  one_final_each l -> forked_at_once l -> (forall r, In r (finals l) -> is_6xx r = false) ->
  (length (sent_failures l) <= 1)%nat.
Proof.
  intros q ops c l H.
  assert (X : one_final_each l -> forked_at_once l -> (forall r, In r (finals l) -> is_6xx r = false) ->
     sent_failures l = [] \/ (length (sent_failures l) = 1%nat /\ llen (finals l) = llen (added l) /\ finals l <> [])).
  2:{ intros A B C. destruct (X A B C) as [-> | [-> _]]; cbn; lia. }
  destruct (prun_ind (fun _ l => one_final_each l -> forked_at_once l -> (forall r, In r (finals l) -> is_6xx r = false) ->
     sent_failures l = [] \/ (length (sent_failures l) = 1%nat /\ llen (finals l) = llen (added l) /\ finals l <> [])))
    with (ops := ops) (c := ctx_new q) (l := @nil event) (c' := c) (ev := l) as [_ A];
    [|apply inv_new|left; reflexivity|exact H|exact A].
  clear - ord_ok. intros c l o c' ev I A S O Fk N6.
  specialize (A (one_prefix _ _ O) (always_prefix _ _ _ Fk)).
  assert (N6' : forall r, In r (finals l) -> is_6xx r = false).
  { intros r Hr. apply N6. rewrite finals_app. apply in_or_app. now left. }
  specialize (A N6'). apply step_cases in S.
  destruct S as [[-> _]|[(b & t & -> & _ & ->)|(b & r & ts & P)]].
  - rewrite app_nil_r. exact A.
  - rewrite sent_failures_app. cbn. rewrite app_nil_r. destruct A as [A|(_ & _ & A)]; [now left|].
    exfalso. apply A. apply always_at in Fk. exact Fk.
  - apply (inv_timers _ _ ts) in I. pose proof (inv_process _ _ _ _ _ _ I P) as [_ [-> | (tl & -> & I1 & _)]]; [now rewrite app_nil_r|].
    apply process_cases in P.
    change (Got b r :: tl) with ([Got b r] ++ tl) in O, Fk, N6. rewrite app_assoc in O, Fk, N6.
    apply one_prefix in O.
    destruct P as [(_ & _ & E)|(c1 & _ & [(F & _ & E)|[(F & _ & X & _ & E)|[(F & _ & X & _ & _ & E)|(F & _ & _ & E)]]])];
      try discriminate; injection E as ->.
    + rewrite sent_failures_app, finals_app, added_app. unfold sent_failures at 2 4. cbn. rewrite F. cbn. rewrite !app_nil_r. exact A.
    + assert (G : llen (finals l) < llen (added l)).
      { pose proof (one_bound _ _ (i_core _ _ I1) O) as L. rewrite finals_got in L by exact F.
        rewrite added_app in L. cbn in L. rewrite app_nil_r, llen_app in L. unfold llen at 2 in L. cbn in L. lia. }
      destruct A as [A|(_ & A & _)]; [|lia]. left. rewrite sent_failures_app, A.
      unfold sent_failures. cbn. rewrite F. cbn. rewrite X. reflexivity.
    + exfalso. specialize (N6 r). rewrite finals_app, finals_got in N6 by exact F.
      rewrite N6 in X; [discriminate|]. apply in_or_app. left. apply in_or_app. right. now left.
    + assert (G : llen (finals l) < llen (added l)).
      { pose proof (one_bound _ _ (i_core _ _ I1) O) as L. rewrite finals_got in L by exact F.
        rewrite added_app in L. cbn in L. rewrite app_nil_r, llen_app in L. unfold llen at 2 in L. cbn in L. lia. }
      destruct A as [A|(_ & A & _)]; [|lia].
      change (Got b r :: finish ord c') with ([Got b r] ++ finish ord c'). rewrite app_assoc.
      rewrite sent_failures_app, (sent_failures_app l), A.
      change (sent_failures [Got b r]) with (@nil resp). cbn [app].
      pose proof (i_count _ _ I1 O) as E.
      unfold finish. destruct (cx_count c' =? 0) eqn:Z; [|now left].
      destruct (cx_best c') as [best|]; [|now left].
      assert (G2 : forall x, sent_failures [Sent Done x] = [] \/ length (sent_failures [Sent Done x]) = 1%nat).
      { intros x. unfold sent_failures. cbn. destruct (is_final x); cbn; [destruct (is_2xx x); cbn; auto|auto]. }
      match goal with |- context [sent_failures [Sent Done ?x]] => destruct (G2 x) as [G3|G3] end; [now left|].
      right. split; [exact G3|].
      rewrite finals_sent, added_app. cbn. rewrite app_nil_r. split; [lia|].
      rewrite finals_got by exact F. destruct (finals l); discriminate.
Qed.
End Order.
