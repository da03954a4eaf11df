(** Lemmas about the registrar model. *)
From Coq Require Import NArith Bool String List Lia ZifyBool ZifyN ZifyNat.
Import ListNotations.
From Verif Require Import Base BaseFacts Headers Text TextFacts Uri UriProofs Msg Auth AuthSpec AuthProofs AnyUri Registrar RegistrarSpec.
Open Scope N_scope.
Open Scope list_scope.

(** ** The entry of an address of record *)
Lemma entry_retain : forall a f st, entry a (retain_at a f st) = filter f (entry a st).
Proof.
  intros a f st. unfold entry, retain_at. induction st as [|[k l] st IH]; [reflexivity|].
  cbn [map fst lookup snd]. destruct (str_eqb a k) eqn:E; cbn [lookup]; rewrite E; [reflexivity|exact IH].
Qed.
Lemma entry_retain_other : forall a a' f st, a' <> a -> entry a' (retain_at a f st) = entry a' st.
Proof.
  intros a a' f st Hn. unfold entry, retain_at. induction st as [|[k l] st IH]; [reflexivity|].
  cbn [map fst lookup snd]. destruct (str_eqb a k) eqn:E; cbn [lookup]; destruct (str_eqb a' k) eqn:E'; try exact IH; [|reflexivity].
  apply str_eqb_spec in E, E'. congruence.
Qed.
Lemma keys_retain : forall a f st, keys (retain_at a f st) = keys st.
Proof.
  intros a f st. unfold keys, retain_at. rewrite map_map. apply map_ext. intros [k l]. cbn. now destruct (str_eqb a k).
Qed.
Lemma entry_insert : forall a l st, entry a (insert str_eqb a l st) = l.
Proof. intros. unfold entry. now rewrite (lookup_insert_same _ str_eqb_spec). Qed.
Lemma entry_insert_other : forall a a' l st, a' <> a -> entry a' (insert str_eqb a l st) = entry a' st.
Proof. intros. unfold entry. now rewrite (lookup_insert_other _ str_eqb_spec) by congruence. Qed.
Lemma entry_remove : forall a st, entry a (remove_key str_eqb a st) = [].
Proof. intros. unfold entry. now rewrite lookup_remove_same. Qed.
Lemma entry_remove_other : forall a a' st, a' <> a -> entry a' (remove_key str_eqb a st) = entry a' st.
Proof. intros. unfold entry. now rewrite (lookup_remove_other _ str_eqb_spec) by congruence. Qed.
Lemma entry_cleanup : forall a now st, NoDup (keys st) -> entry a (fst (cleanup now st)) = filter (live now) (entry a st).
Proof.
  intros a now st Hn. unfold cleanup, entry. cbn [fst]. induction st as [|[k l] st IH]; [reflexivity|].
  cbn [map fst snd filter lookup] in *. inversion Hn as [|? ? Hk Hr]; subst. specialize (IH Hr).
  destruct (str_eqb a k) eqn:E.
  - apply str_eqb_spec in E. subst k. destruct (filter (live now) l) as [|y ys] eqn:F; cbn [nonempty].
    + replace (lookup str_eqb a (filter (fun e => nonempty (snd e)) (map (fun e => (fst e, filter (live now) (snd e))) st))) with (@None (list stored)); [reflexivity|].
      symmetry. apply (lookup_none _ str_eqb_spec). intros Hi. apply Hk. unfold keys in *. apply in_map_iff in Hi.
      destruct Hi as ([k2 l2] & <- & Hi). apply filter_In in Hi. destruct Hi as [Hi _]. apply in_map_iff in Hi.
      destruct Hi as ([k3 l3] & E2 & Hi). injection E2 as -> _. apply (in_map fst) in Hi. exact Hi.
    + cbn [lookup]. now rewrite str_eqb_refl.
  - destruct (nonempty (filter (live now) l)); cbn [lookup]; rewrite ?E; exact IH.
Qed.
Lemma keys_cleanup : forall now st, NoDup (keys st) -> NoDup (keys (fst (cleanup now st))).
Proof.
  intros now st Hn. unfold cleanup, keys in *. cbn [fst].
  assert (K : map fst (map (fun e : str * list stored => (fst e, filter (live now) (snd e))) st) = map fst st)
    by (rewrite map_map; reflexivity).
  rewrite <- K in Hn. clear K. induction (map (fun e : str * list stored => (fst e, filter (live now) (snd e))) st) as [|x r IH]; [exact Hn|].
  cbn [map filter] in *. inversion Hn as [|? ? Hk Hr]; subst. destruct (nonempty (snd x)); [|auto].
  cbn [map]. constructor; [|auto]. intros Hi. apply Hk. apply in_map_iff in Hi. destruct Hi as (y & E & Hi).
  apply filter_In in Hi. rewrite <- E. now apply in_map.
Qed.
Lemma entry_in : forall a l st, NoDup (keys st) -> In (a, l) st -> entry a st = l.
Proof. intros. unfold entry. now rewrite (in_lookup _ str_eqb_spec a l st). Qed.
Lemma filter_llen : forall A (f : A -> bool) l, llen (filter f l) <= llen l.
Proof. intros A f l. induction l as [|x l IH]; [cbn; lia|]. cbn [filter]. destruct (f x); rewrite ?llen_cons; lia. Qed.
Lemma total_retain : forall a f st, total (retain_at a f st) <= total st.
Proof.
  intros a f st. induction st as [|[k l] st IH]; [cbn; lia|]. cbn [retain_at map fst total fold_right snd] in *.
  fold (retain_at a f st). fold (total (retain_at a f st)). fold (total st). pose proof (filter_llen _ f l). destruct (str_eqb a k); cbn [snd]; lia.
Qed.
Lemma total_remove : forall a st, NoDup (keys st) -> total st = llen (entry a st) + total (remove_key str_eqb a st).
Proof.
  intros a st Hn. induction st as [|[k l] st IH]; [reflexivity|]. cbn [keys map fst] in Hn. inversion Hn as [|? ? Hk Hr]; subst.
  unfold entry. cbn [lookup remove_key filter fst]. fold (remove_key str_eqb a st). destruct (str_eqb a k) eqn:E; cbn [negb].
  - apply str_eqb_spec in E. subst k. rewrite (remove_key_notin _ str_eqb_spec) by assumption. reflexivity.
  - cbn [total fold_right snd]. fold (total st). fold (total (remove_key str_eqb a st)). rewrite (IH Hr). unfold entry. lia.
Qed.
Lemma total_filter : forall (f : str * list stored -> bool) st, total (filter f st) <= total st.
Proof.
  intros f st. induction st as [|x st IH]; [cbn; lia|]. cbn [filter]. destruct (f x); cbn [total fold_right] in *; fold (total st) in *; fold (total (filter f st)) in *; lia.
Qed.
Lemma total_live : forall now st, total (map (fun e => (fst e, filter (live now) (snd e))) st) <= total st.
Proof.
  intros now st. induction st as [|[k l] st IH]; [cbn; lia|]. cbn [map fst snd total fold_right] in *.
  pose proof (filter_llen _ (live now) l). unfold total in IH. lia.
Qed.

(** ** The invariant of the store *)
Definition list_ok (l : list stored) : Prop := NoDup (map s_contact l) /\ llen l <= MAX_BINDINGS_PER_AOR.
Record sinv (st : store) : Prop := mkSinv {
  si_keys : NoDup (keys st); si_entry : forall a, list_ok (entry a st); si_total : total st <= MAX_TOTAL_BINDINGS }.
Lemma filter_nodup : forall (f : stored -> bool) l, NoDup (map s_contact l) -> NoDup (map s_contact (filter f l)).
Proof.
  intros f l. induction l as [|x l IH]; intros H; [exact H|]. cbn [map filter] in *. inversion H as [|? ? Hn Hr]; subst.
  destruct (f x); [|auto]. cbn [map]. constructor; [|auto]. intros Hi. apply Hn. apply in_map_iff in Hi. destruct Hi as (y & E & Hi).
  apply filter_In in Hi. rewrite <- E. apply in_map. tauto.
Qed.
Lemma filter_list_ok : forall f l, list_ok l -> list_ok (filter f l).
Proof. intros f l [A B]. split; [now apply filter_nodup|]. pose proof (filter_llen _ f l). lia. Qed.
Lemma other_spec : forall c b, other c b = true <-> s_contact b <> c.
Proof.
  intros c b. unfold other. rewrite negb_true_iff, str_eqb_neq. split; congruence.
Qed.
Lemma sinv_nil : sinv [].
Proof. constructor; [constructor| |cbn; lia]. intros a. split; [constructor|]. cbn. lia. Qed.
Lemma retain_inv : forall a f st, sinv st -> sinv (retain_at a f st).
Proof.
  intros a f st [K E T]. constructor.
  - now rewrite keys_retain.
  - intros a'. destruct (str_eq_dec a' a) as [->|Hn].
    + rewrite entry_retain. now apply filter_list_ok.
    + rewrite entry_retain_other by assumption. apply E.
  - pose proof (total_retain a f st). lia.
Qed.
Lemma upsert_cases : forall now b st, upsert now b st = (st, false) \/
  (total st < MAX_TOTAL_BINDINGS /\ llen (filter (other (b_contact b)) (entry (b_aor b) st)) < MAX_BINDINGS_PER_AOR /\
   upsert now b st = (insert str_eqb (b_aor b) (filter (other (b_contact b)) (entry (b_aor b) st)
                       ++ [mkStored (b_contact b) (now + b_expires b) (b_info b)]) st, true)).
Proof.
  intros now b st. unfold upsert, upsert_entry. destruct (MAX_TOTAL_BINDINGS <=? total st) eqn:E1; [now left|].
  destruct (MAX_BINDINGS_PER_AOR <=? llen (filter (other (b_contact b)) (entry (b_aor b) st))) eqn:E2; [now left|].
  right. split; [lia|]. split; [lia|]. reflexivity.
Qed.
Lemma upsert_inv : forall now b st, sinv st -> sinv (fst (upsert now b st)).
Proof.
  intros now b st I. destruct (upsert_cases now b st) as [-> | (T & L & ->)]; [exact I|]. destruct I as [K E T']. cbn [fst].
  set (l := filter (other (b_contact b)) (entry (b_aor b) st)) in *. constructor.
  - now apply (insert_nodup _ str_eqb_spec).
  - intros a. destruct (str_eq_dec a (b_aor b)) as [->|Hn].
    + rewrite entry_insert. split.
      * rewrite map_app. cbn [map s_contact]. apply (NoDup_Add (a := b_contact b) (l := map s_contact l)).
        -- replace (map s_contact l) with (map s_contact l ++ []) at 1 by apply app_nil_r. apply Add_app.
        -- split; [apply filter_nodup; apply E|]. intros Hi. apply in_map_iff in Hi. destruct Hi as (y & Ey & Hi).
           apply filter_In in Hi. destruct Hi as [_ Hi]. now apply other_spec in Hi.
      * rewrite llen_app, llen_cons. change (llen (@nil stored)) with 0. lia.
    + rewrite entry_insert_other by assumption. apply E.
  - unfold insert. cbn [total fold_right snd]. fold (total (remove_key str_eqb (b_aor b) st)).
    pose proof (total_remove (b_aor b) st K) as R. rewrite llen_app, llen_cons. change (llen (@nil stored)) with 0.
    pose proof (filter_llen _ (other (b_contact b)) (entry (b_aor b) st)) as F. fold l in F. lia.
Qed.
Lemma step_inv : forall st x, sinv st -> sinv (sop_step st x).
Proof.
  intros st [now o] I. destruct o as [b|a c|a|a|]; cbn [sop_step].
  - now apply upsert_inv.
  - now apply retain_inv.
  - destruct I as [K E T]. constructor.
    + now apply remove_key_nodup.
    + intros a'. unfold remove_all. destruct (str_eq_dec a' a) as [->|Hn].
      * rewrite entry_remove. split; [constructor|cbn; lia].
      * rewrite entry_remove_other by assumption. apply E.
    + pose proof (total_remove a st K). unfold remove_all. lia.
  - now apply retain_inv.
  - destruct I as [K E T]. constructor.
    + now apply keys_cleanup.
    + intros a. rewrite entry_cleanup by assumption. now apply filter_list_ok.
    + unfold cleanup. cbn [fst]. pose proof (total_live now st). pose proof (total_filter (fun e => nonempty (snd e)) (map (fun e => (fst e, filter (live now) (snd e))) st)). lia.
Qed.
Lemma run_inv : forall ops st, sinv st -> sinv (sop_run st ops).
Proof. induction ops as [|x ops IH]; intros st I; [exact I|]. apply IH. now apply step_inv. Qed.
Lemma reachable_inv : forall st, reachable st -> sinv st.
Proof. intros st [ops ->]. apply run_inv. apply sinv_nil. Qed.

(** ** Refinement of the reference *)
Definition refines (now : N) (st : store) (r : reference) : Prop := forall a,
  (forall s, In s (entry a st) -> r a (s_contact s) = Some (s_until s, s_info s)) /\
  (forall c u i, r a c = Some (u, i) -> now < u -> In (mkStored c u i) (entry a st)).
Lemma refines_later : forall now t st r, now <= t -> refines now st r -> refines t st r.
Proof. intros now t st r L H a. destruct (H a) as [A B]. split; [exact A|]. intros c u i E U. apply B; [exact E|lia]. Qed.
Lemma ref_set_same : forall r a c v, ref_set r a c v a c = v.
Proof. intros. unfold ref_set. now rewrite !str_eqb_refl. Qed.
Lemma ref_set_other : forall r a c v a' c', a' <> a \/ c' <> c -> ref_set r a c v a' c' = r a' c'.
Proof.
  intros r a c v a' c' H. unfold ref_set. destruct (str_eqb a a') eqn:E1; [|reflexivity]. destruct (str_eqb c c') eqn:E2; [|reflexivity].
  apply str_eqb_spec in E1, E2. destruct H; congruence.
Qed.
Lemma step_refines : forall st x r now, sinv st -> refines now st r -> now <= fst x ->
  refines (fst x) (sop_step st x) (ref_step r (fst x) (snd x) (sop_accepted st x)).
Proof.
  intros st [t o] r now I R L. cbn [fst snd] in *. apply (refines_later now t) in R; [|exact L]. unfold sop_accepted. cbn [fst snd].
  destruct o as [b|a c|a|a|]; cbn [sop_step ref_step].
  - destruct (upsert_cases t b st) as [-> | (_ & _ & ->)]; [exact R|]. cbn [fst snd]. intros a. destruct (str_eq_dec a (b_aor b)) as [->|Hn].
    + rewrite entry_insert. destruct (R (b_aor b)) as [A B]. split.
      * intros s Hs. apply in_app_or in Hs. destruct Hs as [Hs|[<-|[]]].
        -- apply filter_In in Hs. destruct Hs as [Hs Ho]. apply other_spec in Ho. rewrite ref_set_other by auto. now apply A.
        -- cbn [s_contact s_until s_info]. apply ref_set_same.
      * intros c u i E U. destruct (str_eq_dec c (b_contact b)) as [->|Hc].
        -- rewrite ref_set_same in E. injection E as <- <-. apply in_or_app. right. now left.
        -- rewrite ref_set_other in E by auto. apply in_or_app. left. apply filter_In. split; [now apply B|]. now apply other_spec.
    + rewrite entry_insert_other by assumption. destruct (R a) as [A B]. split.
      * intros s Hs. rewrite ref_set_other by auto. now apply A.
      * intros c u i E U. rewrite ref_set_other in E by auto. now apply B.
  - intros a'. unfold remove_binding. destruct (R a') as [A B]. destruct (str_eq_dec a' a) as [->|Hn].
    + rewrite entry_retain. split.
      * intros s Hs. apply filter_In in Hs. destruct Hs as [Hs Ho]. apply other_spec in Ho. rewrite ref_set_other by auto. now apply A.
      * intros c' u i E U. destruct (str_eq_dec c' c) as [->|Hc]; [rewrite ref_set_same in E; discriminate|].
        rewrite ref_set_other in E by auto. apply filter_In. split; [now apply B|]. now apply other_spec.
    + rewrite entry_retain_other by assumption. split.
      * intros s Hs. rewrite ref_set_other by auto. now apply A.
      * intros c' u i E U. rewrite ref_set_other in E by auto. now apply B.
  - intros a'. unfold remove_all, ref_clear. destruct (R a') as [A B]. destruct (str_eq_dec a' a) as [->|Hn].
    + rewrite entry_remove, str_eqb_refl. split; [intros s []|discriminate].
    + rewrite entry_remove_other by assumption. replace (str_eqb a a') with false by (symmetry; apply str_eqb_neq; congruence). split; assumption.
  - intros a'. unfold lookup_aor, purge. cbn [fst]. destruct (R a') as [A B]. destruct (str_eq_dec a' a) as [->|Hn].
    + rewrite entry_retain. split.
      * intros s Hs. apply filter_In in Hs. now apply A.
      * intros c u i E U. apply filter_In. split; [now apply B|]. unfold live. cbn [s_until]. lia.
    + rewrite entry_retain_other by assumption. split; assumption.
  - intros a'. destruct (R a') as [A B]. rewrite entry_cleanup by apply I. split.
    + intros s Hs. apply filter_In in Hs. now apply A.
    + intros c u i E U. apply filter_In. split; [now apply B|]. unfold live. cbn [s_until]. lia.
Qed.
Lemma both_refines : forall ops st r now, sinv st -> refines now st r -> clock_from now ops ->
  let '(st', r') := both_run st r ops in sinv st' /\ refines (fold_left (fun _ x => fst x) ops now) st' r' /\ st' = sop_run st ops.
Proof.
  induction ops as [|x ops IH]; intros st r now I R C; cbn [both_run fold_left]; [exact (conj I (conj R eq_refl))|].
  destruct C as [L C]. specialize (IH (sop_step st x) (ref_step r (fst x) (snd x) (sop_accepted st x)) (fst x) (step_inv st x I) (step_refines st x r now I R L) C).
  destruct (both_run (sop_step st x) (ref_step r (fst x) (snd x) (sop_accepted st x)) ops) as [st' r']. exact IH.
Qed.
Lemma lookup_at_eq : forall t a st, lookup_at t a st = map (to_binding t a) (filter (live t) (entry a st)).
Proof.
  intros t a st. unfold lookup_at, lookup_aor, purge. cbn [snd]. rewrite entry_retain. f_equal.
  induction (entry a st) as [|s l IH]; [reflexivity|]. cbn [filter]. destruct (live t s) eqn:E; [|exact IH]. cbn [filter]. rewrite E. now f_equal.
Qed.

(** ** What later lookups see *)
Definition sel (c : str) (s : stored) : bool := str_eqb c (s_contact s).
Lemma filter_comm : forall A (f g : A -> bool) l, filter f (filter g l) = filter g (filter f l).
Proof.
  intros A f g l. induction l as [|x l IH]; [reflexivity|]. cbn [filter]. destruct (f x) eqn:F, (g x) eqn:G; cbn [filter]; rewrite ?F, ?G, IH; reflexivity.
Qed.
Lemma filter_impl : forall A (f g : A -> bool) l, (forall x, f x = true -> g x = true) -> filter f (filter g l) = filter f l.
Proof.
  intros A f g l H. induction l as [|x l IH]; [reflexivity|]. cbn [filter]. destruct (g x) eqn:G; cbn [filter]; [now rewrite IH|].
  destruct (f x) eqn:F; [|exact IH]. rewrite (H x F) in G. discriminate.
Qed.
Lemma live_later : forall now t s, now <= t -> live t s = true -> live now s = true.
Proof. intros now t s L. unfold live. lia. Qed.
Lemma same_bindings_entries : forall now st st',
  (forall a, filter (live now) (entry a st') = filter (live now) (entry a st)) -> same_bindings now st st'.
Proof.
  intros now st st' H t a L. rewrite !lookup_at_eq. f_equal.
  rewrite <- (filter_impl _ (live t) (live now) (entry a st')) by (intro; now apply live_later).
  rewrite <- (filter_impl _ (live t) (live now) (entry a st)) by (intro; now apply live_later). now rewrite H.
Qed.
Lemma same_bindings_refl : forall now st, same_bindings now st st.
Proof. intros now st t a L. reflexivity. Qed.
Lemma same_bindings_trans : forall now a b c, same_bindings now a b -> same_bindings now b c -> same_bindings now a c.
Proof. intros now a b c H1 H2 t x L. rewrite (H2 t x L). now apply H1. Qed.
Lemma purge_same : forall now a st, same_bindings now st (purge now a st).
Proof.
  intros now a st. apply same_bindings_entries. intros a'. unfold purge. destruct (str_eq_dec a' a) as [->|Hn].
  - rewrite entry_retain. now apply filter_impl.
  - now rewrite entry_retain_other by assumption.
Qed.
Lemma same_contact_entries : forall now st st' a c,
  filter (sel c) (filter (live now) (entry a st')) = filter (sel c) (filter (live now) (entry a st)) -> same_contact now st st' a c.
Proof.
  intros now st st' a c H t b L E. rewrite !lookup_at_eq, !in_map_iff.
  assert (K : forall s, s_contact s = c -> (In s (filter (live t) (entry a st')) <-> In s (filter (live t) (entry a st)))).
  { intros s Es. assert (X : forall l, In s (filter (live t) l) <-> In s (filter (sel c) (filter (live now) l)) /\ live t s = true).
    { intros l. rewrite !filter_In. unfold sel. rewrite Es, str_eqb_refl. pose proof (live_later now t s L). tauto. }
    rewrite (X (entry a st')), (X (entry a st)). now rewrite H. }
  split; intros (s & <- & Hs); exists s; (split; [reflexivity|]); cbn [to_binding b_contact] in E; now apply K.
Qed.
Lemma same_contact_refl : forall now st a c, same_contact now st st a c.
Proof. intros now st a c t b L E. tauto. Qed.
Lemma same_contact_trans : forall now s1 s2 s3 a c, same_contact now s1 s2 a c -> same_contact now s2 s3 a c -> same_contact now s1 s3 a c.
Proof. intros now s1 s2 s3 a c H1 H2 t b L E. rewrite (H2 t b L E). now apply H1. Qed.
Lemma same_bindings_contact : forall now st st' a c, same_bindings now st st' -> same_contact now st st' a c.
Proof. intros now st st' a c H t b L E. rewrite (H t a L). tauto. Qed.

Section Handler.
  Variable nfc : str -> str.
  Variable q_ok : str -> bool.
  Variable q_show : str -> str.
  Variable path_of : headers -> option (option str).
  Notation read_contact := (read_contact q_ok).
  Notation do_contacts := (do_contacts q_ok).
  Notation handle_register := (handle_register nfc q_ok q_show path_of).
  Notation register_aor := (register_aor nfc).

  Lemma read_uri : forall rc hs k ci, read_contact rc hs k = ReadOk ci -> contact_uri k = Some (ci_uri ci).
  Proof.
    intros rc hs k ci. unfold Registrar.read_contact. destruct (contact_uri k) as [u|]; [|discriminate].
    destruct (parse_any u) as [[| |]|]; try discriminate. destruct (parse_expires rc hs k); try discriminate.
    destruct (contact_param k (lit "q")) as [q|]; [|discriminate].
    match goal with |- (if ?b then _ else _) = _ -> _ => destruct b; [discriminate|] end.
    destruct (contact_param k (lit "+sip.instance")); [|discriminate].
    destruct (contact_param k (lit "reg-id")) as [[r|]|]; [|now intros [= <-]|discriminate].
    destruct (parse_uint u32_max r); [|discriminate]. now intros [= <-].
  Qed.
  Lemma binding_new_fields : forall a c e i b, binding_new a c e i = Some b -> b = mkBinding a c e i.
  Proof. intros a c e i b. unfold binding_new. match goal with |- (if ?x then _ else _) = _ -> _ => destruct x end; [congruence|discriminate]. Qed.

  Lemma sel_other : forall c c' l, c <> c' -> filter (sel c) (filter (other c') l) = filter (sel c) l.
  Proof.
    intros c c' l H. apply filter_impl. intros s Hs. unfold sel in Hs. apply str_eqb_spec in Hs. apply other_spec. congruence.
  Qed.
  Lemma upsert_keep : forall now b st a c, a <> b_aor b \/ c <> b_contact b ->
    filter (sel c) (entry a (fst (upsert now b st))) = filter (sel c) (entry a st).
  Proof.
    intros now b st a c H. destruct (upsert_cases now b st) as [-> | (_ & _ & ->)]; [reflexivity|]. cbn [fst].
    destruct (str_eq_dec a (b_aor b)) as [->|Hn].
    - destruct H as [H|H]; [congruence|]. rewrite entry_insert, filter_app, sel_other by assumption. cbn [filter].
      unfold sel at 2. cbn [s_contact]. replace (str_eqb c (b_contact b)) with false by (symmetry; now apply str_eqb_neq). apply app_nil_r.
    - now rewrite entry_insert_other by assumption.
  Qed.
  Lemma remove_keep : forall a' c' st a c, a <> a' \/ c <> c' ->
    filter (sel c) (entry a (remove_binding a' c' st)) = filter (sel c) (entry a st).
  Proof.
    intros a' c' st a c H. unfold remove_binding. destruct (str_eq_dec a a') as [->|Hn].
    - destruct H as [H|H]; [congruence|]. rewrite entry_retain. now apply sel_other.
    - now rewrite entry_retain_other by assumption.
  Qed.
  Lemma do_keep : forall rc now hs x existing cs st st' e, do_contacts rc now hs x existing cs st = (st', e) ->
    forall a c, a <> rx_aor x \/ (forall k, In k cs -> contact_uri k <> Some c)
                \/ out_of_order existing c (rx_call_id x) (rx_cseq x) = true ->
    filter (sel c) (entry a st') = filter (sel c) (entry a st).
  Proof.
    intros rc now hs x existing cs. induction cs as [|k cs IH]; intros st st' e H a c Hc; cbn [Registrar.do_contacts] in H; [now injection H as <- <-|].
    destruct (read_contact rc hs k) as [ci| |] eqn:R; [|now injection H as <- <-|now injection H as <- <-].
    destruct (out_of_order existing (ci_uri ci) (rx_call_id x) (rx_cseq x)) eqn:O; [now injection H as <- <-|].
    assert (Hne : a <> rx_aor x \/ c <> ci_uri ci).
    { destruct Hc as [Hc|[Hc|Hc]]; [now left| |].
      - right. intros ->. apply (Hc k (or_introl eq_refl)). now apply (read_uri rc hs).
      - right. intros ->. congruence. }
    assert (Hc' : a <> rx_aor x \/ (forall k, In k cs -> contact_uri k <> Some c) \/ out_of_order existing c (rx_call_id x) (rx_cseq x) = true).
    { destruct Hc as [Hc|[Hc|Hc]]; auto. right. left. intros k' Hk. apply Hc. now right. }
    destruct (ci_secs ci =? 0).
    - rewrite (IH _ _ _ H a c Hc'). now apply remove_keep.
    - match type of H with (match ?bn with Some _ => _ | None => _ end) = _ => destruct bn as [b|] eqn:B; [|now injection H as <- <-] end.
      apply binding_new_fields in B. pose proof (upsert_keep now b st a c) as U. rewrite B in U at 1 2. cbn [b_aor b_contact] in U.
      destruct (upsert now b st) as [st1 ok]. cbn [fst] in U. destruct ok.
      + rewrite (IH _ _ _ H a c Hc'). now apply U.
      + injection H as <- <-. now apply U.
  Qed.
  Lemma do_keep_aor : forall rc now hs x existing cs st st' e, do_contacts rc now hs x existing cs st = (st', e) ->
    forall a, a <> rx_aor x -> entry a st' = entry a st.
  Proof.
    intros rc now hs x existing cs. induction cs as [|k cs IH]; intros st st' e H a Ha; cbn [Registrar.do_contacts] in H; [now injection H as <- <-|].
    destruct (read_contact rc hs k) as [ci| |] eqn:R; [|now injection H as <- <-|now injection H as <- <-].
    destruct (out_of_order existing (ci_uri ci) (rx_call_id x) (rx_cseq x)) eqn:O; [now injection H as <- <-|].
    destruct (ci_secs ci =? 0).
    - rewrite (IH _ _ _ H a Ha). unfold remove_binding. now apply entry_retain_other.
    - match type of H with (match ?bn with Some _ => _ | None => _ end) = _ => destruct bn as [b|] eqn:B; [|now injection H as <- <-] end.
      apply binding_new_fields in B. destruct (upsert_cases now b st) as [E | (_ & _ & E)]; rewrite E in H.
      + now injection H as <- <-.
      + rewrite (IH _ _ _ H a Ha). apply entry_insert_other. now rewrite B.
  Qed.

  (** the ways a request can end *)
  Lemma handle_cases : forall rc now tag date limited an hs st st' ans,
    handle_register rc now tag date limited an hs st = (st', ans) ->
    (st' = st /\ (an = AuthRejected ans \/ exists code, code <> 200 /\ ans = error tag code hs))
    \/ exists aor cseq, limited = false /\ (forall c, an <> AuthRejected c)
        /\ (forall n, In n required -> is_some (hget n hs) = true)
        /\ register_aor an hs = Ok aor /\ register_cseq hs = Some cseq /\ contact_headers hs <> []
        /\ ((exists k, contact_headers hs = [k] /\ trim k = lit "*" /\ st' = remove_all aor st
             /\ (exists v, header_of hs (lit "Expires") = Some v /\ parse_uint u64_max v = Some 0)
             /\ ans = respond 200 (copied tag hs ++ [(lit "Contact", lit "*"); (lit "Date", date); (lit "Content-Length", lit "0")]))
           \/ (~ wildcard hs /\ exists path st2 e, path_of hs = Some path
               /\ do_contacts rc now hs (mkRx aor (match header_of hs (lit "Call-ID") with Some c => c | None => [] end) cseq
                        (header_of hs (lit "User-Agent")) path) (lookup_at now aor st) (contact_headers hs) (purge now aor st) = (st2, e)
               /\ ((e = LFail /\ st' = st2 /\ ans = Failed)
                   \/ (exists code, e = LCode code /\ st' = st2 /\ ans = if code =? 423 then too_brief tag rc hs else error tag code hs)
                   \/ (e = LDone /\ st' = purge now aor st2
                       /\ ans = respond 200 (copied tag hs
                            ++ map (fun b => (lit "Contact", format_contact q_show b)) (lookup_at now aor st2)
                            ++ map (fun p => (lit "Path", p)) (distinct_paths [] (lookup_at now aor st2))
                            ++ [(lit "Date", date); (lit "Content-Length", lit "0")]))))).
  Proof.
    intros rc now tag date limited an hs st st' ans H. unfold Registrar.handle_register in H.
    assert (Bad : forall code, code <> 200 -> (st, error tag code hs) = (st', ans) ->
      st' = st /\ (an = AuthRejected ans \/ exists code, code <> 200 /\ ans = error tag code hs)).
    { intros code Hc E. injection E as <- <-. split; [reflexivity|]. right. now exists code. }
    destruct (forallb (fun n => is_some (hget n hs)) required) eqn:Rq; cbn [negb] in H; [|left; now apply (Bad 400)].
    destruct limited; [left; now apply (Bad 503)|].
    destruct an as [| |ch] eqn:Ean; [| |injection H as <- <-; left; split; [reflexivity|now left]].
    all: rewrite <- Ean in *.
    all: destruct (register_aor an hs) as [aor|code] eqn:Ra;
      [|left; apply (Bad code); [|exact H]; clear - Ra; unfold Registrar.register_aor in Ra;
        repeat match type of Ra with
        | (match ?x with _ => _ end) = _ => destruct x
        | (if ?x then _ else _) = _ => destruct x
        end; try discriminate; injection Ra as <-; discriminate].
    all: destruct (register_cseq hs) as [cseq|] eqn:Rc; [|left; now apply (Bad 400)].
    all: destruct (contact_headers hs) as [|k0 cs] eqn:Rk; [left; now apply (Bad 400)|].
    all: set (star := existsb (fun c => str_eqb (trim c) (lit "*")) (k0 :: cs)) in *.
    all: destruct (star && negb (llen (k0 :: cs) =? 1)) eqn:S1; [left; now apply (Bad 400)|].
    all: assert (Rq' : forall n, In n required -> is_some (hget n hs) = true)
      by (intros n Hn; rewrite forallb_forall in Rq; now apply Rq).
    all: assert (Hrej : forall c, an <> AuthRejected c) by (rewrite Ean; discriminate).
    all: destruct star eqn:S2.
    1,3: destruct (header_of hs (lit "Expires")) as [v|] eqn:Ex; [|left; now apply (Bad 400)];
      destruct (parse_uint u64_max v) as [n|] eqn:Pn; [|left; now apply (Bad 400)];
      destruct (n =? 0) eqn:N0; [|left; now apply (Bad 400)];
      injection H as <- <-; right; exists aor, cseq;
      (split; [reflexivity|]; split; [exact Hrej|]; split; [exact Rq'|]; split; [reflexivity|]; split; [reflexivity|]; split; [discriminate|]);
      left; exists k0; cbn [andb] in S1;
      (assert (cs = []) as -> by (destruct cs as [|k1 cs]; [reflexivity|]; rewrite !llen_cons in S1; lia));
      (split; [reflexivity|]);
      (split; [unfold star in S2; cbn [existsb] in S2; rewrite orb_false_r in S2; now apply str_eqb_spec|]);
      (split; [reflexivity|]); (split; [exists v; split; [reflexivity|]; apply N.eqb_eq in N0; now subst n|]); reflexivity.
    all: destruct (path_of hs) as [path|] eqn:Ph; [|left; now apply (Bad 400)].
    all: unfold lookup_aor at 1 in H; cbn [fst snd] in H;
      change (map (to_binding now aor) (filter (live now) (entry aor (purge now aor st)))) with (lookup_at now aor st) in H.
    all: match type of H with (let '(_, _) := ?d in _) = _ => destruct d as [st2 e] eqn:D end.
    all: right; exists aor, cseq;
      (split; [reflexivity|]; split; [exact Hrej|]; split; [exact Rq'|]; split; [reflexivity|]; split; [reflexivity|]; split; [discriminate|]);
      right; split; [intros (k & Hk & Et); rewrite Rk in Hk; unfold star in S2;
                     assert (X : existsb (fun c => str_eqb (trim c) (lit "*")) (k0 :: cs) = true)
                       by (apply existsb_exists; exists k; split; [exact Hk|]; rewrite Et; reflexivity); congruence|];
      exists path, st2, e; split; [reflexivity|]; split; [exact D|].
    all: destruct e as [|code|]; [right; right|right; left; exists code|left]; injection H as <- <-; auto.
  Qed.
End Handler.

(** ** Addresses of record *)
Definition tel_inv (t : tel_uri) : Prop :=
  mem 59 (t_number t) = false /\ existsb is_digit (t_number t) = true /\ t_global t = starts_plus (t_number t)
  /\ is_some (t_context t) = negb (t_global t).
Definition any_inv (u : any_uri) : Prop :=
  match u with ASip u => uri_inv u /\ lower (u_host u) = u_host u | ATel t => tel_inv t | AAbs _ => True end.

Lemma existsb_filter : forall A (f g : A -> bool) l, (forall x, f x = true -> g x = true) -> existsb f (filter g l) = existsb f l.
Proof.
  intros A f g l H. induction l as [|x l IH]; [reflexivity|]. cbn [filter existsb]. destruct (g x) eqn:G; cbn [existsb]; [now rewrite IH|].
  destruct (f x) eqn:F; [|exact IH]. rewrite (H x F) in G. discriminate.
Qed.
Lemma digit_not_sep : forall c, is_digit c = true -> negb (visual_sep c) = true.
Proof.
  intros c H. unfold visual_sep. cbn [existsb lit]. unfold is_digit, in_range in H.
  apply negb_true_iff. repeat rewrite orb_false_iff. cbn. repeat split; lia.
Qed.
Lemma strip_digit : forall s, existsb is_digit (strip_seps s) = existsb is_digit s.
Proof. intros s. unfold strip_seps. apply existsb_filter. apply digit_not_sep. Qed.
Lemma filter_mem : forall (f : N -> bool) c s, mem c s = false -> mem c (filter f s) = false.
Proof.
  intros f c s. induction s as [|x s IH]; intros H; [reflexivity|]. apply mem_cons_false in H. destruct H as [H1 H2]. cbn [filter].
  destruct (f x); [|auto]. apply mem_cons_false. auto.
Qed.
Lemma starts_plus_strip : forall s, starts_plus s = true -> starts_plus (strip_seps s) = true.
Proof.
  intros s H. destruct s as [|c s]; [discriminate|]. cbn [starts_plus] in H. apply N.eqb_eq in H. subst c. reflexivity.
Qed.
Lemma validate_number_digit : forall s, validate_number s = true -> existsb is_digit s = true.
Proof.
  intros s H. destruct s as [|c s]; [discriminate|]. unfold validate_number in H. destruct (_ <? _); [discriminate|].
  destruct (existsb is_control _); [discriminate|]. destruct (c =? 43).
  - apply andb_true_iff in H. cbn [existsb]. rewrite (proj2 H). apply orb_true_r.
  - apply andb_true_iff in H. tauto.
Qed.
Lemma tel_parse_inv : forall s t, tel_parse s = Some t -> tel_inv t.
Proof.
  intros s t H. unfold tel_parse in H. destruct (strip_prefix (lit "tel:") s) as [rest|]; [|discriminate].
  set (num := trim (hd [] (split_on 59 rest))) in *. destruct (validate_number num) eqn:V; [|discriminate]. cbn [negb] in H.
  destruct (fold_opt tel_add (tl (split_on 59 rest)) ([], None)) as [[ps ctx]|]; [|discriminate].
  assert (M : mem 59 num = false).
  { unfold num. apply trim_mem. destruct (split_on 59 rest) as [|p l] eqn:E; [reflexivity|]. cbn [hd].
    apply (split_on_nomem_parts 59 rest). rewrite E. now left. }
  apply validate_number_digit in V. destruct (starts_plus num) eqn:P.
  - cbn [negb andb] in H. destruct ctx as [c|]; [discriminate|]. cbn [is_some andb] in H. injection H as <-. split; cbn [t_number t_global t_context].
    + now apply filter_mem.
    + split; [now rewrite strip_digit|]. split; [symmetry; now apply starts_plus_strip|reflexivity].
  - cbn [negb andb] in H. destruct ctx as [c|]; [|discriminate]. cbn [is_none andb] in H. injection H as <-. split; cbn [t_number t_global t_context]; auto.
Qed.
Lemma parse_any_inv : forall s u, parse_any s = Some u -> any_inv u.
Proof.
  intros s u H. unfold parse_any in H. destruct (existsb is_control s); [discriminate|].
  destruct (starts_with (lit "tel:") s).
  { destruct (tel_parse s) as [t|] eqn:E; [|discriminate]. injection H as <-. now apply (tel_parse_inv s). }
  destruct (starts_with (lit "sip:") s || starts_with (lit "sips:") s).
  { destruct (parse_uri s) as [x|] eqn:E; [|discriminate]. injection H as <-. destruct (parse_uri_inv s x E) as (A & _ & B & _). now split. }
  destruct (parse_absolute s); [|discriminate]. now injection H as <-.
Qed.
Lemma without_headers_inv : forall u, any_inv u -> any_inv (any_without_headers u).
Proof.
  intros u H. destruct u as [u|t|x]; [|exact H|exact I]. destruct H as [H1 H2]. cbn [any_without_headers uri_step].
  destruct (u_headers u) as [|h hl]; [now split|]. split; [|exact H2]. unfold uri_inv, rebuild in *. cbn [u_user u_host u_port u_params u_headers].
  destruct H1 as (A & B & C & D & _). repeat (split; [assumption|]). repeat split; try constructor. cbn. apply N.le_0_l.
Qed.
Lemma name_addr_inv : forall v na, parse_name_addr v = Some na -> any_inv (na_uri na).
Proof.
  intros v na H. unfold parse_name_addr in H. destruct (trim v) as [|c r] eqn:T; [discriminate|]. rewrite <- T in H. clear c r T.
  assert (New : forall d u ps, na_new d u ps = Some na -> na_uri na = u).
  { intros d u ps E. unfold na_new in E. match type of E with (if ?b then _ else _) = _ => destruct b; [|discriminate] end. now injection E as <-. }
  destruct (scan_to 60 false false (trim v)) as [[before after]|].
  - destruct (scan_to 62 false false after) as [[inside rest]|]; [|discriminate]. destruct (na_params (trim rest)) as [ps|]; [|discriminate].
    destruct (parse_any (trim inside)) as [u|] eqn:E; [|discriminate]. rewrite (New _ _ _ H). apply without_headers_inv. now apply (parse_any_inv (trim inside)).
  - match type of H with (let '(_, _) := ?d in _) = _ => destruct d as [x p] end. destruct (parse_any (trim x)) as [u|] eqn:E; [|discriminate].
    destruct (na_params p) as [ps|]; [|discriminate]. rewrite (New _ _ _ H). apply without_headers_inv. now apply (parse_any_inv (trim x)).
Qed.
Lemma print_port_nomem : forall c p, is_digit c = false -> c <> 58 -> mem c (match p with Some p => lit ":" ++ print_N p | None => [] end) = false.
Proof.
  intros c p H1 H2. destruct p as [p|]; [|reflexivity]. change (lit ":" ++ print_N p) with (58 :: print_N p). apply mem_cons_false. split; [lia|]. now apply digits_nomem.
Qed.
Lemma identity_owner : forall u aor, any_inv u -> normalize_aor u = Some aor -> aor_identity aor = owner_of u.
Proof.
  intros u aor I H. destruct u as [u|t|x]; [| |discriminate]; injection H as <-.
  - destruct I as [(Hu & Hh & _) Hl]. unfold owner_of, sip_aor, aor_user.
    assert (Hp : mem 64 (lower (u_host u) ++ match u_port u with Some p => lit ":" ++ print_N p | None => [] end) = false).
    { rewrite mem_app, print_port_nomem by (reflexivity || discriminate). rewrite orb_false_r.
      rewrite Hl. apply host_nomem; [exact Hh|reflexivity]. }
    set (hp := lower (u_host u) ++ _) in *.
    destruct (u_user u) as [n|].
    + destruct (user_chars n Hu) as (Hn & _ & _ & _ & H64). rewrite (proj2 (rsplit_once_none 64 n) H64). destruct n as [|c r]; [congruence|].
      remember (c :: r) as n. unfold aor_identity. destruct (u_sips u).
      * change (lit "sips" ++ lit ":" ++ n ++ lit "@" ++ hp) with (lit "sips" ++ 58 :: (n ++ 64 :: hp)). rewrite split_once_app by reflexivity.
        change (eq_ic (lit "sips") (lit "tel")) with false. cbv iota. now rewrite split_once_app.
      * change (lit "sip" ++ lit ":" ++ n ++ lit "@" ++ hp) with (lit "sip" ++ 58 :: (n ++ 64 :: hp)). rewrite split_once_app by reflexivity.
        change (eq_ic (lit "sip") (lit "tel")) with false. cbv iota. now rewrite split_once_app.
    + unfold aor_identity. destruct (u_sips u).
      * change (lit "sips" ++ lit ":" ++ hp) with (lit "sips" ++ 58 :: hp). rewrite split_once_app by reflexivity.
        change (eq_ic (lit "sips") (lit "tel")) with false. cbv iota. now rewrite (proj2 (split_once_none 64 hp) Hp).
      * change (lit "sip" ++ lit ":" ++ hp) with (lit "sip" ++ 58 :: hp). rewrite split_once_app by reflexivity.
        change (eq_ic (lit "sip") (lit "tel")) with false. cbv iota. now rewrite (proj2 (split_once_none 64 hp) Hp).
  - destruct I as (M & D & _). unfold owner_of, tel_aor, aor_identity.
    set (num := strip_seps (t_number t)). set (rest := (if t_global t then [] else _) ++ _).
    change (lit "tel:" ++ num ++ rest) with (lit "tel" ++ 58 :: (num ++ rest)). rewrite split_once_app by reflexivity.
    change (eq_ic (lit "tel") (lit "tel")) with true. cbv iota.
    assert (E : hd [] (split_on 59 (num ++ rest)) = num).
    { assert (Mn : mem 59 num = false) by now apply filter_mem.
      assert (R : rest = [] \/ exists r, rest = 59 :: r).
      { unfold rest. destruct (t_global t); [|destruct (t_context t)]; cbn [app].
        2: right; eexists; reflexivity.
        all: destruct (tel_aor_params t) as [|[k v] l]; [now left|right]; cbn [flat_map print_param]; destruct v; eexists; reflexivity. }
      destruct R as [-> | [r ->]]; [rewrite app_nil_r, split_on_nomem by assumption; reflexivity|now rewrite split_on_app]. }
    rewrite E. destruct num as [|c r] eqn:En; [|reflexivity]. unfold num in En. rewrite <- strip_digit, En in D. discriminate.
Qed.

(** ** Consequences for the REGISTER handler *)
Lemma reachable_step : forall st x, reachable st -> reachable (sop_step st x).
Proof. intros st x [ops ->]. exists (ops ++ [x]). unfold sop_run. now rewrite fold_left_app. Qed.
Lemma push_all_app : forall l hs hs', push_all l hs = Some hs' -> hs' = hs ++ l.
Proof.
  induction l as [|[n v] l IH]; intros hs hs' H; cbn [push_all] in H; [injection H as <-; now rewrite app_nil_r|].
  unfold hpush in H. destruct (MAX_HEADERS <=? llen hs); [discriminate|]. unfold header_new in H.
  destruct (validate_header_name n); [discriminate|]. destruct (validate_header_value v); [discriminate|].
  rewrite (IH _ _ H), <- app_assoc. reflexivity.
Qed.
Lemma respond_ok : forall code l c r, respond code l = Answered c r -> c = code /\ r = l.
Proof.
  intros code l c r H. unfold respond in H. destruct (push_all l []) as [hs|] eqn:E; [|discriminate].
  apply push_all_app in E. cbn [app] in E. injection H as <- <-. auto.
Qed.
Lemma find_unique : forall (l : list binding) b, NoDup (map b_contact l) -> In b l ->
  find (fun x => str_eqb (b_contact b) (b_contact x)) l = Some b.
Proof.
  induction l as [|x l IH]; intros b Hn Hi; [contradiction|]. cbn [map] in Hn. inversion Hn as [|? ? Hx Hr]; subst. cbn [find].
  destruct Hi as [->|Hi]; [now rewrite str_eqb_refl|]. destruct (str_eqb (b_contact b) (b_contact x)) eqn:E; [|now apply IH].
  apply str_eqb_spec in E. exfalso. apply Hx. rewrite <- E. now apply in_map.
Qed.
Lemma lookup_at_nodup : forall st t a, sinv st -> NoDup (map b_contact (lookup_at t a st)).
Proof.
  intros st t a I. rewrite lookup_at_eq, map_map. cbn [to_binding b_contact].
  apply (filter_nodup (live t)). apply (si_entry st I a).
Qed.

Section Handler2.
  Variable nfc : str -> str.
  Variable q_ok : str -> bool.
  Variable q_show : str -> str.
  Variable path_of : headers -> option (option str).
  Notation read_contact := (read_contact q_ok).
  Notation do_contacts := (do_contacts q_ok).
  Notation handle_register := (handle_register nfc q_ok q_show path_of).
  Notation register_aor := (register_aor nfc).

  Lemma do_reachable : forall rc now hs x existing cs st st' e, do_contacts rc now hs x existing cs st = (st', e) -> reachable st -> reachable st'.
  Proof.
    intros rc now hs x existing cs. induction cs as [|k cs IH]; intros st st' e H R; cbn [Registrar.do_contacts] in H; [now injection H as <- <-|].
    destruct (read_contact rc hs k) as [ci| |]; [|now injection H as <- <-|now injection H as <- <-].
    destruct (out_of_order existing (ci_uri ci) (rx_call_id x) (rx_cseq x)); [now injection H as <- <-|].
    destruct (ci_secs ci =? 0).
    - apply (IH _ _ _ H). exact (reachable_step st (now, SRemove (rx_aor x) (ci_uri ci)) R).
    - match type of H with (match ?bn with Some _ => _ | None => _ end) = _ => destruct bn as [b|]; [|now injection H as <- <-] end.
      pose proof (reachable_step st (now, SUpsert b) R) as R'. cbn [sop_step] in R'. destruct (upsert now b st) as [st1 ok]. cbn [fst] in R'.
      destruct ok; [now apply (IH _ _ _ H)|now injection H as <- <-].
  Qed.
  Lemma register_about : forall an hs aor, register_aor an hs = Ok aor -> exists to, about hs to aor /\ any_inv to.
  Proof.
    intros an hs aor H. unfold Registrar.register_aor in H. destruct (header_of hs (lit "To")) as [v|] eqn:E1; [|discriminate].
    destruct (parse_name_addr v) as [na|] eqn:E2; [|discriminate]. destruct (normalize_aor (na_uri na)) as [x|] eqn:E3; [|discriminate].
    assert (x = aor) as ->. { destruct an; [congruence| |]; destruct (auth_username hs), (aor_identity x); try discriminate; destruct (usernames_equal nfc _ _); congruence. }
    exists (na_uri na). split; [now exists v, na|now apply (name_addr_inv v)].
  Qed.
  Lemma about_aor : forall hs to to' a a', about hs to a -> about hs to' a' -> a = a' /\ to = to'.
  Proof. intros hs to to' a a' (v & na & H1 & H2 & H3 & H4) (v' & na' & K1 & K2 & K3 & K4). assert (v = v') by congruence. subst v'. assert (na = na') by congruence. subst. split; congruence. Qed.

  Lemma handle_reachable : forall rc now tag date limited an hs st st' ans,
    handle_register rc now tag date limited an hs st = (st', ans) -> reachable st -> reachable st'.
  Proof.
    intros rc now tag date limited an hs st st' ans H R. apply handle_cases in H.
    destruct H as [[-> _]|(aor & cseq & _ & _ & _ & _ & _ & _ & [(k & _ & _ & -> & _)|(_ & path & st2 & e & _ & D & C)])]; [exact R| |].
    - exact (reachable_step st (now, SRemoveAll aor) R).
    - assert (R2 : reachable st2).
      { apply (do_reachable _ _ _ _ _ _ _ _ _ D). exact (reachable_step st (now, SLookup aor) R). }
      destruct C as [(_ & -> & _)|[(code & _ & -> & _)|(_ & -> & _)]]; [exact R2|exact R2|exact (reachable_step st2 (now, SLookup aor) R2)].
  Qed.
  Lemma handle_other_aor : forall rc now tag date limited an hs st st' ans to aor,
    handle_register rc now tag date limited an hs st = (st', ans) -> about hs to aor ->
    forall a, a <> aor -> entry a st' = entry a st.
  Proof.
    intros rc now tag date limited an hs st st' ans to aor H Ab a Ha. apply handle_cases in H.
    destruct H as [[-> _]|(aor' & cseq & _ & _ & _ & Ra & _ & _ & C)]; [reflexivity|].
    destruct (register_about _ _ _ Ra) as (to' & Ab' & _). destruct (about_aor _ _ _ _ _ Ab Ab') as [<- _].
    destruct C as [(k & _ & _ & -> & _)|(_ & path & st2 & e & _ & D & C)].
    - now apply entry_remove_other.
    - apply do_keep_aor with (a := a) in D; [|exact Ha]. unfold purge in D. rewrite entry_retain_other in D by assumption.
      destruct C as [(_ & -> & _)|[(code & _ & -> & _)|(_ & -> & _)]]; try exact D. unfold purge. now rewrite entry_retain_other by assumption.
  Qed.
  Lemma handle_none : forall rc now tag date limited an hs st st' ans,
    handle_register rc now tag date limited an hs st = (st', ans) -> (forall to aor, ~ about hs to aor) -> st' = st.
  Proof.
    intros rc now tag date limited an hs st st' ans H No. apply handle_cases in H.
    destruct H as [[-> _]|(aor' & cseq & _ & _ & _ & Ra & _)]; [reflexivity|].
    destruct (register_about _ _ _ Ra) as (to' & Ab' & _). now apply No in Ab'.
  Qed.
  Lemma out_of_order_in : forall (l : list binding) b cid n, NoDup (map b_contact l) -> In b l ->
    bi_call_id (b_info b) = cid -> n <= bi_cseq (b_info b) -> out_of_order l (b_contact b) cid n = true.
  Proof.
    intros l b cid n Hn Hi Hc Hs. unfold out_of_order. rewrite (find_unique (rev l) b).
    - rewrite Hc, str_eqb_refl. cbn [andb]. lia.
    - rewrite map_rev. now apply NoDup_rev.
    - now apply -> in_rev.
  Qed.
  Lemma do_same_contact : forall rc now hs x existing st st2 e a c,
    do_contacts rc now hs x existing (contact_headers hs) (purge now (rx_aor x) st) = (st2, e) ->
    a <> rx_aor x \/ (forall k, In k (contact_headers hs) -> contact_uri k <> Some c)
       \/ out_of_order existing c (rx_call_id x) (rx_cseq x) = true ->
    same_contact now st st2 a c /\ same_contact now st (purge now (rx_aor x) st2) a c.
  Proof.
    intros rc now hs x existing st st2 e a c D Hc. pose proof (do_keep _ _ _ _ _ _ _ _ _ _ D a c Hc) as K.
    assert (S2 : same_contact now st st2 a c).
    { apply (same_contact_trans now st (purge now (rx_aor x) st)); [apply same_bindings_contact, purge_same|].
      apply same_contact_entries. rewrite !(filter_comm _ (sel c)). now rewrite K. }
    split; [exact S2|]. apply (same_contact_trans now st st2); [exact S2|apply same_bindings_contact, purge_same].
  Qed.
  Lemma handle_keep : forall rc now tag date limited an hs st st' ans a c,
    handle_register rc now tag date limited an hs st = (st', ans) -> ~ wildcard hs ->
    (forall k, In k (contact_headers hs) -> contact_uri k <> Some c)
    \/ (sinv st /\ exists b v n m rest, In b (lookup_at now a st) /\ b_contact b = c
          /\ header_of hs (lit "Call-ID") = Some (bi_call_id (b_info b))
          /\ header_of hs (lit "CSeq") = Some v /\ split_ws v = n :: m :: rest
          /\ (forall k, parse_uint u32_max n = Some k -> k <= bi_cseq (b_info b))) ->
    same_contact now st st' a c.
  Proof.
    intros rc now tag date limited an hs st st' ans a c H Nw Hc. apply handle_cases in H.
    destruct H as [[-> _]|(aor & cseq & _ & _ & _ & Ra & Rc & _ & C)]; [apply same_contact_refl|].
    destruct C as [(k & Ek & Et & _)|(_ & path & st2 & e & _ & D & C)].
    - exfalso. apply Nw. exists k. rewrite Ek. split; [now left|exact Et].
    - destruct (str_eq_dec a aor) as [->|Ha].
      + destruct (do_same_contact _ _ _ _ _ _ _ _ aor c D) as [S1 S2].
        * destruct Hc as [Hc|(I & b & v & n & m & rest & Hb & Eb & Ec & Ev & Es & Hn)]; [right; now left|right; right].
          cbn [rx_call_id rx_cseq]. rewrite Ec, <- Eb. apply out_of_order_in; [now apply lookup_at_nodup|exact Hb|reflexivity|].
          apply Hn. unfold register_cseq in Rc. rewrite Ev, Es in Rc. destruct (parse_uint u32_max n) as [q|]; [|discriminate].
          destruct (eq_ic m (lit "REGISTER")); [congruence|discriminate].
        * cbn [rx_aor] in S2. destruct C as [(_ & -> & _)|[(code & _ & -> & _)|(_ & -> & _)]]; assumption.
      + destruct (do_same_contact _ _ _ _ _ _ _ _ a c D) as [S1 S2]; [now left|]. cbn [rx_aor] in S2.
        destruct C as [(_ & -> & _)|[(code & _ & -> & _)|(_ & -> & _)]]; assumption.
  Qed.
  Lemma respond_code : forall code l c r, respond code l = Answered c r -> c = code.
  Proof. intros. now apply respond_ok in H. Qed.
  Lemma handle_single : forall rc now tag date limited an hs st st' code r k,
    handle_register rc now tag date limited an hs st = (st', Answered code r) -> code <> 200 ->
    contact_headers hs = [k] -> same_bindings now st st'.
  Proof.
    intros rc now tag date limited an hs st st' code r k H Hc Ek. apply handle_cases in H.
    destruct H as [[-> _]|(aor & cseq & _ & _ & _ & Ra & Rc & _ & C)]; [apply same_bindings_refl|].
    destruct C as [(k' & _ & _ & _ & _ & E)|(_ & path & st2 & e & _ & D & C)].
    { symmetry in E. apply respond_code in E. congruence. }
    destruct C as [(_ & _ & E)|[(code' & -> & -> & E)|(_ & _ & E)]]; [discriminate| |symmetry in E; apply respond_code in E; congruence].
    assert (st2 = purge now aor st) as ->; [|apply purge_same]. rewrite Ek in D. cbn [Registrar.do_contacts] in D.
    destruct (read_contact rc hs k) as [ci| |]; [|congruence|congruence]. destruct (out_of_order _ _ _ _); [congruence|].
    destruct (ci_secs ci =? 0); [congruence|]. match type of D with (match ?bn with Some _ => _ | None => _ end) = _ => destruct bn as [b|]; [|congruence] end.
    destruct (upsert now b (purge now aor st)) as [s1 [|]]; congruence.
  Qed.

  Lemma in_sel : forall c l s, s_contact s = c -> (In s l <-> In s (filter (sel c) l)).
  Proof. intros c l s E. rewrite filter_In. unfold sel. rewrite E, str_eqb_refl. tauto. Qed.
  Definition took_effect (x : reg_ctx) (now : N) (ci : contact_in) (st : store) : Prop :=
    (ci_secs ci = 0 /\ forall s, In s (entry (rx_aor x) st) -> s_contact s <> ci_uri ci)
    \/ (MIN_EXPIRES_SECS <= ci_secs ci <= MAX_EXPIRES_SECS
        /\ In (mkStored (ci_uri ci) (now + ci_secs ci * NANOS)
                (mkInfoB (rx_call_id x) (rx_cseq x) (ci_q ci) (rx_ua x) (rx_path x) None (ci_instance ci) (ci_reg ci)))
              (entry (rx_aor x) st)).
  Lemma took_effect_sel : forall x now ci st st', filter (sel (ci_uri ci)) (entry (rx_aor x) st') = filter (sel (ci_uri ci)) (entry (rx_aor x) st) ->
    took_effect x now ci st -> took_effect x now ci st'.
  Proof.
    intros x now ci st st' E [[H1 H2]|[H1 H2]]; [left|right]; (split; [exact H1|]).
    - intros s Hs Ec. apply (H2 s); [|exact Ec]. apply (in_sel (ci_uri ci)); [exact Ec|]. rewrite <- E. now apply in_sel.
    - apply (in_sel (ci_uri ci)); [reflexivity|]. rewrite E. apply in_sel; [reflexivity|exact H2].
  Qed.
  Lemma do_effect : forall rc now hs x existing pre k post c st st', do_contacts rc now hs x existing (pre ++ k :: post) st = (st', LDone) ->
    contact_uri k = Some c -> (forall k', In k' post -> contact_uri k' <> Some c) ->
    exists ci, read_contact rc hs k = ReadOk ci /\ ci_uri ci = c /\ took_effect x now ci st'.
  Proof.
    intros rc now hs x existing pre. induction pre as [|p pre IH]; intros k post c st st' H Hk Hp; cbn [app Registrar.do_contacts] in H.
    - destruct (read_contact rc hs k) as [ci| |] eqn:R; [|discriminate|discriminate].
      assert (ci_uri ci = c) by (apply read_uri in R; congruence). subst c. exists ci. split; [reflexivity|]. split; [reflexivity|].
      destruct (out_of_order _ _ _ _); [discriminate|]. destruct (ci_secs ci =? 0) eqn:Z.
      + pose proof (do_keep _ _ _ _ _ _ _ _ _ _ H (rx_aor x) (ci_uri ci) (or_intror (or_introl Hp))) as K.
        apply (took_effect_sel _ _ _ _ _ K). left. apply N.eqb_eq in Z. split; [exact Z|]. intros s Hs. unfold remove_binding in Hs.
        rewrite entry_retain in Hs. apply filter_In in Hs. now apply other_spec.
      + match type of H with (match ?bn with Some _ => _ | None => _ end) = _ => destruct bn as [b|] eqn:B; [|discriminate] end.
        pose proof (binding_new_fields _ _ _ _ _ B) as Eb. unfold binding_new in B.
        match type of B with (if ?t then _ else _) = _ => destruct t eqn:T; [|discriminate] end.
        repeat rewrite andb_true_iff in T. destruct T as ((((((_ & _) & T1) & T2) & _) & _) & _).
        rewrite N.div_mul in T1, T2 by discriminate.
        destruct (upsert_cases now b st) as [E | (_ & _ & E)]; rewrite E in H; [discriminate|].
        pose proof (do_keep _ _ _ _ _ _ _ _ _ _ H (rx_aor x) (ci_uri ci) (or_intror (or_introl Hp))) as K.
        apply (took_effect_sel _ _ _ _ _ K). right. split; [lia|]. rewrite Eb. cbn [b_aor b_contact b_expires b_info]. rewrite entry_insert.
        apply in_or_app. right. now left.
    - destruct (read_contact rc hs p) as [ci| |]; [|discriminate|discriminate]. destruct (out_of_order _ _ _ _); [discriminate|].
      destruct (ci_secs ci =? 0); [now apply (IH _ _ _ _ _ H)|].
      match type of H with (match ?bn with Some _ => _ | None => _ end) = _ => destruct bn as [b|]; [|discriminate] end.
      destruct (upsert now b st) as [s1 [|]]; [|discriminate]. now apply (IH _ _ _ _ _ H).
  Qed.
  Lemma read_asked : forall rc hs k ci, read_contact rc hs k = ReadOk ci ->
    asked rc hs k (ci_secs ci) /\ (ci_secs ci = 0 \/ rc_min rc <= ci_secs ci <= rc_max rc).
  Proof.
    intros rc hs k ci H. unfold Registrar.read_contact in H. destruct (contact_uri k) as [u|]; [|discriminate].
    destruct (parse_any u) as [[| |]|]; try discriminate. destruct (parse_expires rc hs k) as [secs| | |] eqn:P; try discriminate.
    assert (ci_secs ci = secs) as ->.
    { destruct (contact_param k (lit "q")) as [q|]; [|discriminate]. match type of H with (if ?b then _ else _) = _ => destruct b; [discriminate|] end.
      destruct (contact_param k (lit "+sip.instance")); [|discriminate]. destruct (contact_param k (lit "reg-id")) as [[r|]|]; [|now injection H as <-|discriminate].
      destruct (parse_uint u32_max r); [|discriminate]. now injection H as <-. }
    clear H. unfold parse_expires in P. unfold asked.
    destruct (contact_param k (lit "expires")) as [[v|]|]; [| |discriminate].
    - destruct (parse_uint u64_max v) as [n|] eqn:Pn; [|discriminate].
      destruct (match hget (lit "Expires") hs with Some v => match parse_uint u64_max v with Some n => Some (Some n) | None => None end | None => Some None end) as [he|]; [|discriminate].
      cbv zeta in P. destruct (n =? 0) eqn:Z; [injection P as <-; apply N.eqb_eq in Z; subst n; split; [left; now exists v|now left]|].
      destruct (n <? rc_min rc) eqn:L1; [discriminate|]. destruct (rc_max rc <? n) eqn:L2; [discriminate|]. injection P as <-. split; [left; now exists v|right; lia].
    - destruct (hget (lit "Expires") hs) as [v|].
      + destruct (parse_uint u64_max v) as [n|] eqn:Pn; [|discriminate].
        cbv zeta in P. destruct (n =? 0) eqn:Z; [injection P as <-; apply N.eqb_eq in Z; subst n; split; [right; now split|now left]|].
        destruct (n <? rc_min rc) eqn:L1; [discriminate|]. destruct (rc_max rc <? n) eqn:L2; [discriminate|]. injection P as <-. split; [right; now split|right; lia].
      + cbv zeta in P. set (n := rc_default rc) in *. destruct (n =? 0) eqn:Z; [injection P as <-; apply N.eqb_eq in Z; split; [right; now split|now left]|].
        destruct (n <? rc_min rc) eqn:L1; [discriminate|]. destruct (rc_max rc <? n) eqn:L2; [discriminate|]. injection P as <-. split; [right; now split|right; lia].
  Qed.
  Lemma handle_success : forall rc now tag date limited an hs st st' r,
    handle_register rc now tag date limited an hs st = (st', Answered 200 r) -> challenging an ->
    exists to aor, about hs to aor
    /\ ((exists k, contact_headers hs = [k] /\ trim k = lit "*" /\ st' = remove_all aor st
            /\ exists v, header_of hs (lit "Expires") = Some v /\ parse_uint u64_max v = Some 0)
        \/ (~ wildcard hs /\ exists path cseq st2, register_cseq hs = Some cseq
            /\ do_contacts rc now hs (mkRx aor (match header_of hs (lit "Call-ID") with Some c => c | None => [] end) cseq
                        (header_of hs (lit "User-Agent")) path) (lookup_at now aor st) (contact_headers hs) (purge now aor st) = (st2, LDone)
            /\ st' = purge now aor st2
            /\ r = copied tag hs
                     ++ map (fun b => (lit "Contact", format_contact q_show b)) (lookup_at now aor st2)
                     ++ map (fun p => (lit "Path", p)) (distinct_paths [] (lookup_at now aor st2))
                     ++ [(lit "Date", date); (lit "Content-Length", lit "0")])).
  Proof.
    intros rc now tag date limited an hs st st' r H Ch. apply handle_cases in H.
    destruct H as [[_ [E|(code & Hc & E)]]|(aor & cseq & _ & _ & _ & Ra & Rc & _ & C)].
    - now apply Ch in E.
    - symmetry in E. apply respond_code in E. congruence.
    - destruct (register_about _ _ _ Ra) as (to & Ab & _). exists to, aor. split; [exact Ab|].
      destruct C as [(k & Ek & Et & Es & Ex & _)|(Nw & path & st2 & e & _ & D & C)]; [left; now exists k|right].
      split; [exact Nw|]. exists path, cseq, st2. split; [exact Rc|].
      destruct C as [(_ & _ & E)|[(code & -> & _ & E)|(-> & Es & E)]]; [discriminate| |].
      + exfalso. assert (X : code <> 200).
        { clear - D. intros ->. revert D. generalize (purge now aor st). generalize (contact_headers hs).
          induction l as [|k l IH]; intros s D; cbn [Registrar.do_contacts] in D; [discriminate|].
          destruct (read_contact rc hs k) as [ci| |]; [|discriminate|discriminate]. destruct (out_of_order _ _ _ _); [discriminate|].
          destruct (ci_secs ci =? 0); [now apply (IH _ D)|].
          match type of D with (match ?bn with Some _ => _ | None => _ end) = _ => destruct bn as [b|]; [|discriminate] end.
          destruct (upsert now b s) as [s1 [|]]; [now apply (IH _ D)|discriminate]. }
        destruct (code =? 423); symmetry in E; apply respond_code in E; congruence.
      + split; [exact D|]. split; [exact Es|]. symmetry in E. now apply respond_ok in E.
  Qed.
End Handler2.
