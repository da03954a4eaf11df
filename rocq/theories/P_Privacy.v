(** Property C146: the Privacy header and its enforcement. *)
From Coq Require Import Arith NArith Bool String List Lia ZifyBool ZifyN ZifyNat.
Import ListNotations.
From Verif Require Import Base BaseFacts NumFacts TypedFacts Headers HeadersProofs Privacy PrivacySpec.
From Verif Require UacSendProofs.
Open Scope N_scope.
Open Scope list_scope.

(** ** Values and [hget_all] *)
Lemma values_iff : forall n hs l, values n hs l <-> l = hget_all n hs.
Proof.
  intros n hs l. split.
  - induction 1 as [|m v hs l E H IH|m v hs l E H IH]; [reflexivity| |]; unfold hget_all; cbn [filter]; unfold name_eq at 1; cbn [fst].
    + apply eq_ic_spec in E. rewrite E. cbn [map snd]. now rewrite IH.
    + destruct (eq_ic m n) eqn:K; [apply eq_ic_spec in K; contradiction|]. exact IH.
  - intros ->. induction hs as [|(m, v) hs IH]; [constructor|]. unfold hget_all. cbn [filter]. unfold name_eq at 1. cbn [fst]. destruct (eq_ic m n) eqn:K.
    + cbn [map snd]. apply values_yes; [now apply eq_ic_spec|exact IH].
    + apply values_no; [|exact IH]. intros X. apply eq_ic_spec in X. congruence.
Qed.
Lemma hget_head : forall n hs, hget n hs = match hget_all n hs with v :: _ => Some v | [] => None end.
Proof. intros n hs. unfold hget, hget_all. induction hs as [|h hs IH]; [reflexivity|]. cbn [find filter]. destruct (name_eq h n); [reflexivity|exact IH]. Qed.
Lemma all_remove : forall n k hs, hget_all n (hremove k hs) = if eq_ic k n then [] else hget_all n hs.
Proof.
  intros n k hs. destruct (eq_ic k n) eqn:E; [|now apply UacSendProofs.get_kept].
  rewrite <- (UacSendProofs.get_removed k hs). unfold hget_all. f_equal. apply filter_ext. intros h. unfold name_eq, eq_ic. apply eq_ic_spec in E. now rewrite E.
Qed.
Lemma all_push : forall hs n v hs' k, hpush hs n v = Ok hs' -> hget_all k hs' = hget_all k hs ++ (if eq_ic n k then [v] else []).
Proof.
  intros hs n v hs' k H. unfold hpush in H. destruct (MAX_HEADERS <=? llen hs); [discriminate|]. destruct (header_new n v) as [h|] eqn:E; [|discriminate].
  injection H as <-. apply header_new_ok in E as (-> & _). unfold hget_all. rewrite filter_app, map_app. f_equal. cbn [filter]. unfold name_eq. cbn [fst]. now destruct (eq_ic n k).
Qed.
Lemma all_removed : forall l k hs, hget_all k (fold_left (fun acc n => hremove n acc) l hs) = if existsb (fun n => eq_ic n k) l then [] else hget_all k hs.
Proof.
  induction l as [|n l IH]; intros k hs; [reflexivity|]. cbn [fold_left existsb]. rewrite IH, all_remove. destruct (eq_ic n k), (existsb (fun m => eq_ic m k) l); reflexivity.
Qed.

(** ** Reading and writing *)
Lemma pv_eqb_eq : forall a b, pv_eqb a b = true <-> a = b.
Proof. intros [] []; cbn; split; congruence. Qed.
Lemma has_in : forall v h, pv_has v h = true <-> In v h.
Proof.
  intros v h. unfold pv_has. rewrite existsb_exists. split.
  - intros (x & Hx & E). apply pv_eqb_eq in E. now subst.
  - intros H. exists v. split; [exact H|now apply pv_eqb_eq].
Qed.
Lemma read_text : forall w v, lower w = pv_text v -> pv_read w = Some v.
Proof. intros w v E. unfold pv_read. rewrite E. now destruct v. Qed.
Lemma read_some : forall w v, pv_read w = Some v -> lower w = pv_text v.
Proof. intros w v H. unfold pv_read in H. apply find_some in H as (_ & H). now apply str_eqb_spec. Qed.
Lemma new_iff : forall l h, privacy_new l = Some h <-> h = l /\ sensible l.
Proof.
  intros l h. unfold privacy_new, sensible. destruct l as [|a l]; [split; [discriminate|intros (_ & X & _); congruence]|].
  unfold llen, PV_MAX_VALUES. destruct ((1 <? N.of_nat (List.length (a :: l))) && pv_has PNone (a :: l)) eqn:E.
  - split; [discriminate|]. intros (_ & _ & _ & X). exfalso. apply andb_prop in E as (E1 & E2). apply has_in in E2. apply X in E2. rewrite E2 in E1. discriminate E1.
  - destruct (10 <? N.of_nat (List.length (a :: l))) eqn:F.
    + split; [discriminate|]. intros (_ & _ & X & _). lia.
    + split.
      * intros H. injection H as <-. split; [reflexivity|]. split; [discriminate|]. split; [lia|]. intros H. apply has_in in H. rewrite H, andb_true_r in E. cbn [List.length] in E.
        destruct l as [|b l]; [|cbn [List.length] in E; lia]. apply has_in in H. destruct H as [-> |[]]. reflexivity.
      * intros (-> & _). reflexivity.
Qed.
Lemma text_plain : forall v, forallb (fun c => negb (is_ws c)) (pv_text v) = true /\ mem 59 (pv_text v) = false /\ pv_text v <> [].
Proof. intros []; repeat split; discriminate. Qed.
Lemma spelt_facts : forall s v, spelt s v -> mem 59 s = false /\ exists w, trim s = w /\ lower w = pv_text v /\ w <> [].
Proof.
  intros s v [a w b v' B E]. destruct (text_plain v') as (P1 & P2 & P3).
  assert (BA : blanks a /\ blanks b) by (split; apply forallb_forall; intros c Hc; apply B, in_or_app; auto). destruct BA as (BA & BB).
  split.
  - rewrite !mem_app. rewrite <- (mem_lower 59 w eq_refl), E, P2. assert (X : forall s, (forall c, In c s -> is_ws c = true) -> mem 59 s = false) by (intros s' H; apply mem_false; intros K; apply H in K; discriminate K).
    rewrite !X; [reflexivity| |]; intros c Hc; apply B, in_or_app; auto.
  - exists w. split; [rewrite trim_pad by assumption; now apply (lower_edgeless w (pv_text v'))|]. split; [exact E|]. intros ->. now apply P3.
Qed.
Lemma spelt_all_nomem : forall l h, spelt_all l h -> Forall (fun p => mem 59 p = false) l.
Proof.
  induction 1 as [|s l h B H IH|s v l h S H IH]; [constructor| |]; constructor; [|exact IH| |exact IH].
  - apply mem_false. intros K. apply B in K. discriminate K.
  - now apply spelt_facts in S as (S & _).
Qed.
Lemma spelt_collect : forall l h, spelt_all l h -> pv_collect (filter (fun p => negb (str_eqb p [])) (map trim l)) = Some h.
Proof.
  induction 1 as [|s l h B H IH|s v l h S H IH]; [reflexivity| |]; cbn [map filter].
  - rewrite trim_blanks_of by (apply forallb_forall; exact B). exact IH.
  - apply spelt_facts in S as (_ & w & -> & E & W). destruct (str_eqb w []) eqn:K; [apply str_eqb_spec in K; contradiction|]. cbn [negb pv_collect]. now rewrite (read_text w v E), IH.
Qed.

Lemma trim_split : forall p, exists a b, p = a ++ trim p ++ b /\ (forall c, In c a -> is_ws c = true) /\ (forall c, In c b -> is_ws c = true).
Proof.
  intros p. unfold trim, trim_by, trim_start_by. destruct (trim_end_by_prefix is_ws (drop_while is_ws p)) as (b & E & Hb).
  assert (D : forall s, exists a, s = a ++ drop_while is_ws s /\ forall c, In c a -> is_ws c = true).
  { induction s as [|c s (a & Ea & Ha)]; [now exists []|]. cbn [drop_while]. destruct (is_ws c) eqn:K; [|exists []; split; [reflexivity|intros x []]].
    exists (c :: a). split; [cbn [app]; now f_equal|]. intros x [<-|Hx]; [exact K|now apply Ha]. }
  destruct (D p) as (a & Ea & Ha). exists a, b. split; [rewrite <- E; exact Ea|]. split; [exact Ha|]. now apply forallb_forall.
Qed.

(** ** C146: the header is read as written *)
Theorem C146_reads : forall l h, l <> [] -> spelt_all l h -> sensible h -> blen (join [59] l) <= 256 -> privacy_parse (join [59] l) = Some h.
Proof.
  intros l h N S H L. unfold privacy_parse, PV_MAX_INPUT. replace (256 <? blen (join [59] l)) with false by lia.
  rewrite split_on_join; [|exact N|now apply (spelt_all_nomem l h)]. rewrite (spelt_collect l h S). apply new_iff. now split.
Qed.
Print Assumptions C146_reads.
(** nothing else is read *)
Theorem C146_only : forall s h, privacy_parse s = Some h -> sensible h /\ exists l, s = join [59] l /\ spelt_all l h.
Proof.
  intros s h H. unfold privacy_parse in H. destruct (PV_MAX_INPUT <? blen s); [discriminate|].
  destruct (pv_collect _) as [l|] eqn:E; [|discriminate]. apply new_iff in H as (-> & S). split; [exact S|]. exists (split_on 59 s).
  split; [symmetry; apply join_split_on|]. clear S. revert l E. generalize (split_on 59 s). intros ps. induction ps as [|p ps IH]; intros l E.
  - cbn in E. injection E as <-. constructor.
  - cbn [map filter] in E. destruct (trim_split p) as (a & b & Ep & A & B). destruct (str_eqb (trim p) []) eqn:K.
    + cbn [negb] in E. apply spelt_blank; [|now apply IH]. apply str_eqb_spec in K. rewrite Ep, K. cbn [app]. intros c Hc. apply in_app_or in Hc as [Hc|Hc]; [now apply A|now apply B].
    + cbn [negb pv_collect] in E. destruct (pv_read (trim p)) as [v|] eqn:R; [|discriminate]. destruct (pv_collect _) as [vs|] eqn:C; [|discriminate]. injection E as <-.
      apply spelt_value; [|now apply IH]. rewrite Ep. apply spelt_as; [intros c Hc; apply in_app_or in Hc as [Hc|Hc]; [now apply A|now apply B]|now apply read_some].
Qed.
Print Assumptions C146_only.

Lemma print_pieces : forall v h, privacy_print (v :: h) = join [59] (pv_text v :: map (fun x => 32 :: pv_text x) h).
Proof.
  intros v h. unfold privacy_print. revert v. induction h as [|x h IH]; intros v; [reflexivity|].
  change (pv_text v ++ lit "; " ++ join (lit "; ") (map pv_text (x :: h)) = pv_text v ++ [59] ++ join [59] ((32 :: pv_text x) :: map (fun y => 32 :: pv_text y) h)).
  rewrite IH. f_equal. change (lit "; ") with [59; 32]. cbn [app]. f_equal. destruct (map (fun y => 32 :: pv_text y) h); reflexivity.
Qed.
Lemma blen_cons : forall c s, blen (c :: s) = len_utf8 c + blen s.
Proof. reflexivity. Qed.
Lemma text_short : forall v, (blen (pv_text v) <= 8).
Proof. intros []; vm_compute; discriminate. Qed.
Lemma print_spelt : forall h, spelt_all (map (fun x => 32 :: pv_text x) h) h.
Proof.
  induction h as [|v h IH]; [constructor|]. cbn [map]. apply spelt_value; [|exact IH].
  replace (32 :: pv_text v) with ([32] ++ pv_text v ++ []) by (now rewrite app_nil_r). apply spelt_as; [intros c [<-|[]]; reflexivity|now destruct v].
Qed.
Lemma pieces_short : forall h, blen (join [59] (map (fun x => 32 :: pv_text x) h)) <= 10 * llen h.
Proof.
  induction h as [|v h IH]; [vm_compute; discriminate|]. cbn [map]. pose proof (text_short v) as T.
  destruct h as [|x h]; [cbn [map join]; rewrite blen_cons; unfold llen; cbn [List.length]; change (len_utf8 32) with 1; lia|].
  change (blen ((32 :: pv_text v) ++ [59] ++ join [59] (map (fun x => 32 :: pv_text x) (x :: h))) <= 10 * llen (v :: x :: h)).
  rewrite !blen_app, blen_cons. change (len_utf8 32) with 1. change (blen [59]) with 1. unfold llen in *. cbn [List.length] in *. lia.
Qed.
(** whatever can be built is read back as it was *)
Theorem C146_roundtrip : forall h, privacy_parse (privacy_print h) = Some h <-> sensible h.
Proof.
  intros h. split; [intros H; now apply C146_only in H|]. intros S. destruct h as [|v h]; [now destruct S|]. rewrite print_pieces.
  apply C146_reads; [discriminate| |exact S|].
  - apply spelt_value; [|apply print_spelt]. rewrite <- (app_nil_r (pv_text v)). change (spelt ([] ++ pv_text v ++ []) v). apply spelt_as; [intros c []|now destruct v].
  - destruct S as (_ & S & _). pose proof (pieces_short (v :: h)) as P. cbn [map] in P.
    assert (X : blen (join [59] (pv_text v :: map (fun x => 32 :: pv_text x) h)) <= blen (join [59] ((32 :: pv_text v) :: map (fun x => 32 :: pv_text x) h))).
    { destruct (map _ h); cbn [join]; cbn [app]; rewrite blen_cons; lia. }
    unfold llen in P. cbn [List.length] in *. lia.
Qed.
Print Assumptions C146_roundtrip.
Theorem C146_builds : forall l h, privacy_new l = Some h <-> h = l /\ sensible l.
Proof. exact new_iff. Qed.
Print Assumptions C146_builds.

(** ** Anonymous addresses *)
Lemma params_quoted : forall q s, quoted q -> header_params (q ++ 34 :: s) true false false = header_params s false false false.
Proof.
  intros q s H. induction H as [|c q A B H IH|c q H IH]; [reflexivity| |].
  - cbn [app header_params]. replace (c =? 92) with false by lia. replace (c =? 34) with false by lia. cbn [andb negb]. rewrite !andb_false_r. exact IH.
  - cbn [app header_params]. cbn [N.eqb andb]. exact IH.
Qed.
Lemma params_uri : forall u s, (forall c, In c u -> c <> 34 /\ c <> 62) -> header_params (u ++ 62 :: s) false true false = header_params s false false false.
Proof.
  induction u as [|c u IH]; intros s H; [reflexivity|]. destruct (H c (or_introl eq_refl)) as (A & B). cbn [app header_params].
  replace (c =? 34) with false by lia. replace (c =? 62) with false by lia. cbn [negb]. rewrite !andb_false_r. cbn [andb]. rewrite (IH s) by (intros x Hx; apply H; now right). now destruct (c =? 60).
Qed.
Lemma params_found : forall a p, address a -> params p -> header_params (a ++ p) false false false = p.
Proof.
  intros a p H P. induction H as [|c s A B C H IH|q s Q H IH|u s U H IH].
  - destruct P as [-> |(r & ->)]; reflexivity.
  - cbn [app header_params]. replace (c =? 34) with false by lia. replace (c =? 60) with false by lia. replace (c =? 59) with false by lia. cbn [negb]. rewrite !andb_false_r. cbn [andb]. rewrite IH. now destruct (c =? 62).
  - rewrite <- !app_assoc. cbn [app header_params N.eqb andb negb]. change (negb false) with true. rewrite (params_quoted q _ Q). exact IH.
  - rewrite <- !app_assoc. cbn [app header_params]. cbn [N.eqb Pos.eqb andb negb]. rewrite (params_uri u _ U). exact IH.
Qed.
Lemma params_rest : forall v q g e, exists a, v = a ++ header_params v q g e /\ params (header_params v q g e).
Proof.
  induction v as [|c v IH]; intros q g e; [exists []; split; [reflexivity|now left]|]. cbn [header_params].
  assert (K : forall q g e, exists a, c :: v = a ++ header_params v q g e /\ params (header_params v q g e)) by (intros q' g' e'; destruct (IH q' g' e') as (a & E & P); exists (c :: a); split; [cbn [app]; now f_equal|exact P]).
  destruct e; [apply K|]. destruct ((c =? 92) && q); [apply K|]. destruct (c =? 34); [apply K|]. destruct ((c =? 60) && negb q); [apply K|]. destruct ((c =? 62) && negb q); [apply K|].
  destruct ((c =? 59) && negb q && negb g) eqn:E; [|apply K]. exists []. split; [reflexivity|]. right. exists v. f_equal. lia.
Qed.
Lemma value_veiled : forall v w, anonymize_value v = Some w -> veiled v w.
Proof.
  intros v w H. unfold anonymize_value in H. destruct (1024 <? blen v); [discriminate|]. injection H as <-. split.
  - destruct (params_rest v false false false) as (a & E & P). exists a, (header_params v false false false). auto.
  - intros a p -> A P. now rewrite (params_found a p A P).
Qed.
Lemma one_true : forall n hs hs', anonymize_one n hs = (hs', true) -> forall k,
  (eq_ic n k = false -> hget_all k hs' = hget_all k hs) /\
  (eq_ic n k = true -> hget_all k hs = [] /\ hget_all k hs' = [] \/ exists v l w, hget_all k hs = v :: l /\ hget_all k hs' = [w] /\ veiled v w).
Proof.
  intros n hs hs' H k. unfold anonymize_one in H. rewrite hget_head in H.
  assert (S : eq_ic n k = true -> hget_all n hs = hget_all k hs) by (intros E; unfold hget_all; f_equal; apply filter_ext; intros h; unfold name_eq, eq_ic; apply eq_ic_spec in E; now rewrite E).
  destruct (hget_all n hs) as [|v l] eqn:G.
  - injection H as <-. split; [reflexivity|]. intros E. left. now rewrite <- (S E).
  - destruct (anonymize_value v) as [a|] eqn:A; [|discriminate]. cbv zeta in H. destruct (hpush (hremove n hs) n a) as [hs2|] eqn:P; [|discriminate]. injection H as <-.
    rewrite (all_push _ _ _ _ k P), all_remove. split; intros E; rewrite E.
    + now rewrite app_nil_r.
    + right. exists v, l, a. rewrite <- (S E). split; [reflexivity|]. split; [reflexivity|]. now apply value_veiled.
Qed.
Lemma one_other : forall n hs k, eq_ic n k = false -> hget_all k (fst (anonymize_one n hs)) = hget_all k hs.
Proof.
  intros n hs k E. unfold anonymize_one. destruct (hget n hs) as [v|]; [|reflexivity]. destruct (anonymize_value v) as [a|]; [|reflexivity]. cbv zeta.
  destruct (hpush (hremove n hs) n a) as [hs2|] eqn:P; cbn [fst]; [rewrite (all_push _ _ _ _ k P), E, app_nil_r|]; now rewrite all_remove, E.
Qed.
Lemma asks_identity_b : forall h, existsb pv_identity h = true <-> asks_identity h.
Proof.
  intros h. unfold asks_identity. rewrite existsb_exists. split.
  - intros (x & Hx & E). destruct x; try discriminate E; [now right|now left].
  - intros [H|H]; [exists PId|exists PUser]; now split.
Qed.
Lemma asks_headers_b : forall h, existsb pv_header h = true <-> asks_headers h.
Proof.
  intros h. unfold asks_headers. rewrite existsb_exists. split.
  - intros (x & Hx & E). destruct x; try discriminate E; [now left|now right].
  - intros [H|H]; [exists PHeader|exists PUser]; now split.
Qed.
Lemma alone : forall h, (llen h =? 1) && pv_has PNone h = true -> h = [PNone].
Proof.
  intros h E. apply andb_prop in E as (E & F). apply has_in in F. destruct h as [|a [|b h]]; [discriminate| |unfold llen in E; cbn [List.length] in E; lia]. destruct F as [-> |[]]. reflexivity.
Qed.

(** ** C146: what is removed, veiled and kept *)
(** with "header" or "user" none of the seven headers is left, even if hiding
    the identity then fails *)
Theorem C146_headers : forall hs h hs' ok n, enforce_privacy hs h = (hs', ok) -> asks_headers h -> In n extra_names -> values n hs' [].
Proof.
  intros hs h hs' ok n H A N. apply values_iff. symmetry. unfold enforce_privacy in H. destruct ((llen h =? 1) && pv_has PNone h) eqn:E.
  - apply alone in E. subst h. destruct A as [[A|[]]|[A|[]]]; discriminate A.
  - apply asks_headers_b in A. rewrite A in H. cbv zeta in H. set (hs1 := fold_left _ REMOVABLE hs) in H.
    assert (R : hget_all n hs1 = []).
    { unfold hs1. rewrite all_removed. assert (X : existsb (fun m => eq_ic m n) REMOVABLE = true) by (apply existsb_exists; exists n; split; [exact N|apply eq_ic_refl]). now rewrite X. }
    destruct (existsb pv_identity h); [|now injection H as <- _].
    assert (NE : eq_ic (lit "From") n = false /\ eq_ic (lit "Contact") n = false).
    { repeat (destruct N as [<-|N]; [split; reflexivity|]). destruct N. }
    destruct NE as (N1 & N2). unfold anonymize in H. pose proof (one_other _ hs1 n N1) as O1. destruct (anonymize_one (lit "From") hs1) as (h1, [|]); cbn [fst] in O1; [|injection H as <- _; congruence].
    pose proof (one_other _ h1 n N2) as O2. destruct (anonymize_one (lit "Contact") h1) as (h2, [|]); cbn [fst] in O2; injection H as <- _; [|congruence].
    rewrite !all_remove, O2, O1, R. destruct (eq_ic (lit "P-Preferred-Identity") n); [reflexivity|]. now destruct (eq_ic (lit "P-Asserted-Identity") n).
Qed.
Print Assumptions C146_headers.
(** with "id" or "user" the asserted identities are gone and From and Contact
    are anonymous, keeping only header parameters *)
Theorem C146_identity : forall hs h hs', enforce_privacy hs h = (hs', true) -> asks_identity h ->
  values (lit "P-Asserted-Identity") hs' [] /\ values (lit "P-Preferred-Identity") hs' []
  /\ forall n, n = lit "From" \/ n = lit "Contact" ->
     values n hs [] /\ values n hs' [] \/ exists v l w, values n hs (v :: l) /\ values n hs' [w] /\ veiled v w.
Proof.
  intros hs h hs' H A. unfold enforce_privacy in H. destruct ((llen h =? 1) && pv_has PNone h) eqn:E.
  { apply alone in E. subst h. destruct A as [[A|[]]|[A|[]]]; discriminate A. }
  cbv zeta in H. apply asks_identity_b in A. rewrite A in H. set (hs1 := if existsb pv_header h then _ else hs) in H.
  assert (R : forall n, n = lit "From" \/ n = lit "Contact" -> hget_all n hs1 = hget_all n hs) by (intros n [-> | ->]; unfold hs1; destruct (existsb pv_header h); rewrite ?all_removed; reflexivity).
  unfold anonymize in H. destruct (anonymize_one (lit "From") hs1) as (h1, [|]) eqn:O1; [|discriminate]. destruct (anonymize_one (lit "Contact") h1) as (h2, [|]) eqn:O2; [|discriminate]. injection H as <-.
  pose proof (one_true _ _ _ O1) as T1. pose proof (one_true _ _ _ O2) as T2. split; [apply values_iff; rewrite !all_remove; reflexivity|]. split; [apply values_iff; rewrite !all_remove; reflexivity|].
  intros n Hn.
  assert (X : hget_all n hs = [] /\ hget_all n (hremove (lit "P-Preferred-Identity") (hremove (lit "P-Asserted-Identity") h2)) = []
    \/ exists v l w, hget_all n hs = v :: l /\ hget_all n (hremove (lit "P-Preferred-Identity") (hremove (lit "P-Asserted-Identity") h2)) = [w] /\ veiled v w).
  { rewrite <- (R n Hn), !all_remove. destruct Hn as [-> | ->].
    - change (if eq_ic (lit "P-Preferred-Identity") (lit "From") then [] else if eq_ic (lit "P-Asserted-Identity") (lit "From") then [] else hget_all (lit "From") h2) with (hget_all (lit "From") h2).
      rewrite (proj1 (T2 (lit "From")) eq_refl). apply (proj2 (T1 (lit "From"))). reflexivity.
    - change (if eq_ic (lit "P-Preferred-Identity") (lit "Contact") then [] else if eq_ic (lit "P-Asserted-Identity") (lit "Contact") then [] else hget_all (lit "Contact") h2) with (hget_all (lit "Contact") h2).
      rewrite <- (proj1 (T1 (lit "Contact")) eq_refl). apply (proj2 (T2 (lit "Contact"))). reflexivity. }
  destruct X as [(X & Y)|(v & l & w & X & Y & Z)]; [left|right; exists v, l, w]; rewrite !values_iff; auto.
Qed.
Print Assumptions C146_identity.
(** all other headers stay as they are, whether it works or not *)
Theorem C146_frame : forall hs h hs' ok n l, enforce_privacy hs h = (hs', ok) ->
  (asks_identity h -> forall m, In m identity_names -> ~ same_name m n) -> (asks_headers h -> forall m, In m extra_names -> ~ same_name m n) ->
  values n hs l -> values n hs' l.
Proof.
  intros hs h hs' ok n l H I X V. apply values_iff. apply values_iff in V. subst l. symmetry. unfold enforce_privacy in H. destruct ((llen h =? 1) && pv_has PNone h); [now injection H as <- _|].
  cbv zeta in H. set (hs1 := if existsb pv_header h then _ else hs) in H.
  assert (R : hget_all n hs1 = hget_all n hs).
  { unfold hs1. destruct (existsb pv_header h) eqn:E; [|reflexivity]. apply asks_headers_b in E. rewrite all_removed. destruct (existsb (fun m => eq_ic m n) REMOVABLE) eqn:K; [|reflexivity].
    exfalso. apply existsb_exists in K as (m & M & K). apply eq_ic_spec in K. exact (X E m M K). }
  destruct (existsb pv_identity h) eqn:E; [|now injection H as <- _]. apply asks_identity_b in E.
  assert (NE : forall m, In m identity_names -> eq_ic m n = false) by (intros m M; destruct (eq_ic m n) eqn:K; [|reflexivity]; apply eq_ic_spec in K; destruct (I E m M K)).
  unfold anonymize in H. pose proof (one_other (lit "From") hs1 n (NE _ ltac:(now left))) as O1. destruct (anonymize_one (lit "From") hs1) as (h1, [|]); cbn [fst] in O1; [|injection H as <- _; congruence].
  pose proof (one_other (lit "Contact") h1 n (NE _ ltac:(now right; left))) as O2. destruct (anonymize_one (lit "Contact") h1) as (h2, [|]); cbn [fst] in O2; injection H as <- _; [|congruence].
  rewrite !all_remove, (NE (lit "P-Preferred-Identity")), (NE (lit "P-Asserted-Identity")) by (cbn; auto). congruence.
Qed.
Print Assumptions C146_frame.
(** nothing happens if neither is asked for *)
Theorem C146_none : forall hs h, ~ asks_identity h -> ~ asks_headers h -> enforce_privacy hs h = (hs, true).
Proof.
  intros hs h A B. unfold enforce_privacy. destruct (existsb pv_identity h) eqn:E; [apply asks_identity_b in E; contradiction|]. destruct (existsb pv_header h) eqn:F; [apply asks_headers_b in F; contradiction|].
  now destruct (_ && _).
Qed.
Print Assumptions C146_none.

Lemma params_length : forall v q g e, blen (header_params v q g e) <= blen v.
Proof. intros v q g e. destruct (params_rest v q g e) as (a & E & _). apply (f_equal blen) in E. rewrite blen_app in E. lia. Qed.
Lemma params_chars : forall v q g e c, mem c v = false -> mem c (header_params v q g e) = false.
Proof. intros v q g e c H. destruct (params_rest v q g e) as (a & E & _). rewrite E, mem_app in H. apply orb_false_elim in H as (_ & H). exact H. Qed.
Lemma one_works : forall n hs, validate_header_name n = None -> good_headers hs ->
  (exists hs', anonymize_one n hs = (hs', true) /\ good_headers hs' /\ (forall v l, hget_all n hs = v :: l -> blen v <= 1024))
  \/ (exists v l, anonymize_one n hs = (hs, false) /\ hget_all n hs = v :: l /\ 1024 < blen v).
Proof.
  intros n hs N (G & L). unfold anonymize_one. destruct (hget n hs) as [v|] eqn:E.
  2:{ left. exists hs. rewrite hget_head in E. destruct (hget_all n hs); [|discriminate]. repeat split; try assumption. discriminate. }
  pose proof E as E'. rewrite hget_head in E'. destruct (hget_all n hs) as [|v' l] eqn:A; [discriminate|]. injection E' as ->.
  unfold anonymize_value. destruct (1024 <? blen v) eqn:K; [right; exists v, l; repeat split; lia|]. left. cbv zeta.
  assert (V : good_header (n, v)).
  { unfold hget_all in A. assert (X : In v (map snd (filter (fun h => name_eq h n) hs))) by (rewrite A; now left). apply in_map_iff in X as ((m, w) & Ew & X). cbn in Ew. subst w.
    apply filter_In in X as (X & _). rewrite Forall_forall in G. specialize (G _ X). assert (Y : validate_header_value v = None).
    { assert (Z : header_new m v = Ok (m, v)) by (apply header_new_ok; now split). unfold header_new in Z. destruct (validate_header_name m); [discriminate|]. destruct (validate_header_value v); [discriminate|reflexivity]. }
    apply (header_new_ok n v (n, v)). unfold header_new. now rewrite N, Y. }
  assert (S : llen (hremove n hs) < llen hs).
  { clear - A. unfold hget_all, hremove, llen in *. induction hs as [|h hs IH]; [discriminate|]. cbn [filter] in *. destruct (name_eq h n); cbn [negb List.length].
    - assert (X : (List.length (filter (fun x => negb (name_eq x n)) hs) <= List.length hs)%nat).
      { clear. induction hs as [|x hs IH]; [apply le_n|]. cbn [filter List.length]. destruct (negb (name_eq x n)); cbn [List.length]; lia. }
      lia.
    - specialize (IH A). lia. }
  assert (W : header_new n (ANONYMOUS ++ header_params v false false false) = Ok (n, ANONYMOUS ++ header_params v false false false)).
  { unfold header_new. rewrite N. assert (Y : header_new n v = Ok (n, v)) by (apply header_new_ok; now split). unfold header_new in Y. rewrite N in Y.
    unfold validate_header_value in *. destruct (MAX_HEADER_VALUE_LENGTH <? blen v) eqn:V1; [discriminate|]. destruct (mem 13 v) eqn:V2; [discriminate|]. destruct (mem 10 v) eqn:V3; [discriminate|]. destruct (mem 0 v) eqn:V4; [discriminate|].
    pose proof (params_length v false false false) as PL. rewrite blen_app, !mem_app, !params_chars by assumption. change (blen ANONYMOUS) with 45. change (mem 13 ANONYMOUS) with false. change (mem 10 ANONYMOUS) with false. change (mem 0 ANONYMOUS) with false.
    unfold MAX_HEADER_VALUE_LENGTH in *. cbn [orb]. replace (8192 <? 45 + blen (header_params v false false false)) with false by lia. reflexivity. }
  assert (G1 : good_headers (hremove n hs)) by (split; [now apply Forall_filter|lia]).
  destruct (hpush (hremove n hs) n (ANONYMOUS ++ header_params v false false false)) as [hs2|e] eqn:P.
  - exists hs2. split; [reflexivity|]. split; [|intros v0 l0 EE; injection EE as <- _; lia].
    now apply (hpush_good _ _ _ _ G1) in P.
  - exfalso. unfold hpush in P. rewrite W in P. replace (MAX_HEADERS <=? llen (hremove n hs)) with false in P by (unfold MAX_HEADERS; lia). discriminate.
Qed.
(** it works exactly if no From or Contact that has to be veiled is too long *)
Theorem C146_works : forall hs h hs' ok, good_headers hs -> enforce_privacy hs h = (hs', ok) -> (ok = true <-> (asks_identity h -> veilable hs)).
Proof.
  intros hs h hs' ok G H. unfold enforce_privacy in H. destruct ((llen h =? 1) && pv_has PNone h) eqn:E.
  { apply alone in E. subst h. injection H as _ <-. split; [|reflexivity]. intros _ [[A|[]]|[A|[]]]; discriminate A. }
  cbv zeta in H. set (hs1 := if existsb pv_header h then _ else hs) in H. destruct (existsb pv_identity h) eqn:I.
  2:{ injection H as _ <-. split; [|reflexivity]. intros _ A. apply asks_identity_b in A. congruence. }
  apply asks_identity_b in I.
  assert (R : forall n, n = lit "From" \/ n = lit "Contact" -> hget_all n hs1 = hget_all n hs) by (intros n [-> | ->]; unfold hs1; destruct (existsb pv_header h); rewrite ?all_removed; reflexivity).
  assert (G1 : good_headers hs1).
  { unfold hs1. destruct (existsb pv_header h); [|exact G]. clear - G. revert hs G. generalize REMOVABLE. induction l as [|n l IH]; intros hs G; [exact G|]. cbn [fold_left]. apply IH. destruct G as (G & L). split; [now apply Forall_filter|].
    unfold hremove. pose proof (llen_filter _ (fun h => negb (name_eq h n)) hs). lia. }
  assert (V : veilable hs <-> (forall v l, hget_all (lit "From") hs1 = v :: l -> blen v <= 1024) /\ (forall v l, hget_all (lit "Contact") hs1 = v :: l -> blen v <= 1024)).
  { rewrite !R by auto. unfold veilable. split.
    - intros V. split; intros v l EE; [apply (V (lit "From") v l)|apply (V (lit "Contact") v l)]; auto; apply values_iff; now symmetry.
    - intros (V1 & V2) n v l [-> | ->] EE; apply values_iff in EE; symmetry in EE; [now apply (V1 v l)|now apply (V2 v l)]. }
  unfold anonymize in H. destruct (one_works (lit "From") hs1 eq_refl G1) as [(h1 & O1 & G2 & V1)|(v & l & O1 & A & B)]; rewrite O1 in H.
  - destruct (one_works (lit "Contact") h1 eq_refl G2) as [(h2 & O2 & _ & V2)|(v & l & O2 & A & B)]; rewrite O2 in H; injection H as _ <-.
    + split; [|reflexivity]. intros _ _. apply V. split; [exact V1|]. rewrite <- (proj1 (one_true _ _ _ O1 (lit "Contact")) eq_refl). exact V2.
    + split; [discriminate|]. intros K. specialize (K I). apply V in K as (_ & K). rewrite <- (proj1 (one_true _ _ _ O1 (lit "Contact")) eq_refl) in K. specialize (K v l A). lia.
  - injection H as _ <-. split; [discriminate|]. intros K. specialize (K I). apply V in K as (K & _). specialize (K v l A). lia.
Qed.
Print Assumptions C146_works.

(** privacy is asked for by the first Privacy header, unless it says none *)
Theorem C146_due : forall hs, privacy_due hs = true <-> exists v l h, values (lit "Privacy") hs (v :: l) /\ privacy_parse v = Some h /\ h <> [PNone].
Proof.
  intros hs. unfold privacy_due, privacy_of. rewrite hget_head. split.
  - destruct (hget_all (lit "Privacy") hs) as [|v l] eqn:E; [discriminate|]. destruct (privacy_parse v) as [h|] eqn:P; [|discriminate]. intros H. exists v, l, h.
    split; [now apply values_iff|]. split; [exact P|]. intros ->. discriminate H.
  - intros (v & l & h & V & P & N). apply values_iff in V. rewrite <- V, P. apply negb_true_iff. destruct (pv_has PNone h) eqn:E; [|reflexivity].
    apply has_in in E. apply C146_only in P as ((_ & _ & S) & _). now apply S in E.
Qed.
Print Assumptions C146_due.

(** ** Examples *)
Definition call_headers : headers :=
  [(lit "f", lit "x"); (lit "From", [34] ++ lit "Alice; <A>" ++ [34] ++ lit " <sip:alice@home.example;user=phone>;tag=17"); (lit "Subject", lit "secret");
   (lit "Contact", lit "<sip:alice@10.0.0.1:5060>"); (lit "P-Asserted-Identity", lit "<tel:+1555>"); (lit "Call-ID", lit "c1")].
Example C146_example : enforce_privacy call_headers [PUser; PCritical] =
  ([(lit "f", lit "x"); (lit "Call-ID", lit "c1"); (lit "From", anonymous ++ lit ";tag=17"); (lit "Contact", anonymous)], true)
  /\ privacy_parse (lit "ID ; ;Critical") = Some [PId; PCritical] /\ sensible [PUser; PCritical] /\ asks_identity [PUser; PCritical] /\ asks_headers [PUser; PCritical].
Proof.
  split; [vm_compute; reflexivity|]. split; [vm_compute; reflexivity|]. split; [|split; right; now left]. split; [discriminate|]. split; [cbn; lia|]. intros [X|[X|[]]]; discriminate X.
Qed.
(** the From of the example is an address followed by its parameters *)
Example C146_address : address ([34] ++ lit "Alice; <A>" ++ [34] ++ lit " <sip:alice@home.example;user=phone>") /\ params (lit ";tag=17").
Proof.
  split; [|right; now eexists]. apply address_quoted; [repeat (constructor; [discriminate|discriminate|])|].
  - constructor.
  - change (lit " <sip:alice@home.example;user=phone>") with (32 :: [60] ++ lit "sip:alice@home.example;user=phone" ++ [62] ++ []).
    apply address_char; try discriminate. apply address_uri; [|constructor]. intros c Hc. assert (X : forallb (fun c => negb (c =? 34) && negb (c =? 62)) (lit "sip:alice@home.example;user=phone") = true) by reflexivity.
    rewrite forallb_forall in X. apply X in Hc. lia.
Qed.

(** ** Findings *)
(** a second address in the same Contact header is not hidden *)
Theorem C146_contacts_refuted : exists hs hs' v, values (lit "Contact") hs [v] /\ enforce_privacy hs [PId] = (hs', true)
  /\ v = lit "<sip:a@h>;q=1, <sip:alice@home.example>" /\ values (lit "Contact") hs' [anonymous ++ lit ";q=1, <sip:alice@home.example>"].
Proof.
  exists [(lit "Contact", lit "<sip:a@h>;q=1, <sip:alice@home.example>")], [(lit "Contact", anonymous ++ lit ";q=1, <sip:alice@home.example>")], (lit "<sip:a@h>;q=1, <sip:alice@home.example>").
  split; [apply values_iff; vm_compute; reflexivity|]. split; [vm_compute; reflexivity|]. split; [reflexivity|]. apply values_iff. vm_compute. reflexivity.
Qed.
Print Assumptions C146_contacts_refuted.
(** when the Contact is too long the asserted identity is left in place *)
Theorem C146_failed_refuted : exists hs hs', good_headers hs /\ enforce_privacy hs [PId] = (hs', false) /\ values (lit "P-Asserted-Identity") hs' [lit "<sip:alice@home.example>"].
Proof.
  exists [(lit "P-Asserted-Identity", lit "<sip:alice@home.example>"); (lit "Contact", List.repeat 97 (N.to_nat 1025))], [(lit "P-Asserted-Identity", lit "<sip:alice@home.example>"); (lit "Contact", List.repeat 97 (N.to_nat 1025))].
  split; [|split; [vm_compute; reflexivity|apply values_iff; vm_compute; reflexivity]].
  split; [|vm_compute; discriminate]. constructor; [|constructor; [|constructor]].
  - apply (header_new_ok (lit "P-Asserted-Identity") (lit "<sip:alice@home.example>")). vm_compute. reflexivity.
  - apply (header_new_ok (lit "Contact") (List.repeat 97 (N.to_nat 1025))). vm_compute. reflexivity.
Qed.
Print Assumptions C146_failed_refuted.
(** one value it does not know and the whole request for privacy is ignored;
    so is everything in a second Privacy header *)
Theorem C146_ignored_refuted : privacy_due [(lit "Privacy", lit "id; history")] = false
  /\ privacy_of [(lit "Privacy", lit "session"); (lit "Privacy", lit "id")] = Some [PSession].
Proof. split; vm_compute; reflexivity. Qed.
Print Assumptions C146_ignored_refuted.
