(** Properties of Path and Service-Route headers. *)
From Coq Require Import Arith NArith Bool String List Lia ZifyBool ZifyN ZifyNat.
Import ListNotations.
From Verif Require Import Base Text BaseFacts TextFacts TypedFacts Uri AnyUri Auth AuthProofs PathRoute PathRouteSpec.
Open Scope N_scope.
Open Scope list_scope.

(** ** Cutting at commas *)
Definition rest_of (inq esc : bool) (h : str) : Prop :=
  match inq, esc with
  | false, _ => piece h
  | true, false => exists b s, h = b ++ 34 :: s /\ inside b /\ piece s
  | true, true => exists c b s, h = c :: b ++ 34 :: s /\ inside b /\ piece s
  end.
Lemma scan_sound : forall s inq esc cur parts, (esc = true -> inq = true) -> scan_commas inq esc cur s = (parts, false) ->
  exists h t, parts = (rev cur ++ h) :: t /\ Forall piece t /\ s = h ++ concat (map (cons 44) t) /\ rest_of inq esc h.
Proof.
  induction s as [|c s IH]; intros inq esc cur parts HE H; cbn [scan_commas] in H.
  - assert (inq = false) by congruence. subst inq. assert (parts = [rev cur]) by congruence. subst parts. exists [], []. rewrite app_nil_r. repeat split; constructor.
  - destruct esc.
    + rewrite (HE eq_refl) in *. apply IH in H as (h & t & E1 & E2 & E3 & b & x & -> & B1 & B2); [|discriminate]. exists (c :: b ++ 34 :: x), t. cbn [rev] in E1. rewrite <- app_assoc in E1. refine (conj E1 (conj E2 (conj _ _))); [cbn [app]; now rewrite E3|]. now exists c, b, x.
    + destruct ((c =? 92) && inq) eqn:A.
      { apply andb_true_iff in A as (A & ->). apply IH in H as (h & t & E1 & E2 & E3 & d & b & x & -> & B1 & B2); [|reflexivity]. exists (c :: d :: b ++ 34 :: x), t. cbn [rev] in E1. rewrite <- app_assoc in E1. refine (conj E1 (conj E2 (conj _ _))); [cbn [app]; now rewrite E3|]. assert (c = 92) by lia. subst c. exists (92 :: d :: b), x. refine (conj eq_refl (conj _ B2)). now constructor. }
      destruct (c =? 34) eqn:B.
      { assert (c = 34) by lia. subst c. apply IH in H as (h & t & E1 & E2 & E3 & R); [|discriminate]. exists (34 :: h), t. cbn [rev] in E1. rewrite <- app_assoc in E1. refine (conj E1 (conj E2 (conj _ _))); [cbn [app]; now rewrite E3|]. destruct inq; cbn [negb rest_of] in *.
        - exists [], h. refine (conj eq_refl (conj _ R)). constructor.
        - destruct R as (b & x & -> & B1 & B2). now constructor. }
      destruct ((c =? 44) && negb inq) eqn:C.
      { assert (inq = false) by (destruct inq; [cbn [negb] in C; rewrite andb_false_r in C; discriminate|reflexivity]). subst inq. assert (c = 44) by lia. subst c. destruct (scan_commas false false [] s) as (ps, q) eqn:Q. assert (q = false) by congruence. subst q. assert (parts = rev cur :: ps) by congruence. subst parts. apply IH in Q as (h & t & -> & E2 & E3 & R); [|discriminate]. exists [], (h :: t). rewrite app_nil_r. cbn [rev app] in *. refine (conj eq_refl (conj _ (conj _ _))); [now constructor|cbn [map concat app]; now rewrite E3|constructor]. }
      apply IH in H as (h & t & E1 & E2 & E3 & R); [|discriminate]. exists (c :: h), t. cbn [rev] in E1. rewrite <- app_assoc in E1. refine (conj E1 (conj E2 (conj _ _))); [cbn [app]; now rewrite E3|]. destruct inq; cbn [rest_of] in *.
      * destruct R as (b & x & -> & B1 & B2). exists (c :: b), x. refine (conj eq_refl (conj _ B2)). constructor; [lia| |exact B1]. rewrite andb_true_r in A. lia.
      * constructor; [lia| |exact R]. cbn [negb] in C. rewrite andb_true_r in C. lia.
Qed.
Lemma scan_inside : forall b, inside b -> forall cur r, scan_commas true false cur (b ++ r) = scan_commas true false (rev b ++ cur) r.
Proof.
  intros b B. induction B as [|c s N1 N2 B IH|c s B IH]; intros cur r; [reflexivity| |].
  - cbn [app scan_commas]. destruct (c =? 92) eqn:E1; [lia|]. destruct (c =? 34) eqn:E2; [lia|]. cbn [andb negb]. rewrite andb_false_r. rewrite IH. cbn [rev]. now rewrite <- app_assoc.
  - cbn [app scan_commas]. replace (92 =? 92) with true by reflexivity. cbn [andb]. rewrite IH. cbn [rev]. now rewrite <- !app_assoc.
Qed.
Lemma scan_piece : forall p, piece p -> forall cur r, scan_commas false false cur (p ++ r) = scan_commas false false (rev p ++ cur) r.
Proof.
  intros p P. induction P as [|c s N1 N2 P IH|b s B P IH]; intros cur r; [reflexivity| |].
  - cbn [app scan_commas]. rewrite andb_false_r. destruct (c =? 34) eqn:E2; [lia|]. destruct (c =? 44) eqn:E1; [lia|]. cbn [andb]. rewrite IH. cbn [rev]. now rewrite <- app_assoc.
  - cbn [app scan_commas]. replace (34 =? 92) with false by reflexivity. replace (34 =? 34) with true by reflexivity. cbn [andb negb]. rewrite <- app_assoc. rewrite (scan_inside b B). cbn [app scan_commas]. replace (34 =? 92) with false by reflexivity. replace (34 =? 34) with true by reflexivity. cbn [andb negb]. rewrite IH. cbn [rev]. rewrite rev_app_distr. cbn [rev]. now rewrite <- !app_assoc.
Qed.
Lemma scan_complete : forall raw p cur, Forall piece (p :: raw) -> scan_commas false false cur (p ++ concat (map (cons 44) raw)) = ((rev cur ++ p) :: raw, false).
Proof.
  induction raw as [|q raw IH]; intros p cur F; rewrite (scan_piece p (Forall_inv F)).
  - cbn [map concat scan_commas]. now rewrite rev_app_distr, rev_involutive.
  - cbn [map concat app scan_commas]. replace (44 =? 92) with false by reflexivity. replace (44 =? 34) with false by reflexivity. replace (44 =? 44) with true by reflexivity. cbn [andb negb]. rewrite (IH q [] (Forall_inv_tail F)). now rewrite rev_app_distr, rev_involutive.
Qed.
Lemma blank_filter : forall l, filter (fun p : str => match p with [] => false | _ => true end) l = filter (fun t => negb (str_eqb t [])) l.
Proof. intros l. apply filter_ext. now intros [|c s]. Qed.

(** C181: a header value is cut exactly at the commas that stand outside quotation marks;
    blanks round the pieces and blank pieces are dropped; more than the given number of
    pieces, or a quotation mark without its partner, are refused. *)
Theorem C181_pieces : forall k v ps, split_quoted_commas (N.of_nat k) v = Some ps <-> reads_as k v ps.
Proof.
  intros k v ps. unfold split_quoted_commas, reads_as, pieces_of, nonblank_trimmed. split.
  - destruct (scan_commas false false [] v) as (l, q) eqn:E. cbv zeta. rewrite blank_filter. intros H. match type of H with (if ?b then _ else _) = _ => destruct b eqn:L; [discriminate|] end. destruct q; [discriminate|]. assert (X : filter (fun t => negb (str_eqb t [])) (map trim l) = ps) by congruence. rewrite X in L. unfold llen in L. symmetry in X.
    apply scan_sound in E as (h & t & -> & F & -> & R); [|discriminate]. cbn [rev app rest_of] in *. split; [|lia]. exists h, t. refine (conj eq_refl (conj _ X)). now constructor.
  - intros ((p & raw & -> & F & ->) & L). rewrite (scan_complete raw p [] F). cbn [rev app]. cbv zeta. rewrite blank_filter. match goal with |- (if ?b then _ else _) = _ => replace b with false; [reflexivity|] end. unfold llen. lia.
Qed.
Print Assumptions C181_pieces.
Example C181_pieces_case : reads_as 2 (lit "a ""b,\""c"" , ,d") [lit "a ""b,\""c"""; lit "d"].
Proof. apply C181_pieces. vm_compute. reflexivity. Qed.

(** ** Reading *)
Lemma part_shape : forall k v ps p, reads_as k v ps -> In p ps -> p <> [] /\ trim p = p.
Proof.
  intros k v ps p ((p0 & raw & _ & _ & ->) & _) H. apply filter_In in H as (H & N0). apply in_map_iff in H as (x & <- & _). split; [|apply trim_idem]. intros X. rewrite X in N0. discriminate.
Qed.
Lemma parts_iff : forall ps l, (forall p, In p ps -> p <> [] /\ trim p = p) -> (route_parts ps = Some l <-> Forall2 (fun p r => parse_name_addr p = Some r) ps l).
Proof.
  induction ps as [|p ps IH]; intros l H; cbn [route_parts].
  - split; intros X; [assert (l = []) by congruence; subst; constructor|inversion X; reflexivity].
  - destruct (H p (or_introl eq_refl)) as (N0 & T). rewrite T. destruct p as [|c p0] eqn:P; [contradiction|]. rewrite <- P in *.
    assert (IH' : forall l, route_parts ps = Some l <-> Forall2 (fun p r => parse_name_addr p = Some r) ps l) by (intros x; apply IH; intros q Hq; apply H; now right).
    split.
    + intros X. destruct (parse_name_addr p) as [na|] eqn:E; [|discriminate]. destruct (route_parts ps) as [x|] eqn:Q; [|discriminate]. assert (l = na :: x) by congruence. subst l. constructor; [exact E|now apply IH'].
    + intros X. inversion X as [|a b c' d X1 X2]; subst. apply IH' in X2. rewrite X1, X2. reflexivity.
Qed.
Lemma values_iff : forall vs l, route_values vs = Some l <-> exists pss, Forall2 (reads_as 50) vs pss /\ Forall2 (fun p r => parse_name_addr p = Some r) (concat pss) l.
Proof.
  induction vs as [|v vs IH]; intros l; cbn [route_values].
  - split.
    + intros H. assert (l = []) by congruence. subst. exists []. split; constructor.
    + intros (pss & F & X). inversion F; subst. inversion X. reflexivity.
  - change MAX_ROUTES with (N.of_nat 50). split.
    + intros H. destruct (split_quoted_commas (N.of_nat 50) v) as [ps|] eqn:S1; [|discriminate]. apply C181_pieces in S1. destruct (route_parts ps) as [a|] eqn:A; [|discriminate]. destruct (route_values vs) as [b|] eqn:B; [|discriminate]. assert (l = a ++ b) by congruence. subst l.
      pose proof (proj1 (IH b) eq_refl) as (pss & F & X). exists (ps :: pss). split; [now constructor|]. cbn [concat]. apply Forall2_app; [|exact X]. apply parts_iff; [|exact A]. intros p. apply (part_shape 50 v ps p S1).
    + intros (pss & F & X). inversion F as [|v' ps vs' pss' F1 F2]; subst. pose proof (proj2 (C181_pieces 50 v ps) F1) as S1. rewrite S1. cbn [concat] in X. apply Forall2_app_inv_l in X as (a & b & X1 & X2 & ->).
      apply parts_iff in X1; [|intros p; now apply (part_shape 50 v ps p)]. rewrite X1. assert (Y : route_values vs = Some b) by (apply IH; now exists pss'). now rewrite Y.
Qed.

(** C181: the routes that are read are the addresses of all the pieces of all the values,
    in order; a piece that is no address, more than fifty pieces in one value and more
    than fifty routes together make the reading fail, and nothing else does. *)
Theorem C181_reads : forall vs l, parse_routes vs = Some l <->
  exists pss, Forall2 (reads_as 50) vs pss /\ Forall2 (fun p r => parse_name_addr p = Some r) (concat pss) l /\ (List.length l <= 50)%nat.
Proof.
  intros vs l. unfold parse_routes, routes_new, MAX_ROUTES. split.
  - destruct (route_values vs) as [x|] eqn:E; [|discriminate]. destruct (50 <? llen x) eqn:L; [discriminate|]. intros H. assert (x = l) by congruence. subst x. apply values_iff in E as (pss & F & X). exists pss. refine (conj F (conj X _)). unfold llen in L. lia.
  - intros (pss & F & X & L). assert (E : route_values vs = Some l) by (apply values_iff; now exists pss). rewrite E. replace (50 <? llen l) with false; [reflexivity|]. unfold llen. lia.
Qed.
Print Assumptions C181_reads.
Example C181_reads_case : exists a b c, parse_routes [lit "<sip:p1.org;lr>,""x,y"" <sip:p2.org>;lr"; lit "sip:p3.org"] = Some [a; b; c] /\ na_display b = Some (lit "x,y") /\ any_text (na_uri c) = lit "sip:p3.org".
Proof. do 3 eexists. split; [vm_compute; reflexivity|split; reflexivity]. Qed.

(** C181: however a header was built or read it has at most fifty routes; adding one puts
    it behind the others and is refused exactly when there are fifty. *)
Theorem C181_bounded : forall l, routes_built l -> (List.length l <= 50)%nat.
Proof.
  assert (K : forall (A : Type) (l : list A), (50 <? llen l) = false -> (List.length l <= 50)%nat) by (intros A l; unfold llen; lia).
  intros l B. destruct B as [l l' H|u|us l H|l u l' B H|vs l H].
  - unfold routes_new, MAX_ROUTES in H. destruct (50 <? llen l) eqn:E; [discriminate|]. assert (l = l') by congruence. subst. now apply K.
  - cbn. lia.
  - unfold routes_from_uris, MAX_ROUTES in H. destruct (50 <? llen us) eqn:E; [discriminate|]. assert (map from_uri us = l) as <- by congruence. rewrite map_length. now apply K.
  - unfold routes_add, MAX_ROUTES in H. destruct (50 <=? llen l) eqn:E; [discriminate|]. assert (l ++ [from_uri u] = l') as <- by congruence. rewrite app_length. unfold llen in E. cbn. lia.
  - now apply C181_reads in H as (_ & _ & _ & H).
Qed.
Print Assumptions C181_bounded.
Theorem C181_build : forall l us u,
  routes_new l = (if (List.length l <=? 50)%nat then Some l else None)
  /\ (forall l', routes_from_uris us = Some l' <-> (List.length us <= 50)%nat /\ routes_uris l' = us /\ forall r, In r l' -> na_display r = None /\ na_ps r = [])
  /\ (forall l', routes_add l u = Some l' <-> (List.length l < 50)%nat /\ exists r, l' = l ++ [r] /\ na_uri r = u /\ na_display r = None /\ na_ps r = []).
Proof.
  intros l us u. unfold routes_new, routes_from_uris, routes_add, MAX_ROUTES. refine (conj _ (conj _ _)).
  - unfold llen. destruct (50 <? N.of_nat (List.length l)) eqn:E; destruct (Nat.leb_spec (List.length l) 50); try reflexivity; lia.
  - intros l'. unfold llen. destruct (50 <? N.of_nat (List.length us)) eqn:E.
    + split; [discriminate|]. intros (X & _). lia.
    + split.
      * intros H. assert (map from_uri us = l') as <- by congruence. refine (conj _ (conj _ _)); [lia| |].
        -- unfold routes_uris. rewrite map_map. now rewrite map_id.
        -- intros r Hr. apply in_map_iff in Hr as (x & <- & _). split; reflexivity.
      * intros (_ & <- & H). f_equal. unfold routes_uris. rewrite map_map. rewrite <- (map_id l') at 2. apply map_ext_in. intros r Hr. apply H in Hr as (A & B). destruct r. cbn in *. subst. reflexivity.
  - intros l'. unfold llen. destruct (50 <=? N.of_nat (List.length l)) eqn:E.
    + split; [discriminate|]. intros (X & _). lia.
    + split.
      * intros H. assert (l ++ [from_uri u] = l') as <- by congruence. split; [lia|]. now exists (from_uri u).
      * intros (_ & r & -> & A & B & C). destruct r. cbn in *. subst. reflexivity.
Qed.
Print Assumptions C181_build.
Example C181_build_case : exists u, parse_any (lit "sip:p1.org;lr") = Some u /\ exists l, routes_from_uris [u] = Some l /\ routes_add l u = Some (l ++ l).
Proof. eexists. split; [vm_compute; reflexivity|]. eexists. split; reflexivity. Qed.

(** C181: the routes count as loose exactly when each address, or its SIP URI, has the
    parameter lr. *)
Theorem C181_loose : forall l, all_loose l = true <-> forall r, In r l -> says_lr r.
Proof.
  assert (K : forall (m : list (str * option str)), is_some (bget (lit "lr") m) = true <-> exists v, In (lit "lr", v) m).
  { intros m. unfold bget. split.
    - destruct (lookup str_eqb (lit "lr") m) as [v|] eqn:E; [|discriminate]. intros _. exists v. now apply (lookup_in str_eqb str_eqb_spec) in E.
    - intros (v & H). destruct (lookup str_eqb (lit "lr") m) as [w|] eqn:E; [reflexivity|]. exfalso. revert H E. induction m as [|(k, w) m IH]; [intros []|]. intros [X|X]; cbn [lookup].
      + assert (k = lit "lr") by congruence. subst k. replace (str_eqb (lit "lr") (lit "lr")) with true by reflexivity. discriminate.
      + destruct (str_eqb (lit "lr") k); [discriminate|]. now apply IH. }
  intros l. unfold all_loose. rewrite forallb_forall. split.
  - intros H r Hr. apply H in Hr. apply orb_true_iff in Hr as [Hr|Hr]; [left; now apply K|]. right. destruct (na_uri r) as [u| |]; try discriminate. apply K in Hr as (v & Hv). now exists u, v.
  - intros H r Hr. apply H in Hr. apply orb_true_iff. destruct Hr as [Hr|(u & v & E & Hv)]; [left; now apply K|right]. rewrite E. apply K. now exists v.
Qed.
Print Assumptions C181_loose.
Example C181_loose_case : exists l, parse_routes [lit "<sip:p1.org;lr>, <sip:p2.org>;lr"] = Some l /\ all_loose l = true /\ all_loose (map (fun r => mkNa (na_display r) (na_uri r) []) l) = false.
Proof. eexists. split; [vm_compute; reflexivity|split; vm_compute; reflexivity]. Qed.

(** ** Writing and reading back *)
Lemma piece_app : forall a b, piece a -> piece b -> piece (a ++ b).
Proof. intros a b A B. induction A as [|c s N1 N2 A IH|q s Q A IH]; [exact B|cbn [app]; now constructor|]. cbn [app]. rewrite <- app_assoc. cbn [app]. now constructor. Qed.
Lemma piece_plain : forall a, ~ In 34 a -> ~ In 44 a -> piece a.
Proof. induction a as [|c a IH]; intros A B; [constructor|]. constructor; [intros ->; apply A; now left|intros ->; apply B; now left|]. apply IH; intros X; [apply A|apply B]; now right. Qed.
Lemma inside_plain : forall a, ~ In 34 a -> ~ In 92 a -> inside a.
Proof. induction a as [|c a IH]; intros A B; [constructor|]. constructor; [intros ->; apply A; now left|intros ->; apply B; now left|]. apply IH; intros X; [apply A|apply B]; now right. Qed.
Lemma scan_stop : forall stop a r, (forall c, In c a -> c <> 34 /\ c <> stop) -> stop <> 34 -> scan_to stop false false (a ++ stop :: r) = Some (a, r).
Proof.
  intros stop a r H Hs. induction a as [|c a IH].
  - cbn [app scan_to andb]. apply N.eqb_neq in Hs. rewrite Hs, N.eqb_refl. reflexivity.
  - destruct (H c (or_introl eq_refl)) as [H1 H2]. cbn [app scan_to andb]. apply N.eqb_neq in H1, H2. rewrite H1, H2. rewrite IH; [reflexivity|]. intros x Hx. apply H. now right.
Qed.
Lemma scan_name : forall stop d r, ~ In 34 d -> ~ In 92 d -> scan_to stop true false (d ++ 34 :: r) = match scan_to stop false false r with Some (a, b) => Some (d ++ 34 :: a, b) | None => None end.
Proof.
  intros stop d r A B. induction d as [|c d IH].
  - cbn [app scan_to]. replace (34 =? 92) with false by reflexivity. replace (34 =? 34) with true by reflexivity. cbn [andb negb]. destruct (scan_to stop false false r) as [(a, b)|]; reflexivity.
  - cbn [app scan_to]. destruct (c =? 92) eqn:E1; [elim B; left; lia|]. destruct (c =? 34) eqn:E2; [elim A; left; lia|]. cbn [andb]. rewrite IH; [|intros X; apply A; now right|intros X; apply B; now right]. destruct (scan_to stop false false r) as [(a, b)|]; reflexivity.
Qed.
Lemma key_facts : forall k, plain_key k -> na_name k = true /\ (forall c, In c k -> is_ws c = false /\ c <> 34 /\ c <> 44 /\ c <> 59 /\ c <> 61).
Proof.
  intros k (N0 & L & _ & H). split.
  - unfold na_name. destruct k as [|c k]; [contradiction|]. apply andb_true_iff. split; [lia|]. apply forallb_forall. intros x Hx. apply H in Hx. unfold uri_token_char. apply orb_true_iff. destruct Hx as [X|[X|[X|X]]].
    + left. unfold is_alnum, is_alpha, is_digit, is_lower, is_upper, in_range. lia.
    + left. unfold is_alnum, is_alpha, is_digit, is_lower, is_upper, in_range. lia.
    + left. unfold is_alnum, is_alpha, is_digit, is_lower, is_upper, in_range. lia.
    + right. apply existsb_exists. exists x. split; [exact X|apply N.eqb_refl].
  - intros c Hc. apply H in Hc. unfold is_ws, in_range. destruct Hc as [X|[X|[X|X]]]; [lia|lia|lia|]. cbn in X. lia.
Qed.
Lemma text_fine : forall s, blen s <= 256 -> no_control s -> na_text 256 s = true.
Proof.
  intros s L H. unfold na_text. apply andb_true_iff. split; [lia|]. apply negb_true_iff. rewrite <- not_true_iff_false, existsb_exists. intros (c & Hc & X). apply H in Hc. unfold is_ascii_control in X. lia.
Qed.
(** one parameter without its semicolon *)
Definition ptext (kv : str * option str) : str := fst kv ++ match snd kv with Some v => 61 :: v | None => [] end.
Definition plain_kv (kv : str * option str) : Prop := plain_key (fst kv) /\ match snd kv with Some t => plain_value t | None => True end.
Lemma ptext_print : forall kv, print_param kv = 59 :: ptext kv.
Proof. intros (k, [v|]); reflexivity. Qed.
Lemma ptext_facts : forall kv, plain_kv kv -> ptext kv <> [] /\ trim (ptext kv) = ptext kv /\ ~ In 34 (ptext kv) /\ ~ In 44 (ptext kv) /\ ~ In 59 (ptext kv).
Proof.
  intros (k, v) (K & V). cbn [fst snd] in *. destruct (key_facts k K) as (_ & KC). assert (N0 : k <> []) by (now destruct K). unfold ptext. cbn [fst snd].
  assert (KE : edgeless k) by (apply edgeless_words, forallb_forall; intros c Hc; apply KC in Hc as (-> & _); reflexivity).
  refine (conj _ (conj _ _)); [destruct k; [contradiction|discriminate]| |].
  - destruct v as [t|]; [|rewrite app_nil_r; exact KE]. destruct V as (_ & _ & T & _). apply edgeless_app; [exact N0|discriminate|exact KE|]. destruct t as [|c t]; [reflexivity|]. change (61 :: c :: t) with ([61] ++ (c :: t)). apply edgeless_app; [discriminate|discriminate|reflexivity|exact T].
  - assert (KK : ~ In 34 k /\ ~ In 44 k /\ ~ In 59 k) by (repeat split; intros X; apply KC in X; lia). destruct v as [t|]; [|rewrite app_nil_r; exact KK]. destruct V as (_ & _ & _ & V). destruct KK as (K1 & K2 & K3), V as (V1 & V2 & V3). repeat split; intros X; apply in_app_or in X as [X|[X|X]]; try contradiction; discriminate.
Qed.
Lemma add_one : forall kv m, plain_kv kv -> (List.length m < 64)%nat -> (forall k', In k' (keys m) -> str_ltb k' (fst kv) = true) -> na_add m (ptext kv) = Some (m ++ [kv]).
Proof.
  intros (k, v) m P L H. destruct (ptext_facts _ P) as (NE & T & _). destruct P as (K & V). cbn [fst snd] in *. unfold na_add. rewrite T. destruct (ptext (k, v)) as [|c r] eqn:E; [contradiction|]. rewrite <- E. replace (MAX_NA_PARAMS <=? llen m) with false by (unfold MAX_NA_PARAMS, llen; lia).
  destruct (key_facts k K) as (_ & KC). assert (LK : lower k = k) by (now destruct K as (_ & _ & X & _)). assert (M : mem 61 k = false) by (apply mem_false; intros X; apply KC in X; lia).
  unfold ptext. cbn [fst snd]. destruct v as [t|].
  - rewrite split_once_app by exact M. replace (trim k) with k by (symmetry; apply edgeless_words, forallb_forall; intros x Hx; apply KC in Hx as (-> & _); reflexivity). destruct V as (_ & _ & T2 & Q & _). rewrite LK, T2.
    replace (trim_dquotes t) with t; [rewrite (bput_last k (Some t) m H); reflexivity|]. symmetry. apply trim_by_id, no_edge_all, forallb_forall. intros x Hx. destruct (N.eqb_spec 34 x); [subst; contradiction|reflexivity].
  - rewrite app_nil_r. rewrite (proj2 (split_once_none 61 k) M). rewrite LK. rewrite (bput_last k None m H). reflexivity.
Qed.
Lemma sorted_split : forall (a b : list (str * option str)) kv, sorted_keys (a ++ kv :: b) -> forall k, In k (keys a) -> str_ltb k (fst kv) = true.
Proof.
  induction a as [|(k0, v0) a IH]; intros b (n, v) S1 k Hk; [destruct Hk|]. cbn [app sorted_keys] in S1. destruct S1 as (A & B). destruct Hk as [<-|Hk]; [|now apply (IH b (n, v))]. apply A. unfold keys. rewrite map_app. apply in_app_iff. right. now left.
Qed.
Lemma add_many : forall ps m, Forall plain_kv ps -> sorted_keys (m ++ ps) -> (List.length (m ++ ps) <= 64)%nat -> fold_opt na_add (map ptext ps) m = Some (m ++ ps).
Proof.
  induction ps as [|kv ps IH]; intros m F S1 L; cbn [map fold_opt]; [now rewrite app_nil_r|]. assert (L' := L). rewrite app_length in L'. cbn [List.length] in L'. rewrite (add_one kv m (Forall_inv F)); [|lia|now apply (sorted_split m ps)].
  replace (m ++ kv :: ps) with ((m ++ [kv]) ++ ps) in * by (now rewrite <- app_assoc). now apply IH; [exact (Forall_inv_tail F)| |].
Qed.
Lemma cut_params : forall ps a, Forall plain_kv ps -> ~ In 59 a -> split_on 59 (a ++ flat_map print_param ps) = a :: map ptext ps.
Proof.
  induction ps as [|kv ps IH]; intros a F A; cbn [flat_map map].
  - rewrite app_nil_r. apply split_on_nomem. now apply mem_false.
  - rewrite ptext_print. change ((59 :: ptext kv) ++ flat_map print_param ps) with (59 :: (ptext kv ++ flat_map print_param ps)). rewrite split_on_app by (now apply mem_false). rewrite IH; [reflexivity|exact (Forall_inv_tail F)|]. now destruct (ptext_facts kv (Forall_inv F)) as (_ & _ & _ & _ & X).
Qed.
Lemma params_edge : forall ps, Forall plain_kv ps -> edgeless (flat_map print_param ps).
Proof.
  induction ps as [|kv ps IH]; intros F; [reflexivity|]. cbn [flat_map]. rewrite ptext_print. change ((59 :: ptext kv) ++ flat_map print_param ps) with ([59] ++ (ptext kv ++ flat_map print_param ps)). destruct (ptext_facts kv (Forall_inv F)) as (N0 & T & _).
  apply edgeless_app; [discriminate|destruct (ptext kv); [contradiction|discriminate]|reflexivity|]. destruct (flat_map print_param ps) as [|c r] eqn:E; [rewrite app_nil_r; exact T|]. apply edgeless_app; [exact N0|discriminate|exact T|]. apply IH. exact (Forall_inv_tail F).
Qed.
Lemma params_piece : forall ps, Forall plain_kv ps -> piece (flat_map print_param ps).
Proof.
  induction ps as [|kv ps IH]; intros F; [constructor|]. cbn [flat_map]. apply piece_app; [|apply IH; exact (Forall_inv_tail F)]. rewrite ptext_print. constructor; [discriminate|discriminate|]. destruct (ptext_facts kv (Forall_inv F)) as (_ & _ & A & B & _). now apply piece_plain.
Qed.
Lemma params_back : forall ps, Forall plain_kv ps -> sorted_keys ps -> (List.length ps <= 64)%nat -> na_params (trim (flat_map print_param ps)) = Some ps.
Proof.
  intros ps F S1 L. rewrite (params_edge ps F). unfold na_params. pose proof (cut_params ps [] F (fun X => X)) as C. cbn [app] in C. rewrite C. cbn [fold_opt]. change (na_add [] []) with (Some (@nil (str * option str))). cbn iota. now apply (add_many ps []).
Qed.
Lemma plain_kvs : forall r, plain_route r -> Forall plain_kv (na_ps r).
Proof. intros r (_ & _ & _ & _ & H). apply Forall_forall. intros (k, v) X. now apply H in X. Qed.
Lemma route_piece : forall r, plain_route r -> piece (print_route r).
Proof.
  intros r P. pose proof (plain_kvs r P) as F. destruct P as (D & (_ & _ & _ & U) & _). unfold print_route. apply piece_app.
  - destruct (na_display r) as [d|]; [|constructor]. destruct D as (_ & _ & D1 & D2). change (lit """" ++ d ++ lit """ ") with (34 :: d ++ 34 :: [32]). constructor; [now apply inside_plain|]. constructor; [discriminate|discriminate|constructor].
  - change (lit "<" ++ any_text (na_uri r) ++ lit ">" ++ flat_map print_param (na_ps r)) with (60 :: any_text (na_uri r) ++ [62] ++ flat_map print_param (na_ps r)). constructor; [discriminate|discriminate|]. apply piece_app; [apply piece_plain; intros X; apply U in X; lia|]. constructor; [discriminate|discriminate|]. now apply params_piece.
Qed.
Lemma route_edge : forall r, plain_route r -> edgeless (print_route r) /\ print_route r <> [].
Proof.
  intros r P. pose proof (plain_kvs r P) as F. set (T := lit "<" ++ any_text (na_uri r) ++ lit ">" ++ flat_map print_param (na_ps r)).
  assert (ET : edgeless T /\ T <> []).
  { split; [|discriminate]. unfold T. apply (edgeless_ends (lit "<") (any_text (na_uri r))); [discriminate|discriminate|reflexivity|]. destruct (flat_map print_param (na_ps r)) as [|c q] eqn:E; [reflexivity|]. apply edgeless_app; [discriminate|discriminate|reflexivity|]. rewrite <- E. now apply params_edge. }
  unfold print_route. fold T. destruct ET as (E1 & E2). destruct (na_display r) as [d|]; [|split; assumption]. split; [|discriminate].
  replace ((lit """" ++ d ++ lit """ ") ++ T) with (lit """" ++ (d ++ lit """ ") ++ T) by (now rewrite <- !app_assoc). apply edgeless_ends; [discriminate|exact E2|reflexivity|exact E1].
Qed.
Lemma route_back : forall r, plain_route r -> parse_name_addr (print_route r) = Some r.
Proof.
  intros r P. pose proof (plain_kvs r P) as F. destruct (route_edge r P) as (E & N0). unfold parse_name_addr. rewrite E. destruct (print_route r) as [|c q] eqn:Q; [contradiction|]. rewrite <- Q. clear E N0 Q c q.
  destruct P as (D & (U1 & U2 & U3 & U4) & S1 & L & H). set (rest := any_text (na_uri r) ++ 62 :: flat_map print_param (na_ps r)).
  assert (S0 : exists b, scan_to 60 false false (print_route r) = Some (b, rest) /\ match trim b with [] => None | d => Some (trim_dquotes d) end = na_display r).
  { unfold print_route. destruct (na_display r) as [d|].
    - change ((lit """" ++ d ++ lit """ ") ++ lit "<" ++ any_text (na_uri r) ++ lit ">" ++ flat_map print_param (na_ps r)) with (34 :: ((d ++ 34 :: [32]) ++ 60 :: rest)).
      replace ((d ++ 34 :: [32]) ++ 60 :: rest) with (d ++ 34 :: (32 :: 60 :: rest)) by (now rewrite <- app_assoc). destruct D as (_ & _ & D1 & D2). cbn [scan_to]. replace (34 =? 34) with true by reflexivity. cbn [andb negb]. rewrite (scan_name 60 d (32 :: 60 :: rest) D1 D2).
      assert (X : scan_to 60 false false (32 :: 60 :: rest) = Some ([32], rest)) by reflexivity. rewrite X. eexists. split; [reflexivity|].
      assert (T : trim (34 :: d ++ [34; 32]) = 34 :: d ++ [34]).
      { pose proof (trim_pad [] ([34] ++ d ++ [34]) [32] eq_refl eq_refl) as X2. cbn [app] in X2. rewrite <- app_assoc in X2. cbn [app] in X2. rewrite X2. change (34 :: d ++ [34]) with ([34] ++ d ++ [34]). apply edgeless_ends; [discriminate|discriminate|reflexivity|reflexivity]. }
      rewrite T. cbn iota. f_equal. change (trim_quotes ([34] ++ d ++ [34]) = d). apply trim_quotes_quoted. now apply mem_false.
    - exists []. split; reflexivity. }
  destruct S0 as (b & -> & DB). unfold rest. rewrite scan_stop; [|intros c Hc; apply U4 in Hc; lia|discriminate]. rewrite (params_back _ F S1 L), U3, U1, DB.
  replace (any_without_headers (na_uri r)) with (na_uri r).
  2: { destruct (na_uri r) as [s| |]; try reflexivity. destruct s as [raw sips user host port ps hs]. cbn in U2. subst hs. reflexivity. }
  unfold na_new. match goal with |- (if ?x then _ else _) = _ => replace x with true end; [now destruct r|]. symmetry. apply andb_true_iff. split; [apply andb_true_iff; split|].
  - destruct (na_display r) as [d|]; [|reflexivity]. destruct D as (D1 & D2 & _). now apply text_fine.
  - unfold llen. lia.
  - apply forallb_forall. intros (k, v) X. apply H in X as (K & V). cbn [fst snd]. apply andb_true_iff. split; [now apply key_facts|]. destruct v as [t|]; [|reflexivity]. destruct V as (V1 & V2 & _). now apply text_fine.
Qed.
Lemma join_tail : forall (rs : list str) x, join (lit ", ") (x :: rs) = x ++ concat (map (cons 44) (map (cons 32) rs)).
Proof.
  induction rs as [|y rs IH]; intros x; [cbn; now rewrite app_nil_r|]. change (join (lit ", ") (x :: y :: rs)) with (x ++ lit ", " ++ join (lit ", ") (y :: rs)). rewrite IH. reflexivity.
Qed.
Lemma routes_read : forall l, Forall plain_route l -> (List.length l <= 50)%nat -> reads_as 50 (print_routes l) (map print_route l).
Proof.
  intros l F L. split; [|now rewrite map_length]. unfold print_routes. destruct l as [|r l].
  - exists [], []. refine (conj eq_refl (conj _ eq_refl)). repeat constructor.
  - cbn [map]. rewrite join_tail. exists (print_route r), (map (cons 32) (map print_route l)). refine (conj eq_refl (conj _ _)).
    + constructor; [now apply route_piece, (Forall_inv F)|]. apply Forall_forall. intros x Hx. apply in_map_iff in Hx as (y & <- & Hy). apply in_map_iff in Hy as (q & <- & Hq). constructor; [discriminate|discriminate|]. apply route_piece. apply (proj1 (Forall_forall _ _) (Forall_inv_tail F) q Hq).
    + cbn [map]. rewrite map_map.
      assert (E : map (fun x => trim (32 :: x)) (map print_route l) = map print_route l).
      { rewrite <- (map_id (map print_route l)) at 2. apply map_ext_in. intros x Hx. apply in_map_iff in Hx as (q & <- & Hq). change (trim (32 :: print_route q)) with (trim (print_route q)). apply route_edge. apply (proj1 (Forall_forall _ _) (Forall_inv_tail F) q Hq). }
      rewrite E. replace (trim (print_route r)) with (print_route r) by (symmetry; apply route_edge, (Forall_inv F)). change (print_route r :: map print_route l) with (map print_route (r :: l)). clear E L. induction F as [|q qs Q F IH]; [reflexivity|]. cbn [map filter]. rewrite <- IH. destruct (print_route q) eqn:X; [now apply route_edge in Q as (_ & Q)|reflexivity].
Qed.

(** C181: headers that are written and read back are the same, as several values or as
    one, as long as no text in them holds a character that the reader takes for an end. *)
Theorem C181_roundtrip : forall ls, Forall (Forall plain_route) ls -> (List.length (concat ls) <= 50)%nat -> parse_routes (map print_routes ls) = Some (concat ls).
Proof.
  intros ls F L. apply C181_reads. exists (map (map print_route) ls). refine (conj _ (conj _ L)).
  - induction F as [|l ls P F IH]; [constructor|]. cbn [map concat] in *. rewrite app_length in L. constructor; [apply routes_read; [exact P|lia]|apply IH; lia].
  - rewrite <- concat_map. clear L. assert (G : Forall plain_route (concat ls)) by (induction F as [|l ls P F IH]; [constructor|cbn [concat]; apply Forall_app; now split]). induction G as [|r rs R G IH]; [constructor|]. cbn [map]. constructor; [now apply route_back|exact IH].
Qed.
Print Assumptions C181_roundtrip.
Example C181_roundtrip_case : exists a b, parse_any (lit "sip:p1.org;lr") = Some a /\ parse_any (lit "sip:p2.org") = Some b
  /\ Forall (Forall plain_route) [[from_uri a; mkNa (Some (lit "x, y")) b [(lit "lr", None); (lit "ob", Some (lit "a=1"))]]].
Proof.
  do 2 eexists. split; [vm_compute; reflexivity|split; [vm_compute; reflexivity|]]. constructor; [|constructor]. constructor; [|constructor; [|constructor]].
  - refine (conj I (conj (conj _ (conj eq_refl (conj _ _))) (conj I (conj _ _)))); [vm_compute; reflexivity|vm_compute; reflexivity| |cbn; lia|intros k v []]. cbn. intros c H. lia.
  - refine (conj _ (conj (conj _ (conj eq_refl (conj _ _))) (conj _ (conj _ _)))); [|vm_compute; reflexivity|vm_compute; reflexivity| | |cbn; lia|].
    + split; [vm_compute; discriminate|]. split; [intros c H; cbn in H; lia|]. split; intros H; cbn in H; lia.
    + cbn. intros c H. lia.
    + cbn. split; [|split; [|exact I]]; intros k H; cbn in H; [destruct H as [<-|[]]; reflexivity|destruct H].
    + cbn [na_ps]. intros k v [X|[X|[]]]; injection X as <- <-.
      * split; [|exact I]. split; [discriminate|]. split; [vm_compute; discriminate|]. split; [reflexivity|]. intros c H. cbn in H. lia.
      * split; [split; [discriminate|split; [vm_compute; discriminate|split; [reflexivity|intros c H; cbn in H; lia]]]|]. split; [vm_compute; discriminate|]. split; [intros c H; cbn in H; lia|]. split; [reflexivity|]. repeat split; intros H; cbn in H; lia.
Qed.
(** C181: not every header survives: a comma in a user part, which RFC 3261 allows, cuts
    the address in two; the headers of a URI are dropped; a quotation mark in a name is
    written as it is. *)
Theorem C181_comma_refuted : exists u, parse_any (lit "sip:a,b@c.org") = Some u /\ parse_routes [print_routes [from_uri u]] = None.
Proof. eexists. split; [vm_compute; reflexivity|]. vm_compute. reflexivity. Qed.
Print Assumptions C181_comma_refuted.
Theorem C181_headers_refuted : exists u r, parse_any (lit "sip:c.org?x=y") = Some u /\ parse_routes [print_routes [from_uri u]] = Some [r] /\ any_text (na_uri r) = lit "sip:c.org".
Proof. do 2 eexists. split; [vm_compute; reflexivity|split; [vm_compute; reflexivity|]]. vm_compute. reflexivity. Qed.
Print Assumptions C181_headers_refuted.
Theorem C181_quote_refuted : exists u r, parse_any (lit "sip:c.org") = Some u /\ na_new (Some (lit "a"" <sip:evil.org>, ""b")) u [] = Some r
  /\ exists r1 r2, parse_routes [print_routes [r]] = Some [r1; r2] /\ any_text (na_uri r1) = lit "sip:evil.org".
Proof. do 2 eexists. split; [vm_compute; reflexivity|split; [vm_compute; reflexivity|]]. do 2 eexists. split; [vm_compute; reflexivity|]. vm_compute. reflexivity. Qed.
Print Assumptions C181_quote_refuted.
