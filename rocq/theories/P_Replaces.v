(** Property C145: the Replaces header and attended transfers. *)
From Coq Require Import Arith NArith Bool String List Lia ZifyBool ZifyN ZifyNat.
Import ListNotations.
From Verif Require Import Base BaseFacts NumFacts Text TextFacts TypedFacts Headers Msg Uri Dialog Uac UacSpec UacProofs Replaces ReplacesSpec P_Uac.
Open Scope N_scope.
Open Scope list_scope.

Lemma spaces_blanks : forall s, spaces s -> blanks s.
Proof. intros s H. unfold blanks. apply forallb_forall. exact H. Qed.
Lemma atom_iff : forall s, atom s <-> s <> [] /\ mem 59 s = false /\ edgeless s.
Proof.
  intros s. unfold atom. rewrite mem_false. split.
  - intros (A & B & C & D). split; [exact A|]. split; [exact B|]. apply trim_by_id. split.
    + destruct s as [|c s]; [exact I|]. now apply (C c s).
    + destruct (rev s) as [|c r] eqn:E; [exact I|]. apply (D (rev r) c). rewrite <- (rev_involutive s), E. reflexivity.
  - intros (A & B & C). apply edgeless_no_edge in C as [C D]. split; [exact A|]. split; [exact B|]. split.
    + intros c r ->. exact C.
    + intros r c ->. rewrite rev_app_distr in D. exact D.
Qed.
Lemma text_iff : forall mx s, rp_text mx s = true <-> s <> [] /\ sound_text mx s.
Proof.
  intros mx s. unfold rp_text, sound_text. rewrite !andb_true_iff, !negb_true_iff, N.leb_le. split.
  - intros ((A & B) & C). split; [now destruct s|]. split; [exact B|]. intros c Hc. assert (X : is_ascii_control c = false).
    { destruct (is_ascii_control c) eqn:E; [|reflexivity]. rewrite <- C. symmetry. apply existsb_exists. now exists c. }
    unfold is_ascii_control in X. lia.
  - intros (A & B & C). split; [split; [now destruct s|exact B]|]. destruct (existsb is_ascii_control s) eqn:E; [|reflexivity].
    apply existsb_exists in E as (c & Hc & E). specialize (C c Hc). unfold is_ascii_control in E. lia.
Qed.

(** *** reading one parameter *)
Lemma param_piece : forall a n b c v d t, spaces a -> spaces b -> spaces c -> spaces d -> lower n = t ->
  forallb (fun x => negb (is_ws x)) t = true -> mem 61 t = false -> t <> [] -> atom v ->
  split_once 61 (trim (a ++ n ++ b ++ [61] ++ c ++ v ++ d)) = Some (n ++ b, c ++ v)
  /\ trim (n ++ b) = n /\ trim (c ++ v) = v.
Proof.
  intros a n b c v d t Ha Hb Hc Hd Hn Ht T61 Tne Hv. apply atom_iff in Hv as (V1 & V2 & V3).
  apply spaces_blanks in Ha, Hb, Hc, Hd. pose proof (lower_edgeless n t Hn Ht) as En.
  assert (Nn : n <> []) by (intros ->; now subst t).
  replace (a ++ n ++ b ++ [61] ++ c ++ v ++ d) with (a ++ (n ++ (b ++ [61] ++ c) ++ v) ++ d) by (now rewrite <- !app_assoc).
  rewrite (trim_pad a _ d Ha Hd), (edgeless_ends n _ v Nn V1 En V3).
  split.
  - replace (n ++ (b ++ [61] ++ c) ++ v) with ((n ++ b) ++ 61 :: (c ++ v)) by (rewrite <- !app_assoc; reflexivity). apply split_once_app.
    rewrite mem_app. rewrite <- (mem_lower 61 n eq_refl), Hn, T61. cbn [orb]. apply mem_false. intros K. unfold blanks in Hb. rewrite forallb_forall in Hb. apply Hb in K. discriminate K.
  - rewrite (trim_right n b Hb), (trim_left c v Hc). split; [exact En|exact V3].
Qed.
Lemma trim_word : forall a w d t, spaces a -> spaces d -> lower w = t -> forallb (fun x => negb (is_ws x)) t = true -> trim (a ++ w ++ d) = w.
Proof. intros a w d t Ha Hd Hw Ht. rewrite trim_pad by now apply spaces_blanks. now apply (lower_edgeless w t). Qed.
Lemma not_early : forall a n b c v d, spaces a -> spaces d -> lower n = lit "to-tag" \/ lower n = lit "from-tag" -> atom v ->
  eq_ic (trim (a ++ n ++ b ++ [61] ++ c ++ v ++ d)) (lit "early-only") = false.
Proof.
  intros a n b c v d Ha Hd Hn Hv. destruct (eq_ic _ _) eqn:E; [|reflexivity]. apply eq_ic_spec in E. exfalso.
  apply atom_iff in Hv as (V1 & V2 & V3). apply spaces_blanks in Ha, Hd.
  assert (En : edgeless n) by (destruct Hn as [Hn|Hn]; now apply (lower_edgeless n _ Hn)).
  assert (Nn : n <> []) by (intros ->; destruct Hn; discriminate).
  replace (a ++ n ++ b ++ [61] ++ c ++ v ++ d) with (a ++ (n ++ (b ++ [61] ++ c) ++ v) ++ d) in E by (now rewrite <- !app_assoc).
  rewrite (trim_pad a _ d Ha Hd), (edgeless_ends n _ v Nn V1 En V3) in E.
  assert (M : mem 61 (lower (n ++ (b ++ [61] ++ c) ++ v)) = mem 61 (lower (lit "early-only"))) by now rewrite E.
  rewrite (mem_lower 61) in M by reflexivity. rewrite !mem_app in M. cbn in M. rewrite ?orb_true_r in M. cbn in M. rewrite ?orb_true_r in M. discriminate M.
Qed.
Definition one (o : option str) (l : list str) : option str := match o with Some x => Some x | None => match l with x :: _ => Some x | [] => None end end.
Lemma params_read : forall ps l, Forall2 written ps l -> forall o1 o2 e,
  (List.length (match o1 with Some x => [x] | None => [] end ++ tos l) <= 1)%nat ->
  (List.length (match o2 with Some x => [x] | None => [] end ++ froms l) <= 1)%nat ->
  (forall v, In v (tos l) \/ In v (froms l) -> rp_text RP_MAX_TAG v = true) ->
  rp_params (map trim ps) o1 o2 e = Some (one o1 (tos l), one o2 (froms l), e || existsb (fun x => match x with SaysEarly => true | _ => false end) l).
Proof.
  induction 1 as [|p x ps l Hp Hl IH]; intros o1 o2 e L1 L2 HV.
  - cbn. rewrite orb_false_r. destruct o1, o2; reflexivity.
  - cbn [map rp_params]. destruct Hp as [a n b c v d Ha Hb Hc Hd Hn Hv|a n b c v d Ha Hb Hc Hd Hn Hv|a w d Ha Hd Hw].
    + rewrite (not_early a n b c v d Ha Hd (or_introl Hn) Hv).
      destruct (param_piece a n b c v d _ Ha Hb Hc Hd Hn eq_refl eq_refl ltac:(discriminate) Hv) as (E1 & E2 & E3).
      rewrite E1. cbv zeta. rewrite E2, E3. replace (eq_ic n (lit "to-tag")) with true by (symmetry; apply eq_ic_spec; rewrite Hn; reflexivity).
      cbn [tos flat_map app] in *. change (flat_map _ l) with (tos l) in *. change (froms (SaysTo v :: l)) with (froms l) in *.
      rewrite (HV v (or_introl (or_introl eq_refl))).
      destruct o1 as [y|]; [cbn in L1; lia|]. rewrite IH; [| |exact L2|].
      * cbn [one existsb]. destruct (tos l); reflexivity.
      * cbn in *. lia.
      * intros w [K|K]; apply HV; [left; now right|now right].
    + rewrite (not_early a n b c v d Ha Hd (or_intror Hn) Hv).
      destruct (param_piece a n b c v d _ Ha Hb Hc Hd Hn eq_refl eq_refl ltac:(discriminate) Hv) as (E1 & E2 & E3).
      rewrite E1. cbv zeta. rewrite E2, E3.
      replace (eq_ic n (lit "to-tag")) with false by (symmetry; unfold eq_ic; rewrite Hn; reflexivity).
      replace (eq_ic n (lit "from-tag")) with true by (symmetry; apply eq_ic_spec; rewrite Hn; reflexivity).
      cbn [froms flat_map app] in *. change (flat_map _ l) with (froms l) in *. change (tos (SaysFrom v :: l)) with (tos l) in *.
      rewrite (HV v (or_intror (or_introl eq_refl))).
      destruct o2 as [y|]; [cbn in L2; lia|]. rewrite IH; [|exact L1| |].
      * cbn [one existsb]. destruct (froms l); reflexivity.
      * cbn in *. lia.
      * intros w [K|K]; apply HV; [now left|right; now right].
    + rewrite (trim_word a w d _ Ha Hd Hw eq_refl).
      replace (eq_ic w (lit "early-only")) with true by (symmetry; apply eq_ic_spec; rewrite Hw; reflexivity).
      change (tos (SaysEarly :: l)) with (tos l) in *. change (froms (SaysEarly :: l)) with (froms l) in *.
      rewrite IH by assumption. cbn [existsb]. now rewrite orb_true_r.
Qed.
Lemma written_nomem : forall p x, written p x -> mem 59 p = false.
Proof.
  assert (S : forall s, spaces s -> mem 59 s = false) by (intros s H; apply mem_false; intros K; apply H in K; discriminate K).
  assert (L : forall n t, lower n = t -> mem 59 t = false -> mem 59 n = false) by (intros n t <- H; now rewrite (mem_lower 59 n eq_refl) in H).
  intros p x [a n b c v d Ha Hb Hc Hd Hn Hv|a n b c v d Ha Hb Hc Hd Hn Hv|a w d Ha Hd Hw]; rewrite !mem_app.
  - apply atom_iff in Hv as (_ & V & _). rewrite (S a Ha), (S b Hb), (S c Hc), (S d Hd), (L n _ Hn eq_refl), V. reflexivity.
  - apply atom_iff in Hv as (_ & V & _). rewrite (S a Ha), (S b Hb), (S c Hc), (S d Hd), (L n _ Hn eq_refl), V. reflexivity.
  - rewrite (S a Ha), (S d Hd), (L w _ Hw eq_refl). reflexivity.
Qed.

Lemma split_nil : split_on 59 [] = [[]].
Proof. reflexivity. Qed.
(** trimming the whole text changes only the outer pieces *)
Lemma trimmed_pieces : forall s, map trim (split_on 59 (trim s)) = map trim (split_on 59 s).
Proof.
  assert (F : forall s, map trim (split_on 59 (drop_while is_ws s)) = map trim (split_on 59 s)).
  { induction s as [|c s IH]; [reflexivity|]. cbn [drop_while]. destruct (is_ws c) eqn:E; [|reflexivity]. rewrite IH. cbn [split_on].
    replace (c =? 59) with false by (symmetry; apply N.eqb_neq; intros ->; discriminate E).
    destruct (split_on 59 s) as [|h t] eqn:E2; [now apply split_on_nonempty in E2|]. cbn [map]. f_equal.
    symmetry. apply (trim_left [c] h). unfold blanks. cbn. now rewrite E. }
  assert (B : forall s b, blanks b -> map trim (split_on 59 (s ++ b)) = map trim (split_on 59 s)).
  { intros s b Hb. assert (N59 : mem 59 b = false) by (apply mem_false; intros K; unfold blanks in Hb; rewrite forallb_forall in Hb; apply Hb in K; discriminate K).
    induction s as [|c s IH]; cbn [app].
    - rewrite (split_on_nomem 59 b N59). cbn [map]. now rewrite (trim_blanks_of b Hb).
    - cbn [split_on]. destruct (c =? 59) eqn:E; [cbn [map]; now rewrite IH|].
      destruct (split_on 59 s) as [|h t] eqn:E2; [now apply split_on_nonempty in E2|].
      destruct (split_on 59 (s ++ b)) as [|h' t'] eqn:E3; [now apply split_on_nonempty in E3|]. cbn [map] in *. injection IH as I1 I2. rewrite I2. f_equal.
      (* the first pieces differ by blanks only *)
      destruct (mem 59 s) eqn:M.
      + assert (h' = h) as ->; [|reflexivity].
        apply mem_In in M. apply in_split in M as (x & y & ->).
        assert (X : exists p q, x ++ 59 :: y = p ++ 59 :: q /\ mem 59 p = false).
        { destruct (split_once 59 (x ++ 59 :: y)) as [(p, q)|] eqn:K; [apply split_once_some in K as (-> & K); exists p, q; now split|].
          apply split_once_none in K. rewrite mem_app in K. cbn in K. now rewrite orb_true_r in K. }
        destruct X as (p & q & EX & Hp). rewrite EX in E2, E3. rewrite <- app_assoc in E3. cbn [app] in E3. rewrite (split_on_app 59 p q Hp) in E2. rewrite (split_on_app 59 p (q ++ b) Hp) in E3. congruence.
      + rewrite (split_on_nomem 59 s M) in E2. injection E2 as <- <-. rewrite split_on_nomem in E3 by (now rewrite mem_app, M, N59). injection E3 as <- <-.
        change (c :: s ++ b) with ((c :: s) ++ b). now apply trim_right. }
  intros s. unfold trim at 2. unfold trim_by, trim_start_by. destruct (trim_end_by_prefix is_ws (drop_while is_ws s)) as (b & E & Hb).
  rewrite <- (F s). rewrite E at 2. symmetry. now apply B.
Qed.

(** ** C145: the header is read as written and written as read *)
Theorem C145_reads : forall a c d ps l t f, spaces a -> spaces d -> atom c -> sound_text 256 c ->
  Forall2 written ps l -> tos l = [t] -> froms l = [f] -> sound_text 128 t -> sound_text 128 f ->
  blen (join [59] ((a ++ c ++ d) :: ps)) <= 1024 ->
  replaces_parse (join [59] ((a ++ c ++ d) :: ps)) = Some (mkReplaces c t f (existsb (fun x => match x with SaysEarly => true | _ => false end) l)).
Proof.
  intros a c d ps l t f Ha Hd Hc Sc HF Et Ef St Sf L. unfold replaces_parse. replace (RP_MAX_INPUT <? blen (join [59] ((a ++ c ++ d) :: ps))) with false by (unfold RP_MAX_INPUT; lia).
  rewrite trimmed_pieces. apply spaces_blanks in Ha, Hd. apply atom_iff in Hc as (C1 & C2 & C3).
  assert (NB : forall s, blanks s -> mem 59 s = false).
  { intros s Hs. apply mem_false. intros K. unfold blanks in Hs. rewrite forallb_forall in Hs. apply Hs in K. discriminate K. }
  rewrite split_on_join; [|discriminate|].
  - cbn [map]. rewrite (trim_pad a c d Ha Hd). rewrite C3.
    assert (A : forall s mx, s <> [] -> sound_text mx s -> rp_text mx s = true) by (intros; apply text_iff; now split).
    assert (At : atom t /\ atom f).
    { clear - HF Et Ef. assert (X : forall ps l, Forall2 written ps l -> (forall v, In v (tos l) -> atom v) /\ (forall v, In v (froms l) -> atom v)).
      { clear. induction 1 as [|p x ps l Hp Hl (I1 & I2)]; [split; intros ? []|].
        destruct Hp; cbn [tos froms flat_map app]; (split; [intros ? K|intros ? K]); try (destruct K as [<-|K]; [assumption|]); auto. }
      destruct (X ps l HF) as (X1 & X2). rewrite Et in X1. rewrite Ef in X2. split; [apply X1|apply X2]; now left. }
    destruct At as (At & Af).
    rewrite (A c RP_MAX_CALL_ID C1 Sc).
    rewrite (params_read ps l HF None None false).
    + rewrite Et, Ef. reflexivity.
    + rewrite Et. cbn. lia.
    + rewrite Ef. cbn. lia.
    + intros v [K|K]; [rewrite Et in K|rewrite Ef in K]; destruct K as [<-|[]]; apply A; try assumption; [apply At|apply Af].
  - constructor.
    + rewrite !mem_app, (NB a Ha), (NB d Hd), C2. reflexivity.
    + clear - HF. induction HF as [|p x ps l Hp _ IH]; constructor; [now apply (written_nomem p x)|exact IH].
Qed.
Print Assumptions C145_reads.

Lemma params_clean : forall ps o1 o2 e t f e', Forall (fun p => mem 59 p = false) ps ->
  (forall x, o1 = Some x -> atom x /\ rp_text RP_MAX_TAG x = true) -> (forall x, o2 = Some x -> atom x /\ rp_text RP_MAX_TAG x = true) ->
  rp_params ps o1 o2 e = Some (Some t, Some f, e') -> (atom t /\ rp_text RP_MAX_TAG t = true) /\ (atom f /\ rp_text RP_MAX_TAG f = true).
Proof.
  induction ps as [|p ps IH]; intros o1 o2 e t f e' HP H1 H2 H; cbn [rp_params] in H.
  - injection H as -> -> _. split; auto.
  - inversion HP as [|? ? Hp HPs]; subst. destruct (eq_ic p (lit "early-only")); [now apply (IH o1 o2 true t f e')|].
    destruct (split_once 61 p) as [(k, v)|] eqn:E; [|discriminate]. cbv zeta in H. apply split_once_some in E as (-> & _).
    assert (V : rp_text RP_MAX_TAG (trim v) = true -> atom (trim v) /\ rp_text RP_MAX_TAG (trim v) = true).
    { intros K. split; [|exact K]. apply atom_iff. apply text_iff in K as (K & _). split; [exact K|]. split; [|apply trim_edgeless]. apply trim_mem.
      rewrite mem_app in Hp. apply orb_false_iff in Hp as (_ & Hp). apply mem_cons_false in Hp. apply Hp. }
    destruct (eq_ic (trim k) (lit "to-tag")).
    + destruct (rp_text RP_MAX_TAG (trim v)) eqn:T; [|discriminate]. destruct o1; [discriminate|]. apply (IH _ _ _ _ _ _ HPs) in H; [exact H| |exact H2]. intros x [= <-]. rewrite T. now apply V.
    + destruct (eq_ic (trim k) (lit "from-tag")); [|discriminate].
      destruct (rp_text RP_MAX_TAG (trim v)) eqn:T; [|discriminate]. destruct o2; [discriminate|]. apply (IH _ _ _ _ _ _ HPs) in H; [exact H|exact H1|]. intros x [= <-]. rewrite T. now apply V.
Qed.
Lemma parsed_clean : forall s h, replaces_parse s = Some h -> clean_replaces h /\ sound_text 256 (rp_call h) /\ sound_text 128 (rp_to h) /\ sound_text 128 (rp_from h).
Proof.
  intros s h H. unfold replaces_parse in H. destruct (RP_MAX_INPUT <? blen s); [discriminate|].
  pose proof (split_parts_clean 59 (trim s)) as C. destruct (map trim (split_on 59 (trim s))) as [|c ps]; [discriminate|].
  destruct (rp_text RP_MAX_CALL_ID c) eqn:T; [|discriminate].
  destruct (rp_params ps None None false) as [[[[t|] [f|]] e]|] eqn:P; try discriminate. injection H as <-.
  apply params_clean in P as ((A1 & A2) & (B1 & B2)).
  - apply text_iff in T as (T0 & T). apply text_iff in A2 as (_ & A2). apply text_iff in B2 as (_ & B2). unfold clean_replaces. cbn [rp_call rp_to rp_from].
    split; [|split; [exact T|split; [exact A2|exact B2]]]. split; [|now split]. apply atom_iff. split; [exact T0|]. apply C. now left.
  - apply Forall_forall. intros p Hp. apply C. now right.
  - discriminate.
  - discriminate.
Qed.
Lemma printed : forall h, replaces_print h = join [59] (([] ++ rp_call h ++ []) :: ([] ++ lit "to-tag" ++ [] ++ [61] ++ [] ++ rp_to h ++ [])
  :: ([] ++ lit "from-tag" ++ [] ++ [61] ++ [] ++ rp_from h ++ []) :: (if rp_early h then [[] ++ lit "early-only" ++ []] else [])).
Proof.
  intros [c t f e]. unfold replaces_print. cbn [rp_call rp_to rp_from rp_early]. rewrite join_followed. unfold followed. cbn [app flat_map]. rewrite !app_nil_r.
  f_equal. change (lit ";to-tag=") with (59 :: lit "to-tag" ++ [61]). change (lit ";from-tag=") with (59 :: lit "from-tag" ++ [61]).
  destruct e; cbn [flat_map app]; rewrite <- ?app_assoc; cbn [app]; rewrite <- ?app_assoc; cbn [app]; rewrite ?app_nil_r; reflexivity.
Qed.
Lemma print_parse : forall h, clean_replaces h -> sound_text 256 (rp_call h) -> sound_text 128 (rp_to h) -> sound_text 128 (rp_from h) ->
  replaces_parse (replaces_print h) = Some h.
Proof.
  intros h (Ac & At & Af) Sc St Sf.
  assert (L : blen (replaces_print h) <= 1024).
  { unfold replaces_print. rewrite !blen_app. destruct Sc as (Sc & _), St as (St & _), Sf as (Sf & _).
    change (blen (lit ";to-tag=")) with 8. change (blen (lit ";from-tag=")) with 10.
    destruct (rp_early h); [change (blen (lit ";early-only")) with 11|change (blen []) with 0]; lia. }
  rewrite printed in *. set (l := SaysTo (rp_to h) :: SaysFrom (rp_from h) :: (if rp_early h then [SaysEarly] else [])).
  assert (E0 : forall a, In a (@nil N) -> is_ws a = true) by (intros ? []).
  rewrite (C145_reads [] (rp_call h) [] _ l (rp_to h) (rp_from h)); try assumption; try exact E0.
  - f_equal. destruct h as [c t f [|]]; reflexivity.
  - constructor; [apply written_to; try assumption; try exact E0; reflexivity|]. constructor; [apply written_from; try assumption; try exact E0; reflexivity|].
    destruct (rp_early h); [|constructor]. constructor; [|constructor]. now apply written_early.
  - unfold l, tos. cbn [flat_map app]. destruct (rp_early h); reflexivity.
  - unfold l, froms. cbn [flat_map app]. destruct (rp_early h); reflexivity.
Qed.
(** what was read can be written and read again *)
Theorem C145_reparse : forall s h, replaces_parse s = Some h -> replaces_parse (replaces_print h) = Some h.
Proof. intros s h H. apply parsed_clean in H as (A & B & C & D). now apply print_parse. Qed.
Print Assumptions C145_reparse.
(** what was made from parts survives exactly when its parts are atoms *)
Theorem C145_roundtrip_partial : forall c t f e h, replaces_new c t f e = Some h ->
  (replaces_parse (replaces_print h) = Some h <-> atom c /\ atom t /\ atom f).
Proof.
  intros c t f e h H. unfold replaces_new in H. destruct (rp_text RP_MAX_CALL_ID c && rp_text RP_MAX_TAG t && rp_text RP_MAX_TAG f) eqn:E; [|discriminate].
  injection H as <-. apply andb_prop in E as (E & F). apply andb_prop in E as (C & T). apply text_iff in C as (_ & C). apply text_iff in T as (_ & T). apply text_iff in F as (_ & F). split.
  - intros P. apply parsed_clean in P as (P & _). exact P.
  - intros P. now apply print_parse.
Qed.
Print Assumptions C145_roundtrip_partial.
(** a semicolon in the Call-ID or a blank at its end is accepted by [new] and then lost *)
Theorem C145_roundtrip_refuted : exists h1 h2, replaces_new (lit "a;b") (lit "1") (lit "2") false = Some h1 /\ replaces_parse (replaces_print h1) = None
  /\ replaces_new (lit "a;early-only") (lit "1") (lit "2") false = Some h2
  /\ replaces_parse (replaces_print h2) = Some (mkReplaces (lit "a") (lit "1") (lit "2") true).
Proof. do 2 eexists. split; [vm_compute; reflexivity|]. split; [vm_compute; reflexivity|]. split; [vm_compute; reflexivity|vm_compute; reflexivity]. Qed.
Print Assumptions C145_roundtrip_refuted.
Example C145_example : replaces_parse (lit " 98@test ; From-Tag = 6 ;to-tag=7; early-only") = Some (mkReplaces (lit "98@test") (lit "7") (lit "6") true).
Proof. vm_compute. reflexivity. Qed.

(** ** Attended transfers *)
Lemma upper_hex_val : forall x, x < 16 -> hex_val (upper_hex x) = Some x.
Proof.
  intros x H. unfold upper_hex. destruct (x <? 10) eqn:E.
  - unfold hex_val. replace (is_digit (48 + x)) with true by (unfold is_digit, in_range; lia). f_equal. lia.
  - unfold hex_val. replace (is_digit (55 + x)) with false by (unfold is_digit, in_range; lia). replace (in_range 97 102 (55 + x)) with false by (unfold in_range; lia).
    replace (in_range 65 70 (55 + x)) with true by (unfold in_range; lia). f_equal. lia.
Qed.
Lemma url_decode : forall s r, is_str s = true -> pct_decode (url_encode s ++ r) = utf8 s ++ pct_decode r.
Proof.
  intros s r Hs. unfold url_encode. assert (B : forall b, In b (utf8 s) -> b < 256) by (intros b Hb; now apply (utf8_byte s)).
  revert B. generalize (utf8 s). induction l as [|b l IH]; intros HB; [reflexivity|]. cbn [flat_map]. specialize (IH (fun x H => HB x (or_intror H))). specialize (HB b (or_introl eq_refl)).
  destruct (unreserved b) eqn:E.
  - cbn [app]. cbn [pct_decode]. replace (b =? 37) with false; [now rewrite IH|].
    symmetry. apply N.eqb_neq. intros ->. discriminate E.
  - cbn [app]. cbn [pct_decode]. change (37 =? 37) with true. cbv iota. rewrite (upper_hex_val (b / 16)) by (apply N.div_lt_upper_bound; lia). rewrite (upper_hex_val (b mod 16)) by (apply N.mod_lt; lia).
    cbn [app]. rewrite IH. f_equal. pose proof (N.div_mod b 16 ltac:(lia)). lia.
Qed.
Lemma url_ascii : forall s, is_str s = true -> utf8 (url_encode s) = url_encode s.
Proof.
  intros s Hs. apply utf8_ascii. apply forallb_forall. intros c Hc. apply url_small in Hc; [|exact Hs]. unfold is_ascii. lia.
Qed.
(** the Refer-To of an attended transfer holds the address followed by a Replaces that, decoded,
    names the dialog as its other end sees it *)
Theorem C145_transfer : forall u f d r t u' q, perform u f (CReferReplaces d r t) = (u', Ret (Some q)) ->
  is_str (di_call (d_id t)) = true -> is_str (di_local (d_id t)) = true -> is_str (di_remote (d_id t)) = true ->
  atom (di_call (d_id t)) -> atom (di_local (d_id t)) -> atom (di_remote (d_id t)) ->
  sound_text 256 (di_call (d_id t)) -> sound_text 128 (di_local (d_id t)) -> sound_text 128 (di_remote (d_id t)) ->
  exists x text, once q "Refer-To" (lit "<" ++ u_raw r ++ lit "?Replaces=" ++ x ++ lit ">")
  /\ (forall c, In c x -> c <> 62 /\ c <> 38 /\ c <> 32) /\ pct_decode_str x = Some text
  /\ replaces_parse text = Some (mkReplaces (di_call (d_id t)) (di_remote (d_id t)) (di_local (d_id t)) false).
Proof.
  intros u f d r t u' q H S1 S2 S3 A1 A2 A3 T1 T2 T3. cbn [perform] in H. injection H as _ H. apply lift_some in H. apply assemble_eq in H. subst q.
  exists (url_encode (di_call (d_id t)) ++ lit ";to-tag=" ++ url_encode (di_remote (d_id t)) ++ lit ";from-tag=" ++ url_encode (di_local (d_id t))).
  exists (replaces_print (mkReplaces (di_call (d_id t)) (di_remote (d_id t)) (di_local (d_id t)) false)).
  assert (UE : forall s c, is_str s = true -> In c (url_encode s) -> c <> 62 /\ c <> 38 /\ c <> 32).
  { intros s c Hs Hc. unfold url_encode in Hc. apply in_flat_map in Hc as (b & Hb & Hc). apply (utf8_byte s) in Hb; [|exact Hs]. destruct (unreserved b) eqn:E.
    - destruct Hc as [<-|[]]. repeat split; intros ->; discriminate E.
    - assert (X : forall y, y < 16 -> upper_hex y <> 62 /\ upper_hex y <> 38 /\ upper_hex y <> 32) by (intros y Hy; unfold upper_hex; destruct (y <? 10) eqn:K; lia).
      destruct Hc as [<-|[<-|[<-|[]]]]; [repeat split; discriminate| |]; apply X; [apply N.div_lt_upper_bound; lia|apply N.mod_lt; lia]. }
  split; [read_headers; unfold refer_to_replaces; rewrite <- !app_assoc; reflexivity|]. split; [|split].
  - assert (LL : forall l c, In c (lit l) -> forallb (fun c => negb ((c =? 62) || (c =? 38) || (c =? 32))) (lit l) = true -> c <> 62 /\ c <> 38 /\ c <> 32).
    { intros l c K F. rewrite forallb_forall in F. specialize (F c K). lia. }
    intros c Hc. rewrite !in_app_iff in Hc. destruct Hc as [Hc|[Hc|[Hc|[Hc|Hc]]]]; eauto.
  - unfold pct_decode_str, replaces_print. cbn [rp_call rp_to rp_from rp_early]. rewrite !utf8_app, !url_ascii by assumption. rewrite !(utf8_ascii (lit _)) by reflexivity.
    rewrite url_decode by assumption.
    assert (PL : forall l r, mem 37 l = false -> pct_decode (l ++ r) = l ++ pct_decode r).
    { clear. induction l as [|c l IH]; intros r H; [reflexivity|]. apply mem_cons_false in H as (H1 & H2). cbn [app pct_decode]. replace (c =? 37) with false by (symmetry; now apply N.eqb_neq). now rewrite IH. }
    rewrite (PL (lit ";to-tag=")) by reflexivity. rewrite url_decode by assumption. rewrite (PL (lit ";from-tag=")) by reflexivity.
    rewrite <- (app_nil_r (url_encode (di_local (d_id t)))). rewrite url_decode by assumption. cbn [pct_decode].
    rewrite <- (utf8_ascii (lit ";to-tag=") eq_refl), <- (utf8_ascii (lit ";from-tag=") eq_refl), <- (utf8_ascii (@nil N) eq_refl), <- !utf8_app.
    rewrite !(utf8_ascii (lit _)) by reflexivity. apply from_utf8_utf8. unfold is_str in *. rewrite !forallb_app, S1, S2, S3. reflexivity.
  - apply print_parse; [split; [exact A1|split; [exact A3|exact A2]]|exact T1|exact T3|exact T2].
Qed.
Print Assumptions C145_transfer.
Example C145_transfer_example : exists q, perform client1 fresh1 (CReferReplaces dialog1 robert dialog1) = (client1, Ret (Some q))
  /\ once q "Refer-To" (lit "<sip:robert@b.example?Replaces=c9%40localhost;to-tag=rt;from-tag=lt>").
Proof. eexists. split; [vm_compute; reflexivity|vm_compute; reflexivity]. Qed.
(** an address that has headers already gets a second question mark, and the Replaces becomes
    part of the first header *)
Definition with_subject : sip_uri := at_uri "sip:robert@b.example?Subject=x".
Theorem C145_headers_refuted : exists q x u, perform client1 fresh1 (CReferReplaces dialog1 with_subject dialog1) = (client1, Ret (Some q))
  /\ once q "Refer-To" (lit "<" ++ x ++ lit ">") /\ parse_uri x = Some u /\ bget (lit "replaces") (u_headers u) = None
  /\ bget (lit "subject") (u_headers u) = Some (lit "x?Replaces=c9%40localhost;to-tag=rt;from-tag=lt").
Proof.
  eexists. exists (lit "sip:robert@b.example?Subject=x?Replaces=c9%40localhost;to-tag=rt;from-tag=lt"). eexists.
  split; [vm_compute; reflexivity|]. split; [vm_compute; reflexivity|]. split; [vm_compute; reflexivity|]. split; reflexivity.
Qed.
Print Assumptions C145_headers_refuted.
