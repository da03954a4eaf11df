(** Property C147: the Reason header. *)
From Coq Require Import Arith NArith Bool String List Lia ZifyBool ZifyN ZifyNat.
Import ListNotations.
From Verif Require Import Base BaseFacts NumFacts Text TextFacts TypedFacts AtomFacts ReplacesSpec Reason ReasonSpec.
Open Scope N_scope.
Open Scope list_scope.

Lemma word_iff : forall mx s, rs_word mx s = true <-> sound_word mx s.
Proof.
  intros mx s. unfold rs_word, sound_word, sound_text. rewrite !andb_true_iff, !negb_true_iff, N.leb_le, control_iff, str_eqb_neq. tauto.
Qed.
Lemma value_iff : forall s, rs_value s = true <-> sound_text 256 s.
Proof. intros s. unfold rs_value, sound_text, RS_MAX_VALUE. rewrite andb_true_iff, negb_true_iff, N.leb_le, control_iff. tauto. Qed.
Lemma usual_iff : forall p q, usual p q <-> q = canonical_protocol p.
Proof.
  intros p q. unfold usual, canonical_protocol.
  destruct (str_eqb (lower p) (lit "sip")) eqn:A; [apply str_eqb_spec in A; rewrite A; split; [intros (H & _); now apply H|intros ->; repeat split; try discriminate; congruence]|].
  destruct (str_eqb (lower p) (lit "q.850")) eqn:B; [apply str_eqb_spec in B; rewrite B; split; [intros (_ & H & _); now apply H|intros ->; repeat split; try discriminate; congruence]|].
  destruct (str_eqb (lower p) (lit "sdp")) eqn:C; [apply str_eqb_spec in C; rewrite C; split; [intros (_ & _ & H & _); now apply H|intros ->; repeat split; try discriminate; congruence]|].
  apply str_eqb_neq in A, B, C. split; [intros (_ & _ & _ & H); now apply H|intros ->; repeat split; congruence].
Qed.
Lemma canonical_again : forall p, canonical_protocol (canonical_protocol p) = canonical_protocol p.
Proof.
  intros p. unfold canonical_protocol at 2 3. destruct (str_eqb (lower p) (lit "sip")) eqn:A; [reflexivity|]. destruct (str_eqb (lower p) (lit "q.850")) eqn:B; [reflexivity|].
  destruct (str_eqb (lower p) (lit "sdp")) eqn:C; [reflexivity|]. unfold canonical_protocol. now rewrite A, B, C.
Qed.
Lemma canonical_cases : forall p, canonical_protocol p = p \/ In (canonical_protocol p) [lit "SIP"; lit "Q.850"; lit "SDP"].
Proof. intros p. unfold canonical_protocol. destruct (str_eqb _ _); [right; now left|]. destruct (str_eqb _ _); [right; now right; left|]. destruct (str_eqb _ _); [right; right; right; now left|now left]. Qed.
Lemma canonical_word : forall p, rs_word RS_MAX_PROTOCOL p = true -> rs_word RS_MAX_PROTOCOL (canonical_protocol p) = true.
Proof. intros p H. destruct (canonical_cases p) as [-> |[<-|[<-|[<-|[]]]]]; [exact H|reflexivity|reflexivity|reflexivity]. Qed.
Lemma canonical_atom : forall p, atom p -> atom (canonical_protocol p).
Proof.
  assert (X : forall s, s <> [] -> mem 59 s = false -> forallb (fun c => negb (is_ws c)) s = true -> atom s) by (intros s A B C; apply atom_iff; repeat split; [exact A|exact B|now apply edgeless_words]).
  intros p H. destruct (canonical_cases p) as [-> |[<-|[<-|[<-|[]]]]]; [exact H| | |]; apply X; try discriminate; reflexivity.
Qed.

(** ** Quotes *)
Lemma in_quotes_some : forall s i, in_quotes s = Some i <-> s = [34] ++ i ++ [34].
Proof.
  intros s i. split.
  - intros H. destruct s as [|c r]; [discriminate|]. cbn [in_quotes] in H. destruct (c =? 34) eqn:E; [|discriminate]. apply N.eqb_eq in E. subst c.
    destruct (rev r) as [|d m] eqn:R; [discriminate|]. destruct (d =? 34) eqn:E; [|discriminate]. apply N.eqb_eq in E. subst d. injection H as <-.
    cbn [app]. f_equal. apply (f_equal (@rev N)) in R. rewrite rev_involutive in R. exact R.
  - intros ->. cbn [app in_quotes]. rewrite N.eqb_refl, rev_app_distr. cbn [rev app]. now rewrite N.eqb_refl, rev_involutive.
Qed.
Lemma in_quotes_none : forall s, in_quotes s = None <-> ~ wrapped s.
Proof.
  intros s. split.
  - intros H (i & K). apply in_quotes_some in K. congruence.
  - intros H. destruct (in_quotes s) as [i|] eqn:E; [|reflexivity]. exfalso. apply H. exists i. now apply in_quotes_some.
Qed.
Lemma unescape_means : forall q v, means_text q v -> existsb is_ascii_control v = false -> rs_unescape q false = Some v.
Proof.
  intros q v H. induction H as [|c s t A H IH|c s t H IH]; intros C; [reflexivity| |]; cbn [existsb] in C; apply orb_false_elim in C as (C1 & C2).
  - cbn [rs_unescape]. replace (c =? 92) with false by lia. now rewrite C1, (IH C2).
  - cbn [rs_unescape N.eqb Pos.eqb]. now rewrite (IH C2).
Qed.
Lemma unescape_shrinks : forall q e v, rs_unescape q e = Some v -> (List.length v <= List.length q)%nat /\ forall x, In x v -> In x q.
Proof.
  induction q as [|c q IH]; intros e v H.
  - destruct e; [discriminate|]. injection H as <-. split; [apply le_n|intros x []].
  - cbn [rs_unescape] in H. destruct e.
    + destruct (rs_unescape q false) as [o|] eqn:E; [|discriminate]. injection H as <-. apply IH in E as (A & B). cbn [List.length] in *. split; [lia|]. intros x [<-|Hx]; [now left|right; now apply B].
    + destruct (c =? 92); [apply IH in H as (A & B); cbn [List.length] in *; split; [lia|intros x Hx; right; now apply B]|]. destruct (is_ascii_control c); [discriminate|].
      destruct (rs_unescape q false) as [o|] eqn:E; [|discriminate]. injection H as <-. apply IH in E as (A & B). cbn [List.length] in *. split; [lia|]. intros x [<-|Hx]; [now left|right; now apply B].
Qed.
Lemma unescape_same : forall q, rs_unescape q false = Some q -> ~ In 92 q.
Proof.
  induction q as [|c q IH]; intros H; [intros []|]. cbn [rs_unescape] in H. destruct (c =? 92) eqn:E.
  - apply unescape_shrinks in H as (H & _). cbn [List.length] in H. lia.
  - destruct (is_ascii_control c); [discriminate|]. destruct (rs_unescape q false) as [o|] eqn:E2; [|discriminate]. injection H as ->. intros [K|K]; [lia|]. now apply (IH eq_refl).
Qed.
Lemma plain_means : forall q, ~ In 92 q -> means_text q q.
Proof. induction q as [|c q IH]; intros H; [constructor|]. constructor; [intros ->; apply H; now left|]. apply IH. intros K. apply H. now right. Qed.

(** ** Reading *)
Lemma pname_iff : forall n, pname n <-> atom n /\ mem 61 n = false.
Proof. intros n. unfold pname. rewrite mem_false. reflexivity. Qed.
Lemma piece_nomem : forall p x, written_param p x -> mem 59 p = false.
Proof.
  intros p x [a n d Ha Hd Hn|a n b c v d Ha Hb Hc Hd Hn Hv Hw|a n b c q v d Ha Hb Hc Hd Hn Hm H59]; apply pname_iff in Hn as (Hn & _); apply atom_iff in Hn as (_ & Hn & _).
  - now apply pad_nomem.
  - apply atom_iff in Hv as (_ & Hv & _). rewrite !mem_app, Hn, Hv, (spaces_nomem 59 a eq_refl Ha), (spaces_nomem 59 b eq_refl Hb), (spaces_nomem 59 c eq_refl Hc), (spaces_nomem 59 d eq_refl Hd). reflexivity.
  - apply mem_false in H59. rewrite !mem_app, Hn, H59, (spaces_nomem 59 a eq_refl Ha), (spaces_nomem 59 b eq_refl Hb), (spaces_nomem 59 c eq_refl Hc), (spaces_nomem 59 d eq_refl Hd). reflexivity.
Qed.
(** one piece of the loop *)
Lemma piece_step : forall p x r m, written_param p x -> sound_word 64 (fst x) -> (forall v, snd x = Some v -> sound_text 256 v) ->
  bget (fst x) m = None -> llen m < 20 -> rs_loop (trim p :: r) m = rs_loop r (bput (fst x) (snd x) m).
Proof.
  intros p x r m W S V G L. cbn [rs_loop]. replace (RS_MAX_PARAMS <=? llen m) with false by (unfold RS_MAX_PARAMS; lia). apply word_iff in S.
  destruct W as [a n d Ha Hd Hn|a n b c v d Ha Hb Hc Hd Hn Hv Hw|a n b c q v d Ha Hb Hc Hd Hn Hm H59]; cbn [fst snd] in *; apply pname_iff in Hn as (Hn & N61).
  - apply atom_iff in Hn as (N1 & N2 & N3). rewrite (trim_pad a n d) by (now apply spaces_blanks). rewrite N3. destruct (str_eqb n []) eqn:E; [apply str_eqb_spec in E; contradiction|].
    replace (split_once 61 n) with (@None (str * str)) by (symmetry; now apply split_once_none). cbv zeta. change RS_MAX_NAME with 64. now rewrite S, G.
  - apply atom_iff in Hv as (V1 & _ & V3). destruct (param_cut a n b c v d Ha Hb Hc Hd Hn N61 V1 V3) as (E0 & E1 & E2 & E3).
    destruct (str_eqb (trim (a ++ n ++ b ++ [61] ++ c ++ v ++ d)) []) eqn:E; [apply str_eqb_spec in E; contradiction|]. rewrite E1. cbv zeta. rewrite E2, E3.
    unfold rs_unquote. apply in_quotes_none in Hw. rewrite Hw. change RS_MAX_NAME with 64. specialize (V v eq_refl). apply value_iff in V. now rewrite S, V, G.
  - assert (Q : edgeless ([34] ++ q ++ [34])) by (apply edgeless_ends; try discriminate; reflexivity).
    destruct (param_cut a n b c ([34] ++ q ++ [34]) d Ha Hb Hc Hd Hn N61 ltac:(discriminate) Q) as (E0 & E1 & E2 & E3).
    destruct (str_eqb (trim (a ++ n ++ b ++ [61] ++ c ++ ([34] ++ q ++ [34]) ++ d)) []) eqn:E; [apply str_eqb_spec in E; contradiction|]. rewrite E1. cbv zeta. rewrite E2, E3.
    unfold rs_unquote. replace (in_quotes ([34] ++ q ++ [34])) with (Some q) by (symmetry; now apply in_quotes_some). specialize (V v eq_refl).
    rewrite (unescape_means q v Hm) by (apply control_iff; apply V). change RS_MAX_NAME with 64. apply value_iff in V. now rewrite S, V, G.
Qed.
Lemma get_missing : forall V k (m : list (str * V)), bget k m = None <-> ~ In k (keys m).
Proof. intros V k m. unfold bget. apply (lookup_none str_eqb str_eqb_spec). Qed.
Lemma loop_reads : forall ps l, Forall2 written_param ps l -> forall m,
  NoDup (map fst l) -> (forall x, In x l -> ~ In (fst x) (keys m)) -> llen m + llen l <= 20 -> sorted_keys m ->
  (forall x, In x l -> sound_word 64 (fst x) /\ forall v, snd x = Some v -> sound_text 256 v) ->
  exists m', rs_loop (map trim ps) m = Some m' /\ sorted_keys m' /\ forall e, In e m' <-> In e m \/ In e l.
Proof.
  induction 1 as [|p x ps l W F IH]; intros m D N L S V.
  - exists m. split; [reflexivity|]. split; [exact S|]. intros e. cbn. tauto.
  - cbn [map] in D |- *. inversion D as [|? ? D1 D2]; subst. assert (G : bget (fst x) m = None) by (apply get_missing; apply N; now left).
    rewrite (piece_step p x (map trim ps) m W (proj1 (V x (or_introl eq_refl))) (proj2 (V x (or_introl eq_refl))) G) by (rewrite llen_cons in L; lia).
    destruct (IH (bput (fst x) (snd x) m) D2) as (m' & E & S' & M').
    + intros y Hy K. apply bput_keys in K as [K|K]; [apply D1; rewrite <- K; now apply in_map|]. now apply (N y (or_intror Hy)).
    + rewrite llen_cons in L. pose proof (bput_llen (fst x) (snd x) m). lia.
    + now apply bput_sorted.
    + intros y Hy. apply V. now right.
    + exists m'. split; [exact E|]. split; [exact S'|]. intros e. rewrite M'. split.
      * intros [K|K]; [apply bput_in in K as [K|K]; [right; left; destruct x; now subst e|now left]|right; now right].
      * intros [K|[K|K]]; [left|left|now right].
        -- destruct e as (k, v). apply get_in; [now apply bput_sorted|]. rewrite bget_bput_other; [now apply get_in|]. intros ->. apply get_missing in G. apply G. unfold keys. apply in_map_iff. now exists (fst x, v).
        -- subst e. destruct x as (k, v). apply get_in; [now apply bput_sorted|]. apply bget_bput.
Qed.

(** ** C147: the header is read as written *)
Theorem C147_reads : forall a p d ps l, spaces a -> spaces d -> atom p -> sound_word 32 p -> Forall2 written_param ps l ->
  NoDup (map fst l) -> (List.length l <= 20)%nat ->
  (forall x, In x l -> sound_word 64 (fst x) /\ forall v, snd x = Some v -> sound_text 256 v) ->
  blen (join [59] ((a ++ p ++ d) :: ps)) <= 1024 ->
  exists h, reason_parse (join [59] ((a ++ p ++ d) :: ps)) = Some h /\ usual p (rs_protocol h) /\ forall k v, bget k (rs_params h) = Some v <-> In (k, v) l.
Proof.
  intros a p d ps l Ha Hd Hp Sp F D L V B. unfold reason_parse. replace (RS_MAX_INPUT <? blen _) with false by (unfold RS_MAX_INPUT; lia).
  rewrite split_on_join; [|discriminate|].
  - cbn [map]. apply atom_iff in Hp as (P1 & P2 & P3). rewrite (trim_pad a p d) by (now apply spaces_blanks). rewrite P3. apply word_iff in Sp. change RS_MAX_PROTOCOL with 32. rewrite Sp.
    destruct (loop_reads ps l F [] D) as (m & E & S & M); try assumption.
    + intros x _ [].
    + unfold llen. cbn [List.length]. lia.
    + exact I.
    + exists (mkReason (canonical_protocol p) m). rewrite E. split; [reflexivity|]. split; [now apply usual_iff|]. cbn [rs_params]. intros k v. rewrite (get_in _ m k v S), M. cbn. tauto.
  - constructor.
    + apply atom_iff in Hp as (_ & P2 & _). now apply pad_nomem.
    + clear - F. induction F as [|q x ps l W F IH]; [constructor|]. constructor; [now apply (piece_nomem q x)|exact IH].
Qed.
Print Assumptions C147_reads.

(** ** What the constructors and the parser produce *)
Lemma lower_twice : forall s, lower (lower s) = lower s.
Proof. exact lower_idem. Qed.
Lemma put_sound : forall k v m, sorted_keys m -> Forall sound_param m -> sound_param (k, v) -> sorted_keys (bput k v m) /\ Forall sound_param (bput k v m).
Proof.
  intros k v m S F P. split; [now apply bput_sorted|]. apply Forall_forall. intros e He. apply bput_in in He as [-> |He]; [exact P|]. rewrite Forall_forall in F. now apply F.
Qed.
Lemma loop_sound : forall ps m m', rs_loop ps m = Some m' -> sorted_keys m -> Forall sound_param m -> llen m <= 20 -> sorted_keys m' /\ Forall sound_param m' /\ llen m' <= 20.
Proof.
  induction ps as [|p ps IH]; intros m m' H S F L; [injection H as <-; auto|]. cbn [rs_loop] in H. destruct (str_eqb p []); [now apply (IH m)|].
  destruct (RS_MAX_PARAMS <=? llen m) eqn:E; [discriminate|]. unfold RS_MAX_PARAMS in E. destruct (split_once 61 p) as [(n, v)|].
  - cbv zeta in H. destruct (rs_unquote (trim v)) as [x|]; [|discriminate]. destruct (rs_word RS_MAX_NAME (lower (trim n))) eqn:W; [|discriminate]. destruct (rs_value x) eqn:V; [|discriminate].
    destruct (negb _); [|discriminate]. cbn [andb] in H. apply word_iff in W. apply value_iff in V.
    destruct (put_sound (lower (trim n)) (Some x) m S F) as (S' & F').
    { split; [exact W|]. split; [apply lower_twice|]. cbn [snd]. intros y [= <-]. exact V. }
    apply (IH _ _ H S' F'). pose proof (bput_llen (lower (trim n)) (Some x) m). lia.
  - cbv zeta in H. destruct (rs_word RS_MAX_NAME (lower p)) eqn:W; [|discriminate]. destruct (negb _); [|discriminate]. cbn [andb] in H. apply word_iff in W.
    destruct (put_sound (lower p) None m S F) as (S' & F').
    { split; [exact W|]. split; [apply lower_twice|]. discriminate. }
    apply (IH _ _ H S' F'). pose proof (bput_llen (lower p) None m). lia.
Qed.
Lemma normal_sound : forall ps m m', reason_normal ps m = Some m' -> sorted_keys m -> Forall sound_param m -> llen m + llen ps <= 20 -> sorted_keys m' /\ Forall sound_param m' /\ llen m' <= 20.
Proof.
  induction ps as [|(n, v) ps IH]; intros m m' H S F L; [injection H as <-; rewrite N.add_0_r in L; auto|]. cbn [reason_normal] in H. cbv zeta in H.
  destruct (rs_word RS_MAX_NAME (lower n)) eqn:W; [|discriminate]. apply word_iff in W. destruct (match v with Some x => rs_value x | None => true end) eqn:V; [|discriminate].
  destruct (negb _); [|discriminate]. cbn [andb] in H. destruct (put_sound (lower n) v m S F) as (S' & F').
  { split; [exact W|]. split; [apply lower_twice|]. cbn [snd]. intros y ->. now apply value_iff. }
  apply (IH _ _ H S' F'). rewrite llen_cons in L. pose proof (bput_llen (lower n) v m). lia.
Qed.
Theorem C147_sound : forall h, (exists s, reason_parse s = Some h) \/ (exists p ps, reason_new p ps = Some h) -> sound_reason h.
Proof.
  intros h [(s & H)|(p & ps & H)].
  - unfold reason_parse in H. destruct (RS_MAX_INPUT <? blen s); [discriminate|]. destruct (map trim (split_on 59 s)) as [|p ps]; [discriminate|].
    destruct (rs_word RS_MAX_PROTOCOL p) eqn:W; [|discriminate]. destruct (rs_loop ps []) as [m|] eqn:E; [|discriminate]. injection H as <-.
    apply loop_sound in E as (A & B & C); [|exact I|constructor|vm_compute; discriminate]. split; [apply word_iff; now apply canonical_word|]. split; [apply usual_iff; symmetry; apply canonical_again|].
    split; [exact A|]. split; [unfold llen in C; cbn [rs_params]; lia|exact B].
  - unfold reason_new in H. destruct (rs_word RS_MAX_PROTOCOL p) eqn:W; [|discriminate]. destruct (llen ps <=? RS_MAX_PARAMS) eqn:L; [|discriminate]. cbn [andb] in H. destruct (reason_normal ps []) as [m|] eqn:E; [|discriminate]. injection H as <-.
    apply normal_sound in E as (A & B & C); [|exact I|constructor|unfold RS_MAX_PARAMS in L; change (llen (@nil (str * option str))) with 0; lia]. split; [apply word_iff; now apply canonical_word|]. split; [apply usual_iff; symmetry; apply canonical_again|].
    split; [exact A|]. split; [unfold llen in C; cbn [rs_params]; lia|exact B].
Qed.
Print Assumptions C147_sound.

(** ** Writing and reading back *)
(** whatever the parser returns has names and values without separators *)
Definition separate (p : str * option str) : Prop := pname (fst p) /\ forall v, snd p = Some v -> ~ In 59 v.
Lemma unquote_sub : forall s v x, rs_unquote s = Some v -> In x v -> In x s.
Proof.
  intros s v x H K. unfold rs_unquote in H. destruct (in_quotes s) as [i|] eqn:E.
  - apply in_quotes_some in E. apply unescape_shrinks in H as (_ & H). apply H in K. subst s. apply in_or_app. right. apply in_or_app. now left.
  - now injection H as ->.
Qed.
Lemma trim_in : forall x s, In x (trim s) -> In x s.
Proof. intros x s H. apply mem_In. apply mem_trim_sub. now apply mem_In. Qed.
Lemma loop_separate : forall ps m m', rs_loop ps m = Some m' -> Forall (fun p => mem 59 p = false /\ edgeless p) ps -> Forall separate m -> Forall separate m'.
Proof.
  assert (Put : forall k v m, separate (k, v) -> Forall separate m -> Forall separate (bput k v m)).
  { intros k v m A B. apply Forall_forall. intros e He. apply bput_in in He as [-> |He]; [exact A|]. rewrite Forall_forall in B. now apply B. }
  induction ps as [|p ps IH]; intros m m' H P F; [now injection H as <-|]. inversion P as [|? ? (P1 & P2) P3]; subst. cbn [rs_loop] in H. destruct (str_eqb p []) eqn:E0; [now apply (IH m)|].
  destruct (RS_MAX_PARAMS <=? llen m); [discriminate|]. destruct (split_once 61 p) as [(n, v)|] eqn:E.
  - cbv zeta in H. destruct (rs_unquote (trim v)) as [x|] eqn:U; [|discriminate]. destruct (rs_word RS_MAX_NAME (lower (trim n))) eqn:W; [|discriminate]. destruct (rs_value x); [|discriminate]. destruct (negb _); [|discriminate].
    apply (IH _ _ H P3). apply Put; [|exact F]. apply split_once_some in E as (-> & E). rewrite mem_app in P1. apply orb_false_elim in P1 as (N59 & V59). cbn [mem existsb] in V59. change (mem 59 v = false) in V59. split.
    + cbn [fst]. apply pname_iff. apply word_iff in W as (W & _). split; [|rewrite mem_lower by reflexivity; now apply trim_mem]. apply lower_atom. apply atom_iff.
      split; [intros K; rewrite K in W; now apply W|]. split; [now apply trim_mem|apply trim_edgeless].
    + cbn [snd]. intros y [= <-] K. apply (unquote_sub _ _ _ U) in K. apply trim_in in K. apply mem_In in K. congruence.
  - cbv zeta in H. destruct (rs_word RS_MAX_NAME (lower p)); [|discriminate]. destruct (negb _); [|discriminate]. apply (IH _ _ H P3). apply Put; [|exact F]. split; [|discriminate].
    cbn [fst]. apply pname_iff. apply split_once_none in E. split; [|now rewrite mem_lower]. apply lower_atom. apply atom_iff. split; [now apply str_eqb_neq|]. now split.
Qed.
(** what one printed parameter is without its semicolon *)
Definition shown (p : str * option str) : str := match print_rs_param p with c :: r => r | [] => [] end.
Lemma shown_eq : forall p, print_rs_param p = 59 :: shown p.
Proof. reflexivity. Qed.
Lemma quotes_iff : forall k v, mem 59 v = false -> (rs_quotes k v = true <-> quoted_value k v).
Proof.
  intros k v H. unfold rs_quotes, quoted_value. rewrite orb_true_iff, str_eqb_spec, existsb_exists. split.
  - intros [E|(c & Hc & E)]; [now left|]. right. exists c. split; [exact Hc|]. apply orb_prop in E as [E|E]; [exact E|]. apply N.eqb_eq in E. subst c. apply mem_In in Hc. congruence.
  - intros [E|(c & Hc & E)]; [now left|]. right. exists c. split; [exact Hc|]. now rewrite E.
Qed.
Lemma shown_nomem : forall p, separate p -> mem 59 (shown p) = false.
Proof.
  intros (k, v) (K & V). cbn [fst snd] in *. unfold shown, print_rs_param. cbn [fst snd app]. apply pname_iff in K as (K & _). apply atom_iff in K as (_ & K & _). destruct v as [v|].
  - specialize (V v eq_refl). apply mem_false in V. destruct (rs_quotes k v).
    + change (mem 59 (k ++ [61; 34] ++ v ++ [34]) = false). rewrite !mem_app, K, V. reflexivity.
    + change (mem 59 (k ++ [61] ++ v) = false). rewrite !mem_app, K, V. reflexivity.
  - now rewrite app_nil_r.
Qed.
(** the pieces of a printed header, one step of the loop *)
Definition heard (p : str * option str) : option (option str) :=
  match snd p with
  | None => Some None
  | Some v => if rs_quotes (fst p) v then option_map Some (rs_unescape v false) else option_map Some (rs_unquote v)
  end.
Lemma value_shown : forall k v, mem 59 v = false -> edgeless (if rs_quotes k v then [34] ++ v ++ [34] else v).
Proof.
  intros k v H. destruct (rs_quotes k v) eqn:Q; [apply edgeless_ends; try discriminate; reflexivity|]. apply edgeless_words. apply forallb_forall. intros c Hc.
  destruct (is_ws c) eqn:W; [|reflexivity]. exfalso. assert (X : rs_quotes k v = true) by (apply quotes_iff; [exact H|]; right; now exists c). congruence.
Qed.
Lemma named_edgeless : forall k w, k <> [] -> edgeless k -> edgeless w -> edgeless (k ++ 61 :: w).
Proof.
  intros k w K1 K2 W. destruct w as [|c w]; [apply edgeless_app; [exact K1|discriminate|exact K2|reflexivity]|]. change (k ++ 61 :: c :: w) with (k ++ [61] ++ (c :: w)). apply edgeless_ends; [exact K1|discriminate|exact K2|exact W].
Qed.
Lemma shown_step : forall p r m, separate p -> sound_param p -> bget (fst p) m = None -> llen m < 20 ->
  rs_loop (trim (shown p) :: r) m = match heard p with
                                    | Some w => if match w with Some x => rs_value x | None => true end then rs_loop r (bput (fst p) w m) else None
                                    | None => None
                                    end.
Proof.
  intros (k, v) r m (K & V) (W & LK & _) G L. cbn [fst snd] in *. apply pname_iff in K as (K & K61). apply word_iff in W. pose proof K as KA. apply atom_iff in K as (K1 & K2 & K3).
  unfold heard, shown, print_rs_param. cbn [fst snd app]. destruct v as [v|].
  - specialize (V v eq_refl). apply mem_false in V. pose proof (value_shown k v V) as ED.
    set (w := if rs_quotes k v then [34] ++ v ++ [34] else v) in *.
    replace (k ++ (if rs_quotes k v then 61 :: 34 :: v ++ [34] else 61 :: v)) with (k ++ 61 :: w) by (unfold w; now destruct (rs_quotes k v)).
    assert (T : trim (k ++ 61 :: w) = k ++ 61 :: w) by (now apply named_edgeless).
    rewrite T. cbn [rs_loop]. destruct (str_eqb (k ++ 61 :: w) []) eqn:E; [apply str_eqb_spec in E; destruct k; discriminate E|].
    replace (RS_MAX_PARAMS <=? llen m) with false by (unfold RS_MAX_PARAMS; lia). rewrite (split_once_app 61 k w K61). cbv zeta. assert (ED' : trim w = w) by exact ED. rewrite K3, ED', LK.
    assert (U : rs_unquote w = if rs_quotes k v then rs_unescape v false else rs_unquote v).
    { unfold w. destruct (rs_quotes k v); [|reflexivity]. unfold rs_unquote. replace (in_quotes ([34] ++ v ++ [34])) with (Some v) by (symmetry; now apply in_quotes_some). reflexivity. }
    rewrite U. destruct (rs_quotes k v).
    + destruct (rs_unescape v false) as [x|]; cbn [option_map]; [|reflexivity]. change RS_MAX_NAME with 64. rewrite W, G. cbn [is_some negb andb]. rewrite andb_true_r. reflexivity.
    + destruct (rs_unquote v) as [x|]; cbn [option_map]; [|reflexivity]. change RS_MAX_NAME with 64. rewrite W, G. cbn [is_some negb andb]. rewrite andb_true_r. reflexivity.
  - rewrite app_nil_r, K3. cbn [rs_loop]. destruct (str_eqb k []) eqn:E; [apply str_eqb_spec in E; contradiction|].
    replace (RS_MAX_PARAMS <=? llen m) with false by (unfold RS_MAX_PARAMS; lia). replace (split_once 61 k) with (@None (str * str)) by (symmetry; now apply split_once_none). cbv zeta. change RS_MAX_NAME with 64. rewrite LK, W, G. reflexivity.
Qed.
Lemma sorted_after : forall (acc : list (str * option str)) k v r, sorted_keys (acc ++ (k, v) :: r) -> (forall k', In k' (keys acc) -> str_ltb k' k = true).
Proof.
  induction acc as [|(a, x) acc IH]; intros k v r S k' K; [destruct K|]. cbn [app sorted_keys] in S. destruct S as (S1 & S2). destruct K as [<-|K].
  - apply S1. unfold keys. rewrite map_app. apply in_or_app. right. now left.
  - now apply (IH k v r S2).
Qed.
Lemma sorted_swap : forall (acc : list (str * option str)) k v w r, sorted_keys (acc ++ (k, v) :: r) -> sorted_keys (acc ++ (k, w) :: r).
Proof.
  induction acc as [|(a, x) acc IH]; intros k v w r S; [exact S|]. cbn [app sorted_keys] in *. destruct S as (S1 & S2). split; [|now apply (IH k v)].
  intros k' K. apply S1. unfold keys in *. rewrite map_app in *. exact K.
Qed.
Lemma shown_loop : forall l acc, sorted_keys (acc ++ l) -> llen acc + llen l <= 20 -> Forall separate l -> Forall sound_param l ->
  (Forall (fun p => heard p = Some (snd p)) l -> rs_loop (map trim (map shown l)) acc = Some (acc ++ l))
  /\ forall m, rs_loop (map trim (map shown l)) acc = Some m -> exists l', m = acc ++ l' /\ Forall2 (fun p q => fst q = fst p /\ heard p = Some (snd q)) l l'.
Proof.
  induction l as [|p l IH]; intros acc S L F V.
  - split; [intros _; cbn; now rewrite app_nil_r|]. intros m H. injection H as <-. exists []. split; [now rewrite app_nil_r|constructor].
  - inversion F as [|? ? F1 F2]; subst. inversion V as [|? ? V1 V2]; subst. rewrite llen_cons in L. destruct p as (k, v).
    pose proof (sorted_after acc k v l S) as A. cbn [map].
    assert (G : bget k acc = None) by (apply get_missing; intros K; apply A in K; now rewrite str_ltb_irrefl in K).
    rewrite (shown_step (k, v) _ acc F1 V1 G) by lia. cbn [fst].
    assert (R : forall w, bput k w acc = acc ++ [(k, w)]) by (intros w; now apply bput_last).
    split.
    + intros H. inversion H as [|? ? H1 H2]; subst. rewrite H1. cbn [snd]. assert (X : match v with Some x => rs_value x | None => true end = true).
      { destruct v as [x|]; [|reflexivity]. apply value_iff. now apply V1. }
      rewrite X, R. destruct (IH (acc ++ [(k, v)])) as (I1 & _); try assumption; [now rewrite <- app_assoc|unfold llen in *; rewrite app_length; cbn [List.length]; lia|]. rewrite I1 by exact H2. now rewrite <- app_assoc.
    + intros m H. destruct (heard (k, v)) as [w|] eqn:HW; [|discriminate]. destruct (match w with Some x => rs_value x | None => true end); [|discriminate]. rewrite R in H.
      destruct (IH (acc ++ [(k, w)])) as (_ & I2); try assumption; [rewrite <- app_assoc; now apply (sorted_swap acc k v)|unfold llen in *; rewrite app_length; cbn [List.length]; lia|].
      apply I2 in H as (l' & -> & H). exists ((k, w) :: l'). split; [now rewrite <- app_assoc|]. constructor; [split; [reflexivity|exact HW]|exact H].
Qed.
Lemma clean_heard : forall p, separate p -> sound_param p -> (clean_param p <-> heard p = Some (snd p)).
Proof.
  intros (k, v) (K & V) (_ & _ & T). unfold clean_param, heard. cbn [fst snd] in *. destruct v as [v|]; [|split; [reflexivity|intros _; split; [exact K|discriminate]]].
  specialize (V v eq_refl). specialize (T v eq_refl). pose proof (quotes_iff k v (proj2 (mem_false 59 v) V)) as Q. split.
  - intros (_ & C). destruct (C v eq_refl) as (_ & C1 & C2). destruct (rs_quotes k v) eqn:E.
    + rewrite (unescape_means v v) ; [reflexivity|apply plain_means, C1; now apply Q|apply control_iff; apply T].
    + assert (NQ : ~ quoted_value k v) by (intros X; apply Q in X; discriminate X). unfold rs_unquote. replace (in_quotes v) with (@None str) by (symmetry; apply in_quotes_none; now apply C2). reflexivity.
  - intros H. split; [exact K|]. intros y [= <-]. split; [exact V|]. destruct (rs_quotes k v) eqn:E.
    + split; [|intros X; exfalso; apply X; now apply Q]. intros _. destruct (rs_unescape v false) as [x|] eqn:U; [|discriminate]. cbn in H. injection H as ->. now apply unescape_same.
    + split; [intros X; apply Q in X; discriminate X|]. intros _. destruct (rs_unquote v) as [x|] eqn:U; [|discriminate]. cbn in H. injection H as ->. unfold rs_unquote in U. destruct (in_quotes v) as [i|] eqn:I; [|now apply in_quotes_none].
      exfalso. apply in_quotes_some in I. apply unescape_shrinks in U as (U & _). rewrite I in U at 1. cbn [app List.length] in U. rewrite app_length in U. cbn [List.length] in U. lia.
Qed.
Lemma print_pieces : forall h, reason_print h = join [59] (rs_protocol h :: map shown (rs_params h)).
Proof. intros h. rewrite join_followed. unfold reason_print, followed. f_equal. rewrite flat_map_concat_map, map_map. reflexivity. Qed.
(** a header survives being written exactly if its parts are clean *)
Theorem C147_roundtrip : forall h, sound_reason h -> blen (reason_print h) <= 1024 -> (reason_parse (reason_print h) = Some h <-> clean_reason h).
Proof.
  intros h (P & U & S & L & V) B. unfold reason_parse. replace (RS_MAX_INPUT <? blen (reason_print h)) with false by (unfold RS_MAX_INPUT; lia). rewrite print_pieces.
  assert (Go : atom (rs_protocol h) -> Forall separate (rs_params h) ->
    (match map trim (split_on 59 (join [59] (rs_protocol h :: map shown (rs_params h)))) with
     | [] => None
     | p :: ps => if rs_word RS_MAX_PROTOCOL p then match rs_loop ps [] with Some m => Some (mkReason (canonical_protocol p) m) | None => None end else None end
     = match rs_loop (map trim (map shown (rs_params h))) [] with Some m => Some (mkReason (rs_protocol h) m) | None => None end)).
  { intros A F. apply atom_iff in A as (A1 & A2 & A3). rewrite split_on_join; [|discriminate|].
    - cbn [map]. rewrite A3. apply word_iff in P. change RS_MAX_PROTOCOL with 32. rewrite P. apply usual_iff in U. now rewrite <- U.
    - constructor; [exact A2|]. apply Forall_forall. intros x Hx. apply in_map_iff in Hx as (p & <- & Hp). apply shown_nomem. rewrite Forall_forall in F. now apply F. }
  assert (S0 : sorted_keys ([] ++ rs_params h)) by exact S. assert (L0 : llen (@nil (str * option str)) + llen (rs_params h) <= 20) by (unfold llen; cbn [List.length]; lia).
  split.
  - intros H.
    assert (X : atom (rs_protocol h) /\ Forall separate (rs_params h)).
    { pose proof (fun p => split_parts_clean 59 (join [59] (rs_protocol h :: map shown (rs_params h))) p) as C. destruct (map trim _) as [|p ps]; [discriminate|]. destruct (rs_word RS_MAX_PROTOCOL p) eqn:W; [|discriminate].
      destruct (rs_loop ps []) as [m|] eqn:E; [|discriminate]. injection H as H. rewrite <- H. cbn [rs_protocol rs_params]. split.
      - apply canonical_atom. apply atom_iff. apply word_iff in W as (W & _). split; [exact W|]. apply C. now left.
      - apply (loop_separate ps [] m E); [|constructor]. apply Forall_forall. intros x Hx. apply C. now right. }
    destruct X as (X1 & X2). split; [exact X1|]. rewrite (Go X1 X2) in H. destruct (rs_loop _ []) as [m|] eqn:E; [|discriminate]. injection H as H. 
    destruct (shown_loop (rs_params h) [] S0 L0 X2 V) as (_ & Q). apply Q in E as (l' & -> & E). cbn [app] in H. assert (H' : rs_params h = l') by (rewrite <- H; reflexivity). subst l'.
    clear - X2 V E. revert X2 V. remember (rs_params h) as l' eqn:K in E at 2. assert (K' : l' = rs_params h) by exact K. clear K. revert K'. 
    intros K'. rewrite K' in E. clear K' l'. generalize dependent (rs_params h). intros l E F V. apply Forall_forall. intros p Hp. rewrite Forall_forall in F, V. apply (clean_heard p (F p Hp) (V p Hp)).
    clear F V. assert (Z : forall a b, Forall2 (fun p q : str * option str => fst q = fst p /\ heard p = Some (snd q)) a b -> a = b -> forall x, In x a -> heard x = Some (snd x)).
    { intros a b Q. induction Q as [|x y a b (_ & Q1) Q IH]; intros EE z Hz; [destruct Hz|]. injection EE as -> EE. destruct Hz as [<-|Hz]; [exact Q1|now apply IH]. }
    now apply (Z l l E eq_refl).
  - intros (A & C). assert (F : Forall separate (rs_params h)).
    { apply Forall_forall. intros p Hp. rewrite Forall_forall in C. destruct (C p Hp) as (C1 & C2). split; [exact C1|]. intros v Hv. now apply C2. }
    rewrite (Go A F). destruct (shown_loop (rs_params h) [] S0 L0 F V) as (Q & _). rewrite Q; [now destruct h|].
    apply Forall_forall. intros p Hp. rewrite Forall_forall in C, F, V. apply clean_heard; auto.
Qed.
Print Assumptions C147_roundtrip.

(** ** The ready-made headers *)
Definition ready (p : str) (c : N) (t : str) : reason := mkReason p [(lit "cause", Some (print_N c)); (lit "text", Some t)].
Lemma digits_word : forall c, c <= 65535 -> sound_text 256 (print_N c) /\ ~ In 59 (print_N c) /\ ~ wrapped (print_N c) /\ ~ quoted_value (lit "cause") (print_N c).
Proof.
  intros c L. pose proof (print_N_word c) as W. assert (D : forall x, In x (print_N c) -> 48 <= x <= 57).
  { intros x Hx. now apply print_N_digits in Hx. }
  split; [|split; [|split]].
  - split; [|intros x Hx; apply D in Hx; lia]. pose proof (print_N_blen c) as B. assert (c < 10 ^ 5) by (change (10 ^ 5) with 100000; lia). apply (B 5%nat) in H; lia.
  - intros K. apply D in K. lia.
  - intros (i & E). assert (K : In 34 (print_N c)) by (rewrite E; now left). apply D in K. lia.
  - intros [E|(x & K & E)]; [discriminate|]. apply D in K. unfold is_ws, is_ascii_ws, in_range in E. lia.
Qed.
Lemma ready_facts : forall p c t, In p [lit "SIP"; lit "Q.850"] -> c <= 65535 -> sound_text 256 t ->
  sound_reason (ready p c t) /\ blen (reason_print (ready p c t)) <= 1024 /\ (clean_reason (ready p c t) <-> ~ In 59 t /\ ~ In 92 t) /\ cause_code (ready p c t) = Some c /\ reason_text (ready p c t) = Some t.
Proof.
  intros p c t P C T. destruct (digits_word c C) as (D1 & D2 & D3 & D4). 
  assert (PW : sound_word 32 p /\ usual p p /\ atom p /\ blen p <= 5).
  { destruct P as [<-|[<-|[]]]; (split; [apply word_iff; reflexivity|]); (split; [apply usual_iff; reflexivity|]); (split; [|vm_compute; discriminate]); apply (canonical_atom _) || idtac.
    - apply atom_iff. split; [discriminate|]. split; [reflexivity|]. now apply edgeless_words.
    - apply atom_iff. split; [discriminate|]. split; [reflexivity|]. now apply edgeless_words. }
  destruct PW as (P1 & P2 & P3 & P4). split; [|split; [|split; [|split]]].
  - split; [exact P1|]. split; [exact P2|]. split; [cbn [ready rs_params sorted_keys keys map fst]; split; [intros k [<-|[]]; reflexivity|split; [intros k []|exact I]]|]. split; [cbn; lia|].
    constructor; [|constructor; [|constructor]]; (split; [apply word_iff; reflexivity|]); (split; [reflexivity|]); cbn [snd]; intros v [= <-]; assumption.
  - destruct D1 as (D1 & _). destruct T as (T & _). unfold reason_print, ready. cbn [rs_protocol rs_params map concat]. unfold print_rs_param. cbn [fst snd]. change (rs_quotes (lit "text") t) with true. cbn match.
    rewrite !blen_app. destruct (rs_quotes (lit "cause") (print_N c)); rewrite ?blen_app; change (blen [59]) with 1; change (blen (lit "cause")) with 5; change (blen (lit "text")) with 4; change (blen [61; 34]) with 2; change (blen [34]) with 1; change (blen [61]) with 1; change (blen []) with 0; lia.
  - assert (N1 : pname (lit "cause")) by (apply pname_iff; split; [apply atom_iff; split; [discriminate|split; [reflexivity|now apply edgeless_words]]|reflexivity]).
    assert (N2 : pname (lit "text")) by (apply pname_iff; split; [apply atom_iff; split; [discriminate|split; [reflexivity|now apply edgeless_words]]|reflexivity]).
    split.
    + intros (_ & F). inversion F as [|? ? _ F1]; subst. inversion F1 as [|? ? (_ & F2) _]; subst. destruct (F2 t eq_refl) as (A & B & _). split; [exact A|]. apply B. now left.
    + intros (A & B). split; [exact P3|]. constructor; [|constructor; [|constructor]].
      * split; [exact N1|]. cbn [snd]. intros v [= <-]. split; [exact D2|]. split; [intros K; now apply D4 in K|intros _; exact D3].
      * split; [exact N2|]. cbn [snd]. intros v [= <-]. split; [exact A|]. split; [intros _; exact B|]. intros K. exfalso. apply K. now left.
  - unfold cause_code. cbn [ready rs_params]. replace (bget (lit "cause") _) with (Some (Some (print_N c))) by reflexivity. apply parse_uint_print. lia.
  - reflexivity.
Qed.
(** the header for an ISDN cause says it, in words too, and survives the wire *)
Theorem C147_q850 : forall c t, In (c, t) Q850 -> exists h, reason_q850 c = Some h /\ is_q850 h = true /\ is_sip h = false
  /\ cause_code h = Some c /\ reason_text h = Some t /\ as_q850 h = Some c /\ reason_parse (reason_print h) = Some h.
Proof.
  assert (T : Forall (fun x : N * str => q850_text (fst x) = Some (snd x) /\ fst x <= 65535 /\ rs_value (snd x) = true /\ mem 59 (snd x) = false /\ mem 92 (snd x) = false) Q850)
    by (repeat constructor; vm_compute; discriminate).
  intros c t H. rewrite Forall_forall in T. apply T in H as (A & B & C & D & E). cbn [fst snd] in *. apply value_iff in C. apply mem_false in D, E.
  destruct (ready_facts (lit "Q.850") c t (or_intror (or_introl eq_refl)) B C) as (F1 & F2 & F3 & F4 & F5). exists (ready (lit "Q.850") c t). split; [unfold reason_q850; now rewrite A|].
  split; [reflexivity|]. split; [reflexivity|]. split; [exact F4|]. split; [exact F5|]. split; [unfold as_q850; rewrite F4; unfold q850_from_code; now rewrite A|].
  apply (C147_roundtrip _ F1 F2). apply F3. now split.
Qed.
Print Assumptions C147_q850.
(** the header for a response code: any text without control characters of at
    most 256 bytes is taken; a text with a semicolon or a backslash does not
    survive the wire, every other does, the standard ones among them *)
Theorem C147_sip : forall code text, code <= 65535 ->
  (reason_sip code (Some text) <> None <-> sound_text 256 text)
  /\ (forall h, reason_sip code (Some text) = Some h -> is_sip h = true /\ is_q850 h = false /\ cause_code h = Some code /\ reason_text h = Some text /\ as_q850 h = None
       /\ (reason_parse (reason_print h) = Some h <-> ~ In 59 text /\ ~ In 92 text))
  /\ exists h t, reason_sip code None = Some h /\ (In (code, t) SIP_TEXTS \/ t = lit "Unknown") /\ reason_sip code (Some t) = Some h /\ reason_parse (reason_print h) = Some h.
Proof.
  intros code text C. assert (R : forall t, reason_sip code (Some t) = if rs_value t then Some (ready (lit "SIP") code t) else None) by reflexivity.
  assert (T : forall h t, reason_sip code (Some t) = Some h -> is_sip h = true /\ is_q850 h = false /\ cause_code h = Some code /\ reason_text h = Some t /\ as_q850 h = None
       /\ (reason_parse (reason_print h) = Some h <-> ~ In 59 t /\ ~ In 92 t)).
  { intros h t H. rewrite R in H. destruct (rs_value t) eqn:V; [|discriminate]. injection H as <-. apply value_iff in V.
    destruct (ready_facts (lit "SIP") code t (or_introl eq_refl) C V) as (F1 & F2 & F3 & F4 & F5). split; [reflexivity|]. split; [reflexivity|]. split; [exact F4|]. split; [exact F5|]. split; [reflexivity|].
    rewrite (C147_roundtrip _ F1 F2). exact F3. }
  split; [rewrite R, <- value_iff; destruct (rs_value text); split; congruence|]. split; [intros h; apply T|].
  set (t := sip_text code). assert (P : (In (code, t) SIP_TEXTS \/ t = lit "Unknown") /\ rs_value t = true /\ mem 59 t = false /\ mem 92 t = false).
  { unfold t, sip_text. destruct (lookup N.eqb code SIP_TEXTS) as [x|] eqn:E; [|split; [now right|repeat split]]. apply (lookup_in N.eqb N.eqb_eq) in E. split; [now left|].
    assert (F : Forall (fun x : N * str => rs_value (snd x) = true /\ mem 59 (snd x) = false /\ mem 92 (snd x) = false) SIP_TEXTS) by (repeat constructor).
    rewrite Forall_forall in F. apply (F (code, x) E). }
  destruct P as (P1 & P2 & P3 & P4). exists (ready (lit "SIP") code t), t. assert (Q : reason_sip code (Some t) = Some (ready (lit "SIP") code t)) by (rewrite R, P2; reflexivity).
  split; [exact Q|]. split; [exact P1|]. split; [exact Q|]. apply (T _ _ Q). split; now apply mem_false.
Qed.
Print Assumptions C147_sip.

(** ** What goes wrong *)
(** a text with a semicolon is sent so that it is read as something else, and
    so is one with a backslash; a peer's well-formed quoted text with a
    semicolon is misread *)
Theorem C147_semicolon_refuted : exists t h k, reason_sip 486 (Some t) = Some h /\ reason_parse (reason_print h) = Some k /\ reason_text k <> reason_text h /\ rs_params k <> rs_params h.
Proof. exists (lit "busy;later"). eexists. eexists. split; [reflexivity|]. split; [vm_compute; reflexivity|]. split; vm_compute; discriminate. Qed.
Print Assumptions C147_semicolon_refuted.
Theorem C147_backslash_refuted : exists t h k, reason_sip 486 (Some t) = Some h /\ reason_parse (reason_print h) = Some k /\ reason_text k = Some (lit "ab") /\ t <> lit "ab".
Proof. exists [97; 92; 98]. eexists. eexists. split; [reflexivity|]. split; [vm_compute; reflexivity|]. split; [reflexivity|discriminate]. Qed.
Print Assumptions C147_backslash_refuted.
Theorem C147_quoted_refuted : exists s h, s = lit "SIP;text=""a;b""" /\ reason_parse s = Some h /\ reason_text h <> Some (lit "a;b").
Proof. eexists. eexists. split; [reflexivity|]. split; [vm_compute; reflexivity|]. vm_compute. discriminate. Qed.
Print Assumptions C147_quoted_refuted.

(** ** Examples *)
(** [Q.850 ; cause=16 ;text="Terminated"] is read *)
Example C147_reads_case :
  let ps := [lit " Cause = 16 "; lit "text=""Normal \""call\"""""] in let l := [(lit "cause", Some (lit "16")); (lit "text", Some (lit "Normal ""call"""))] in
  Forall2 written_param ps l /\ NoDup (map fst l) /\ reason_parse (join [59] (lit "q.850 " :: ps)) = Some (mkReason (lit "Q.850") l).
Proof.
  cbv zeta. split; [|split; [|vm_compute; reflexivity]].
  - constructor; [|constructor; [|constructor]].
    + change (lit " Cause = 16 ") with (lit " " ++ lit "Cause" ++ lit " " ++ [61] ++ lit " " ++ lit "16" ++ lit " "). change (lit "cause") with (lower (lit "Cause")).
      apply written_plain; try (intros x [<-|[]]; reflexivity).
      * apply pname_iff. split; [apply atom_iff; split; [discriminate|split; [reflexivity|now apply edgeless_words]]|reflexivity].
      * apply atom_iff; split; [discriminate|split; [reflexivity|now apply edgeless_words]].
      * intros (i & E). discriminate E.
    + change (lit "text=""Normal \""call\""""") with ([] ++ lit "text" ++ [] ++ [61] ++ [] ++ ([34] ++ lit "Normal \""call\""" ++ [34]) ++ []).
      apply (written_quoted [] (lit "text") [] []); try (intros x []).
      * apply pname_iff. split; [apply atom_iff; split; [discriminate|split; [reflexivity|now apply edgeless_words]]|reflexivity].
      * cbn. repeat first [apply means_nil | apply means_pair | apply means_char; [discriminate|]].
      * apply mem_false. reflexivity.
  - constructor; [intros [E|[]]; discriminate E|]. constructor; [intros []|constructor].
Qed.
Example C147_sound_case : exists s h, reason_parse s = Some h /\ sound_reason h /\ clean_reason h /\ rs_params h <> [].
Proof.
  exists (lit "SIP;cause=200;text=""Call completed elsewhere"""). eexists. split; [vm_compute; reflexivity|].
  destruct (ready_facts (lit "SIP") 200 (lit "Call completed elsewhere") (or_introl eq_refl) ltac:(vm_compute; discriminate) ltac:(apply value_iff; reflexivity)) as (A & _ & B & _).
  split; [exact A|]. split; [apply B; split; apply mem_false; reflexivity|discriminate].
Qed.
Example C147_q850_case : In (16, lit "Normal Call Clearing") Q850.
Proof. right. right. right. now left. Qed.
