(** Presence documents survive writing and reading (C160), and what an accepted
    document says (C161). *)
From Coq Require Import Arith NArith Bool String List Lia ZifyBool ZifyN ZifyNat.
Import ListNotations.
From Verif Require Import Base BaseFacts TypedFacts Pidf CpimSpec PidfSpec CpimProofs PidfProofs.
Open Scope N_scope.
Open Scope list_scope.

(** ** C160 *)
(** what is written for a text holds no markup, and is read as that text *)
Theorem C160_escape : forall s, no_markup (escape s) /\ unescape (escape s) = s.
Proof. intros s. split; [|apply unescape_escape]. intros c H. apply esc_in in H as (x & _ & H). apply esc_char in H. tauto. Qed.
Print Assumptions C160_escape.
Lemma pared_all : forall l, Forall2 (pared white) l (map trim l).
Proof. induction l as [|x l IH]; constructor; [apply trim_pared, white_iff|exact IH]. Qed.
Lemma pared_opt : forall o, opt_pared o (option_map trim o).
Proof. intros [v|]; [apply trim_pared, white_iff|exact I]. Qed.
(** every document that was built and is not longer than a reader takes is read back,
    but for white space round contacts, notes and timestamps *)
Theorem C160_roundtrip : forall d, built d -> blen (to_xml d) <= 1048576 -> exists d', parse_pidf (to_xml d) = Some d' /\ same_but_blanks d d'.
Proof.
  intros d B L. eexists. split; [apply doc_read; [now apply built_within|exact L]|]. refine (conj eq_refl (conj _ _)); [|apply pared_all]. cbn [d_tuples]. induction (d_tuples d) as [|t ts IH]; constructor; [|exact IH]. refine (conj eq_refl (conj eq_refl (conj _ (conj _ _)))); [apply pared_opt|apply pared_all|apply pared_opt].
Qed.
Print Assumptions C160_roundtrip.

(** ... and without characters that need escaping it is never too long *)
Definition texts (d : pidf) : list str :=
  d_entity d :: d_notes d ++ flat_map (fun t => t_id t :: t_notes t ++ (match t_contact t with Some c => [c] | None => [] end) ++ (match t_time t with Some c => [c] | None => [] end)) (d_tuples d).
Definition unescaped (s : str) : Prop := forall c, In c s -> ~ In c (lit "<>&""'").
Lemma esc_plain : forall s, unescaped s -> escape s = s.
Proof.
  induction s as [|c s IH]; intros H; [reflexivity|]. rewrite esc_cons, IH by (intros x Hx; apply H; now right). specialize (H c (or_introl eq_refl)). cbn in H. unfold escape_c. replace (c =? 60) with false by lia. replace (c =? 62) with false by lia. replace (c =? 38) with false by lia. replace (c =? 34) with false by lia. now replace (c =? 39) with false by lia.
Qed.
Lemma flat_blen : forall A (f : A -> str) k l, (forall x, In x l -> blen (f x) <= k) -> blen (flat_map f l) <= k * N.of_nat (List.length l).
Proof. intros A f k. induction l as [|x l IH]; intros H; [cbn; lia|]. cbn [flat_map List.length]. rewrite blen_app. pose proof (H x (or_introl eq_refl)). pose proof (IH (fun y Hy => H y (or_intror Hy))). lia. Qed.
Theorem C160_fits : forall d, built d -> (forall s, In s (texts d) -> unescaped s) -> blen (to_xml d) <= 1048576.
Proof.
  intros d B U. destruct (built_within d B) as (W1 & W2 & W3 & W4 & W5). unfold texts in U. rewrite doc_split. rewrite !blen_app.
  assert (E1 : blen (dhead (d_entity d)) <= 700).
  { unfold dhead. rewrite !blen_app. rewrite esc_plain by (apply U; now left). destruct W1 as (_ & W1 & _). change (blen (lit "<?xml version=""1.0"" encoding=""UTF-8""?>")) with 38. change (blen NL) with 1. change (blen (lit "<presence xmlns=""urn:ietf:params:xml:ns:pidf"" entity=""")) with 54. change (blen (lit """>")) with 2. lia. }
  assert (E2 : blen (flat_map dnote (d_notes d)) <= 540 * N.of_nat (List.length (d_notes d))).
  { apply flat_blen. intros n Hn. unfold dnote. rewrite !blen_app. rewrite esc_plain by (apply U; right; apply in_or_app; now left). destruct (W5 n Hn) as (L & _). change (blen (lit "  <note>")) with 8. change (blen (lit "</note>")) with 7. change (blen NL) with 1. lia. }
  assert (E3 : blen (flat_map tuple_xml (d_tuples d)) <= 7000 * N.of_nat (List.length (d_tuples d))).
  { apply flat_blen. intros t Ht. assert (V : forall s, In s (t_id t :: t_notes t ++ (match t_contact t with Some c => [c] | None => [] end) ++ (match t_time t with Some c => [c] | None => [] end)) -> unescaped s) by (intros s Hs; apply U; right; apply in_or_app; right; apply in_flat_map; now exists t).
    destruct (W3 t Ht) as ((_ & G1 & _) & G2 & G3 & G4 & G5). unfold tuple_xml. rewrite !blen_app.
    assert (F1 : blen (escape (t_id t)) <= 128) by (rewrite esc_plain by (apply V; now left); exact G1).
    assert (F2 : blen (status_text (t_status t)) <= 70) by (destruct (t_status t) as [[]|]; cbn; lia).
    assert (F3 : blen (contact_text (t_contact t)) <= 540).
    { destruct (t_contact t) as [c|]; [|cbn; lia]. unfold contact_text. rewrite !blen_app. rewrite esc_plain by (apply V; right; apply in_or_app; right; now left). destruct (G2 c eq_refl) as (L & _). change (blen (lit "    <contact>")) with 13. change (blen (lit "</contact>")) with 10. change (blen NL) with 1. lia. }
    assert (F4 : blen (flat_map (fun n => lit "    <note>" ++ escape n ++ lit "</note>" ++ NL) (t_notes t)) <= 540 * N.of_nat (List.length (t_notes t))).
    { apply flat_blen. intros n Hn. rewrite !blen_app. rewrite esc_plain by (apply V; right; apply in_or_app; now left). destruct (G4 n Hn) as (L & _). change (blen (lit "    <note>")) with 10. change (blen (lit "</note>")) with 7. change (blen NL) with 1. lia. }
    assert (F5 : blen (time_text (t_time t)) <= 100).
    { destruct (t_time t) as [c|]; [|cbn; lia]. unfold time_text. rewrite !blen_app. rewrite esc_plain by (apply V; right; apply in_or_app; right; apply in_or_app; right; now left). destruct (G5 c eq_refl) as (L & _). change (blen (lit "    <timestamp>")) with 15. change (blen (lit "</timestamp>")) with 12. change (blen NL) with 1. lia. }
    change (blen (lit "  <tuple id=""")) with 13. change (blen (lit """>")) with 2. change (blen (lit "  </tuple>")) with 10. change (blen NL) with 1. lia. }
  change (blen dtail) with 12. lia.
Qed.
Print Assumptions C160_fits.
Definition phone1 : tuple := mkTuple (lit "t<1>") (Some Open) (Some (lit "sip:alice@example.com")) [lit "<note>R&D"; lit " back at ""5"" "] (Some (lit "2026-11-16T20:00:00Z")).
Definition doc1 : pidf := mkPidf (lit "pres:alice@example.com") [phone1] [lit "</presence>"].
Lemma phone1_built : tuple_built phone1.
Proof.
  apply (tb_time (mkTuple (lit "t<1>") (Some Open) (Some (lit "sip:alice@example.com")) [lit "<note>R&D"; lit " back at ""5"" "] None) (lit "2026-11-16T20:00:00Z")); [|reflexivity].
  apply (tb_note (mkTuple (lit "t<1>") (Some Open) (Some (lit "sip:alice@example.com")) [lit "<note>R&D"] None) (lit " back at ""5"" ")); [|reflexivity].
  apply (tb_note (mkTuple (lit "t<1>") (Some Open) (Some (lit "sip:alice@example.com")) [] None) (lit "<note>R&D")); [|reflexivity].
  apply (tb_contact (mkTuple (lit "t<1>") (Some Open) None [] None) (lit "sip:alice@example.com")); [|reflexivity].
  apply (tb_status (mkTuple (lit "t<1>") None None [] None) Open). apply (tb_new (lit "t<1>")). reflexivity.
Qed.
Lemma doc1_built : built doc1.
Proof.
  apply (db_note (mkPidf (lit "pres:alice@example.com") [phone1] []) (lit "</presence>")); [|reflexivity]. apply (db_tuple (mkPidf (lit "pres:alice@example.com") [] []) phone1); [|apply phone1_built|reflexivity]. apply (db_new (lit "pres:alice@example.com")). reflexivity.
Qed.
Example C160_example : built doc1 /\ blen (to_xml doc1) <= 1048576.
Proof. split; [apply doc1_built|]. vm_compute. discriminate. Qed.

(** a document within all limits may be too long to be read *)
Definition quotes : str := List.repeat 34 512.
Definition loud (n : nat) : tuple := mkTuple (lit "t") None None (List.repeat quotes n) None.
Lemma loud_built : forall n, (n <= 10)%nat -> tuple_built (loud n).
Proof.
  induction n as [|n IH]; intros L; [apply (tb_new (lit "t")); reflexivity|]. apply (tb_note (loud n) quotes); [apply IH; lia|]. unfold with_note. assert (K : note_ok quotes = true) by (vm_compute; reflexivity). rewrite K. unfold loud at 1. cbn [t_notes]. unfold llen. rewrite repeat_length. replace (10 <=? N.of_nat n) with false by lia. cbn [andb negb]. unfold loud. cbn [t_id t_status t_contact t_notes t_time]. now rewrite <- repeat_cons.
Qed.
Lemma loud_doc : forall n, (n <= 50)%nat -> built (mkPidf (lit "e") (List.repeat (loud 10) n) []).
Proof.
  induction n as [|n IH]; intros L; [apply (db_new (lit "e")); reflexivity|]. apply (db_tuple (mkPidf (lit "e") (List.repeat (loud 10) n) []) (loud 10)); [apply IH; lia|apply loud_built; lia|]. unfold add_tuple. cbn [d_tuples]. unfold llen. rewrite repeat_length. replace (50 <=? N.of_nat n) with false by lia. cbn [d_entity d_notes]. now rewrite <- repeat_cons.
Qed.
Lemma flat_repeat : forall A (f : A -> str) x n, blen (flat_map f (List.repeat x n)) = N.of_nat n * blen (f x).
Proof. intros A f x. induction n as [|n IH]; [reflexivity|]. cbn [List.repeat flat_map]. rewrite blen_app, IH. lia. Qed.
Lemma quotes_len : blen (escape quotes) = 3072.
Proof. unfold quotes, escape. rewrite flat_repeat. reflexivity. Qed.
Lemma loud_len : 30000 <= blen (tuple_xml (loud 10)).
Proof. unfold tuple_xml. rewrite !blen_app. cbn [loud t_notes]. rewrite flat_repeat. rewrite !blen_app, quotes_len. lia. Qed.
Lemma too_long : forall t, 1048576 < blen t -> parse_pidf t = None.
Proof. intros t H. unfold parse_pidf. now replace (1048576 <? blen t) with true by lia. Qed.
Theorem C160_size_refuted : exists d, built d /\ parse_pidf (to_xml d) = None.
Proof.
  exists (mkPidf (lit "e") (List.repeat (loud 10) 50) []). split; [apply loud_doc; lia|]. apply too_long. rewrite doc_split, !blen_app. cbn [d_tuples]. rewrite flat_repeat. pose proof loud_len. change (N.of_nat 50) with 50. lia.
Qed.
Print Assumptions C160_size_refuted.

(** ** C161: what an accepted document says *)
Lemma notes_built : forall f xml t t', tuple_built t -> read_notes f xml t = Some t' -> tuple_built t'.
Proof.
  induction f as [|f IH]; intros xml t t' B H; [discriminate|]. cbn [read_notes] in H. destruct (find_sub (lit "<note>") xml) as [(a, r)|]; [|now injection H as <-]. destruct (find_sub (lit "</note>") r) as [(n, r')|]; [|now injection H as <-]. destruct (with_note t (unescape (trim n))) as [t1|] eqn:E; [|discriminate]. exact (IH r' t1 t' (tb_note _ _ _ B E) H).
Qed.
Lemma read_tuple_built : forall xml t, read_tuple xml = Some t -> tuple_built t.
Proof.
  intros xml t H. unfold read_tuple in H. destruct (attribute xml _ _) as [i|]; [|discriminate]. destruct (tuple_new (unescape i)) as [t0|] eqn:T; [|discriminate]. destruct (read_status xml) as [st|]; [|discriminate]. cbv zeta in H. assert (B1 : tuple_built (mkTuple (t_id t0) st (t_contact t0) (t_notes t0) (t_time t0))).
  { destruct st as [b|]; [apply (tb_status t0 b); now apply (tb_new (unescape i))|]. assert (E : mkTuple (t_id t0) None (t_contact t0) (t_notes t0) (t_time t0) = t0); [|rewrite E; now apply (tb_new (unescape i))]. unfold tuple_new in T. destruct (id_ok (unescape i)); [|discriminate]. now injection T as <-. }
  destruct (once xml (lit "contact")) as [oc|]; [|discriminate]. destruct (match oc with Some c => _ | None => _ end) as [t2|] eqn:C in H; [|discriminate]. assert (B2 : tuple_built t2) by (destruct oc as [c|]; [exact (tb_contact _ _ _ B1 C)|now injection C as <-]).
  destruct (read_notes _ xml t2) as [t3|] eqn:N; [|discriminate]. apply notes_built in N; [|exact B2]. destruct (once xml (lit "timestamp")) as [[s|]|]; [exact (tb_time _ _ _ N H)|now injection H as <-|discriminate].
Qed.
Lemma read_tuples_built : forall f pos xml d rg d' rg', built d -> read_tuples f pos xml d rg = Some (d', rg') -> built d'.
Proof.
  induction f as [|f IH]; intros pos xml d rg d' rg' B H; [discriminate|]. cbn [read_tuples] in H. destruct (find_sub (lit "<tuple") xml) as [(a, r)|]; [|now injection H as <- _]. cbv zeta in H. destruct (find_sub (lit "</tuple>") _) as [(x, r')|]; [|discriminate]. destruct (read_tuple _) as [t|] eqn:T; [|discriminate]. destruct (add_tuple d t) as [d1|] eqn:A; [|discriminate]. exact (IH _ _ _ _ _ _ (db_tuple _ _ _ B (read_tuple_built _ _ T) A) H).
Qed.
Lemma doc_notes_built : forall f pos xml rg d d', built d -> read_doc_notes f pos xml rg d = Some d' -> built d'.
Proof.
  induction f as [|f IH]; intros pos xml rg d d' B H; [discriminate|]. cbn [read_doc_notes] in H. destruct (find_sub (lit "<note>") xml) as [(a, r)|]; [|now injection H as <-]. cbv zeta in H. destruct (existsb _ rg); [exact (IH _ _ _ _ _ B H)|]. destruct (find_sub (lit "</note>") r) as [(n, r')|]; [|discriminate]. destruct (add_note d _) as [d1|] eqn:A; [|discriminate]. exact (IH _ _ _ _ _ (db_note _ _ _ B A) H).
Qed.
(** every document that is accepted could have been built: it is within the limits *)
Theorem C161_limits : forall xml d, parse_pidf xml = Some d -> built d /\ within d /\ blen xml <= 1048576.
Proof.
  intros xml d H. unfold parse_pidf in H. destruct (1048576 <? blen xml) eqn:L; [discriminate|]. destruct (attribute xml _ _) as [e|]; [|discriminate]. destruct (pidf_new (unescape e)) as [d0|] eqn:N; [|discriminate]. destruct (read_tuples _ _ _ _ _) as [(d1, rg)|] eqn:T; [|discriminate].
  assert (B : built d) by exact (doc_notes_built _ _ _ _ _ _ (read_tuples_built _ _ _ _ _ _ _ (db_new _ _ N) T) H). refine (conj B (conj (built_within d B) _)). now apply N.ltb_ge in L.
Qed.
Print Assumptions C161_limits.
Example C161_example : exists d, parse_pidf (to_xml doc1) = Some d. Proof. eexists. vm_compute. reflexivity. Qed.

(** attributes on contact and note, as in the example of RFC 3863, make both disappear *)
Theorem C161_attributes_refuted : exists xml d, find_sub (lit "<contact priority=""0.8"">tel:+1</contact>") xml <> None /\ find_sub (lit "<note xml:lang=""en"">busy</note>") xml <> None
  /\ parse_pidf xml = Some d /\ map t_contact (d_tuples d) = [None] /\ map t_notes (d_tuples d) = [[]] /\ d_notes d = [].
Proof.
  exists (lit "<presence entity=""pres:a""><tuple id=""1""><contact priority=""0.8"">tel:+1</contact><note xml:lang=""en"">busy</note></tuple></presence>"). eexists. split; [vm_compute; discriminate|]. split; [vm_compute; discriminate|]. split; [vm_compute; reflexivity|]. refine (conj eq_refl (conj eq_refl eq_refl)).
Qed.
Print Assumptions C161_attributes_refuted.
(** what stands in a comment is read *)
Theorem C161_comment_refuted : exists xml d, find_sub (lit "<!-- <tuple id=""x""><basic>open</basic></tuple> -->") xml <> None /\ parse_pidf xml = Some d /\ map t_id (d_tuples d) = [lit "x"].
Proof.
  exists (lit "<presence entity=""pres:a""><!-- <tuple id=""x""><basic>open</basic></tuple> --></presence>"). eexists. split; [vm_compute; discriminate|]. split; [vm_compute; reflexivity|reflexivity].
Qed.
Print Assumptions C161_comment_refuted.
(** character references by number are not read *)
Theorem C161_reference_refuted : exists xml d, parse_pidf xml = Some d /\ d_notes d = [lit "R&#38;D"] /\ find_sub (lit "<note>R&#38;D</note>") xml <> None.
Proof. exists (lit "<presence entity=""pres:a""><note>R&#38;D</note></presence>"). eexists. split; [vm_compute; reflexivity|]. split; [reflexivity|vm_compute; discriminate]. Qed.
Print Assumptions C161_reference_refuted.

(** what a text in a document is read as *)
Lemma entity_known : forall e x, In (e, x) entities -> entity_value e = [x] /\ ~ In 59 e.
Proof. intros e x [H|[H|[H|[H|[H|[]]]]]]; apply pair_equal_spec in H as (<- & <-); (split; [reflexivity|]); apply mem_false; reflexivity. Qed.
Lemma entity_case : forall e, (exists x, In (e, x) entities) \/ ((forall x, ~ In (e, x) entities) /\ entity_value e = 38 :: e ++ [59]).
Proof.
  intros e. unfold entity_value.
  destruct (str_eqb e (lit "lt")) eqn:E1; [apply str_eqb_spec in E1; subst; left; eexists; now left|]. destruct (str_eqb e (lit "gt")) eqn:E2; [apply str_eqb_spec in E2; subst; left; eexists; right; now left|].
  destruct (str_eqb e (lit "amp")) eqn:E3; [apply str_eqb_spec in E3; subst; left; eexists; do 2 right; now left|]. destruct (str_eqb e (lit "quot")) eqn:E4; [apply str_eqb_spec in E4; subst; left; eexists; do 3 right; now left|].
  destruct (str_eqb e (lit "apos")) eqn:E5; [apply str_eqb_spec in E5; subst; left; eexists; do 4 right; now left|]. right. split; [|reflexivity]. apply str_eqb_neq in E1, E2, E3, E4, E5.
  intros x [H|[H|[H|[H|[H|[]]]]]]; apply (f_equal fst) in H; cbn [fst] in H; congruence.
Qed.
Lemma unesc_stands : forall f s, (List.length s <= f)%nat -> stands s (unescape_fuel f s).
Proof.
  induction f as [|f IH]; intros [|c s] L; cbn [List.length] in L; try lia; try exact st_end. cbn [unescape_fuel]. destruct (c =? 38) eqn:C; [|apply N.eqb_neq in C; apply st_char; [exact C|apply IH; lia]]. apply N.eqb_eq in C. subst c.
  destruct (split_once 59 s) as [(e, r)|] eqn:S.
  - apply split_once_some in S as (-> & S). apply mem_false in S. rewrite app_length in L. cbn [List.length] in L. destruct (entity_case e) as [(x & X)|(X & ->)].
    + rewrite (proj1 (entity_known e x X)). apply st_named; [exact X|apply IH; lia].
    + cbn [app]. rewrite <- app_assoc. cbn [app]. apply st_other; [exact S|exact X|apply IH; lia].
  - apply split_once_none in S. apply st_lone; [now apply mem_false|apply IH; lia].
Qed.
Lemma stands_one : forall s t, stands s t -> forall f, (List.length s <= f)%nat -> unescape_fuel f s = t.
Proof.
  intros s t S. induction S as [|c s t C S IH|e x s t E S IH|e s t N E S IH|s t N S IH]; intros f L; [destruct f; reflexivity|..]; cbn [List.length] in L; (destruct f as [|f]; [lia|]); cbn [unescape_fuel].
  - apply N.eqb_neq in C. rewrite C. f_equal. apply IH. lia.
  - change (38 =? 38) with true. cbv iota. apply entity_known in E as (E & N). apply mem_false in N. rewrite split_once_app by exact N. rewrite E, IH; [reflexivity|]. rewrite app_length in L. cbn [List.length] in L. lia.
  - change (38 =? 38) with true. cbv iota. apply mem_false in N. rewrite split_once_app by exact N. destruct (entity_case e) as [(x & X)|(_ & ->)]; [now elim (E x)|]. rewrite IH; [cbn [app]; rewrite <- app_assoc; reflexivity|]. rewrite app_length in L. cbn [List.length] in L. lia.
  - change (38 =? 38) with true. cbv iota. apply mem_false in N. apply split_once_none in N. rewrite N. f_equal. apply IH. lia.
Qed.
Theorem C161_text : forall s t, unescape s = t <-> stands s t.
Proof. intros s t. split; [intros <-; apply unesc_stands; apply Nat.le_refl|intros H; exact (stands_one s t H _ (Nat.le_refl _))]. Qed.
Print Assumptions C161_text.
Example C161_text_example : unescape (lit "a &lt;b&gt; &nbsp; c & d") = lit "a <b> &nbsp; c & d". Proof. reflexivity. Qed.

(** the status of a tuple: the word in its first basic element; without one there is
    none, and another word is refused *)
Lemma find_sub_first : forall p s a b, first_at p s a b -> find_sub p s = Some (a, b).
Proof.
  intros p s a b (E & F). destruct (find_sub p s) as [(c, d)|] eqn:S; [|exfalso; rewrite E in S; now apply find_sub_app in S].
  assert (M : forall a' b', s = a' ++ p ++ b' -> (List.length c <= List.length a')%nat).
  { clear E F. revert c d S. induction s as [|x s IH]; intros c d S a' b' E'; cbn [find_sub] in S.
    - destruct (strip_prefix p []) as [r|]; [|discriminate]. injection S as <- <-. cbn. lia.
    - destruct (strip_prefix p (x :: s)) as [r|] eqn:P; [injection S as <- <-; cbn; lia|]. destruct (find_sub p s) as [(c', d')|]; [|discriminate]. injection S as <- <-. destruct a' as [|y a']; [cbn [app] in E'; rewrite E', strip_prefix_app in P; discriminate|]. cbn [app] in E'. injection E' as _ E'. specialize (IH c' d' eq_refl a' b' E'). cbn [List.length]. lia. }
  pose proof (find_sub_some _ _ _ _ S) as E2. pose proof (F c d E2) as L1. pose proof (M a b E) as L2. assert (L : List.length a = List.length c) by lia.
  rewrite E in E2. assert (G : a = c /\ p ++ b = p ++ d). { clear - E2 L. revert c L E2. induction a as [|x a IH]; intros [|y c] L E2; try discriminate; [now split|]. cbn in L. injection L as L. injection E2 as -> E2. destruct (IH c L E2) as (-> & H). now split. }
  destruct G as (-> & G). apply app_inv_head in G. now subst.
Qed.
Theorem C161_status : forall xml,
  (forall a m c r, first_at (lit "<basic>") xml a m -> first_at (lit "</basic>") m c r ->
     (forall b, names_status c b -> read_status xml = Some (Some b)) /\ ((forall b, ~ names_status c b) -> read_status xml = None))
  /\ ((forall a b, xml <> a ++ lit "<basic>" ++ b) -> read_status xml = Some None).
Proof.
  intros xml. split.
  - intros a m c r F1 F2. unfold read_status. rewrite (find_sub_first _ _ _ _ F1), (find_sub_first _ _ _ _ F2). unfold names_status, basic_of, eq_ic. change (lower (lit "open")) with (lit "open"). change (lower (lit "closed")) with (lit "closed"). split.
    + intros b ->. now destruct b.
    + intros N. pose proof (N Open) as N1. pose proof (N Closed) as N2. cbn beta iota in N1, N2. apply str_eqb_neq in N1, N2. now rewrite N1, N2.
  - intros N. unfold read_status. apply find_sub_none in N. now rewrite N.
Qed.
Print Assumptions C161_status.
Example C161_status_example : read_status (lit "<tuple><status><basic> OPEN </basic></status></tuple>") = Some (Some Open) /\ read_status (lit "<basic>busy</basic>") = None
  /\ first_at (lit "<basic>") (lit "<basic>busy</basic>") [] (lit "busy</basic>").
Proof. split; [reflexivity|]. split; [reflexivity|]. split; [reflexivity|intros; cbn; lia]. Qed.
