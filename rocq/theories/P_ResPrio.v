(** Properties of Resource-Priority headers. *)
From Coq Require Import Arith NArith Bool String List Lia ZifyBool ZifyN ZifyNat.
Import ListNotations.
From Verif Require Import Base Text BaseFacts TextFacts TypedFacts ResPrio ResPrioSpec.
Open Scope N_scope.
Open Scope list_scope.

Lemma white_blanks : forall s, white s <-> blanks s.
Proof. intros s. unfold white, blanks. now rewrite forallb_forall. Qed.
Lemma word_iff : forall s, word_ok s = true <-> word s.
Proof.
  intros s. unfold word_ok, word. rewrite !andb_true_iff, !negb_true_iff, <- (not_true_iff_false (existsb _ _)), existsb_exists. split.
  - intros ((A & B) & C). refine (conj (proj1 (str_eqb_neq _ _) A) (conj _ _)); [lia|]. intros c Hc.
    assert (X : is_ascii_control c || is_ws c = false) by (apply not_true_is_false; intros X; apply C; now exists c). apply orb_false_iff in X as (X & Y). unfold is_ascii_control in X. repeat split; [lia|lia|exact Y].
  - intros (A & B & C). refine (conj (conj _ _) _); [|lia|].
    + destruct (str_eqb s []) eqn:E; [apply str_eqb_spec in E; contradiction|reflexivity].
    + intros (c & Hc & X). apply C in Hc as (H1 & H2 & H3). rewrite H3 in X. unfold is_ascii_control in X. lia.
Qed.
Lemma new_iff : forall n p v, value_new n p = Some v <-> word n /\ word p /\ v = mkValue n p.
Proof.
  intros n p v. unfold value_new. rewrite <- !word_iff. destruct (word_ok n), (word_ok p); cbn [andb]; split; intros H; try discriminate; try (destruct H as (A & B & C); congruence). repeat split; congruence.
Qed.
Lemma text_edgeless : forall n q, word n -> word q -> edgeless (n ++ lit "." ++ q).
Proof.
  intros n q (_ & _ & A) (_ & _ & B). apply edgeless_words. apply forallb_forall. intros c Hc. apply negb_true_iff. apply in_app_iff in Hc as [Hc|[<-|Hc]]; [now apply A|reflexivity|now apply B].
Qed.
Lemma one_iff : forall p v, value_parse p = Some v <-> exists a b, white a /\ white b /\ word (v_space v) /\ word (v_priority v) /\ ~ In 46 (v_space v) /\ p = a ++ v_space v ++ lit "." ++ v_priority v ++ b.
Proof.
  intros p v. unfold value_parse. split.
  - intros H. destruct (split_once 46 (trim p)) as [(n, q)|] eqn:E; [|discriminate]. apply new_iff in H as (A & B & ->). cbn [v_space v_priority]. apply split_once_some in E as (E & M). apply mem_false in M.
    destruct (trim_by_sub is_ws p) as (a & b & P & Ha & Hb). fold (trim p) in P. exists a, b. rewrite !white_blanks. refine (conj Ha (conj Hb (conj A (conj B (conj M _))))). rewrite P at 1. rewrite E. change (lit ".") with [46]. now rewrite <- app_assoc.
  - intros (a & b & A & B & N1 & Q & M & ->). rewrite white_blanks in A, B. replace (a ++ v_space v ++ lit "." ++ v_priority v ++ b) with (a ++ (v_space v ++ lit "." ++ v_priority v) ++ b) by (now rewrite <- !app_assoc).
    rewrite trim_pad by assumption. rewrite text_edgeless by assumption. change (lit "." ++ v_priority v) with (46 :: v_priority v). rewrite split_once_app by (now apply mem_false). apply new_iff. refine (conj N1 (conj Q _)). now destruct v.
Qed.
Lemma blank_part : forall p, str_eqb (trim p) [] = true <-> white p.
Proof.
  intros p. rewrite str_eqb_spec, white_blanks. split; intros H.
  - destruct (trim_by_sub is_ws p) as (a & b & P & Ha & Hb). fold (trim p) in P. rewrite H in P. rewrite P. unfold blanks. cbn [app]. now rewrite forallb_app, Ha, Hb.
  - rewrite <- (app_nil_r p). rewrite trim_left by exact H. reflexivity.
Qed.
Lemma value_not_blank : forall a n q b, ~ white (a ++ n ++ lit "." ++ q ++ b).
Proof. intros a n q b H. specialize (H 46). assert (X : is_ws 46 = true) by (apply H; rewrite !in_app_iff; right; right; left; now left). discriminate. Qed.
Lemma parts_iff : forall ps l r, (List.length l <= 10)%nat -> (read_parts ps l = Some r <-> exists k, r = l ++ k /\ stands ps k /\ (List.length r <= 10)%nat).
Proof.
  induction ps as [|p ps IH]; intros l r L; cbn [read_parts].
  - split.
    + intros H. exists []. assert (l = r) by congruence. subst r. rewrite app_nil_r. repeat split; [constructor|exact L].
    + intros (k & -> & S1 & _). inversion S1. now rewrite app_nil_r.
  - destruct (str_eqb (trim p) []) eqn:E.
    + apply blank_part in E. rewrite IH by exact L. split; intros (k & -> & S1 & K).
      * exists k. repeat split; [now constructor|exact K].
      * exists k. repeat split; [|exact K]. inversion S1; subst; [assumption|]. now apply value_not_blank in E.
    + assert (NB : ~ white p) by (intros X; apply blank_part in X; congruence). destruct (10 <=? llen l) eqn:F; unfold llen in F.
      * split; [discriminate|]. intros (k & -> & S1 & K). inversion S1; subst; [contradiction|]. rewrite app_length in K. cbn [List.length] in K. lia.
      * destruct (value_parse (trim p)) as [v|] eqn:V.
        -- assert (V' : value_parse p = Some v) by (unfold value_parse in *; now rewrite trim_idem in V). apply one_iff in V' as (a & b & A & B & N1 & Q & M & P). rewrite IH by (rewrite app_length; cbn [List.length]; lia). split; intros (k & -> & S1 & K).
           ++ exists (v :: k). rewrite <- app_assoc in *. repeat split; [|exact K]. rewrite P. destruct v as [n q]. now constructor.
           ++ inversion S1 as [| |a' n q b' ps' k' A' B' N' Q' M' S' X Y]; subst; [contradiction|].
              assert (W : value_parse (a ++ v_space v ++ lit "." ++ v_priority v ++ b) = Some v) by (apply one_iff; exists a, b; refine (conj A (conj B (conj N1 (conj Q (conj M eq_refl)))))).
              assert (W' : value_parse (a' ++ n ++ lit "." ++ q ++ b') = Some (mkValue n q)) by (apply one_iff; exists a', b'; cbn [v_space v_priority]; refine (conj A' (conj B' (conj N' (conj Q' (conj M' eq_refl)))))).
              change (a' ++ n ++ lit "." ++ q ++ b' = a ++ v_space v ++ lit "." ++ v_priority v ++ b) in X. rewrite X in W'. assert (v = mkValue n q) by congruence. subst v. exists k'. rewrite <- app_assoc. refine (conj eq_refl (conj S' K)).
        -- split; [discriminate|]. intros (k & -> & S1 & K). inversion S1 as [| |a' n q b' ps' k' A' B' N' Q' M' S' X Y]; subst; [contradiction|].
           assert (W' : value_parse (a' ++ n ++ lit "." ++ q ++ b') = Some (mkValue n q)) by (apply one_iff; exists a', b'; cbn [v_space v_priority]; refine (conj A' (conj B' (conj N' (conj Q' (conj M' eq_refl)))))). assert (V' : value_parse (a' ++ n ++ lit "." ++ q ++ b') = None) by (unfold value_parse in V |- *; rewrite trim_idem in V; exact V). congruence.
Qed.
Lemma built_words : forall l, built l -> (List.length l <= 10)%nat /\ forall v, In v l -> word (v_space v) /\ word (v_priority v).
Proof.
  induction 1 as [|n p v H|l n p v l' _ IH H A].
  - split; [cbn; lia|intros v []].
  - apply new_iff in H as (A & B & ->). split; [cbn; lia|]. intros v [<-|[]]. auto.
  - apply new_iff in H as (X & Y & ->). unfold add_value in A. destruct (10 <=? llen l) eqn:F; [discriminate|]. injection A as <-. unfold llen in F. destruct IH as (I1 & I2). split; [rewrite app_length; cbn [List.length]; lia|]. intros v Hv. apply in_app_iff in Hv as [Hv|[<-|[]]]; auto.
Qed.

(** C171: what a Resource-Priority text says, exactly; written headers read back as they
    were, provided their text is not too long and no namespace or priority holds the
    characters that separate them *)
Theorem C171_limits : forall l, built l -> (List.length l <= 10)%nat /\ forall v, In v l -> word (v_space v) /\ word (v_priority v).
Proof. exact built_words. Qed.
Print Assumptions C171_limits.
Theorem C171_reads : forall s l, parse s = Some l <-> says s l.
Proof.
  intros s l. unfold parse, says. destruct (512 <? blen s) eqn:E.
  - split; [discriminate|]. intros (A & _). lia.
  - rewrite parts_iff by (cbn; lia). split.
    + intros (k & -> & S1 & K). cbn [app] in *. refine (conj _ (conj K _)); [lia|]. exists (split_on 44 s). refine (conj (split_on_nonempty 44 s) (conj _ (conj _ S1))); [symmetry; apply join_split_on|]. intros p Hp. apply mem_false. now apply split_on_nomem_parts with (s := s).
    + intros (_ & K & ps & N0 & -> & C & S1). exists l. refine (conj eq_refl (conj _ K)). rewrite split_on_join; [exact S1|exact N0|]. apply Forall_forall. intros p Hp. apply mem_false. now apply C.
Qed.
Print Assumptions C171_reads.
Lemma text_parts : forall l, text l = join [44] (match l with [] => [[]] | v :: r => value_text v :: map (fun w => 32 :: value_text w) r end).
Proof.
  intros [|v l]; [reflexivity|]. unfold text. revert v. induction l as [|w l IH]; intros v; [reflexivity|]. cbn [map]. change (join (lit ", ") (value_text v :: value_text w :: map value_text l)) with (value_text v ++ lit ", " ++ join (lit ", ") (map value_text (w :: l))). rewrite IH. cbn [map].
  change (join [44] (value_text v :: (32 :: value_text w) :: map (fun w0 => 32 :: value_text w0) l)) with (value_text v ++ [44] ++ join [44] ((32 :: value_text w) :: map (fun w0 => 32 :: value_text w0) l)). destruct l; reflexivity.
Qed.
Lemma stands_one : forall p v ps l, stands [p] [v] -> stands ps l -> stands (p :: ps) (v :: l).
Proof. intros p v ps l H S1. inversion H as [|q qs k Q S2 E1 E2|a n q b qs k A B N1 Q M S2 E1 E2]; [inversion S2|]. exact (s_value a n q b ps l A B N1 Q M S1). Qed.
Theorem C171_roundtrip_partial : forall l, built l -> (forall v, In v l -> plain v) -> blen (text l) <= 512 -> parse (text l) = Some l.
Proof.
  intros l B P L. apply C171_reads. destruct (built_words l B) as (K & W). refine (conj L (conj K _)). rewrite text_parts. eexists. refine (conj _ (conj eq_refl (conj _ _))).
  - destruct l; discriminate.
  - assert (G : forall v, In v l -> ~ In 44 (value_text v)).
    { intros v Hv X. unfold value_text in X. destruct (P v Hv) as (_ & P1 & P2). apply in_app_iff in X as [X|[X|X]]; [contradiction|discriminate|contradiction]. }
    destruct l as [|v l]; intros p Hp; [destruct Hp as [<-|[]]; intros []|]. destruct Hp as [<-|Hp]; [apply G; now left|]. apply in_map_iff in Hp as (w & <- & Hw). intros [X|X]; [discriminate|]. apply (G w); [now right|exact X].
  - assert (G : forall a r, white a -> (forall v, In v r -> In v l) -> stands (map (fun w => a ++ value_text w) r) r).
    { intros a. induction r as [|v r IH]; intros A Hr; [constructor|]. cbn [map]. destruct (W v (Hr v (or_introl eq_refl))) as (W1 & W2). destruct (P v (Hr v (or_introl eq_refl))) as (P1 & _). destruct v as [n q]. unfold value_text. cbn [v_space v_priority] in *. rewrite <- (app_nil_r q) at 1.
      constructor; try assumption; [intros c []|]. apply IH; [exact A|]. intros v Hv. apply Hr. now right. }
    destruct l as [|v l]; [constructor; [intros c []|constructor]|]. assert (X := G [] [v] ltac:(intros c []) ltac:(intros u [<-|[]]; now left)). assert (Y := G [32] l ltac:(intros c [<-|[]]; reflexivity) ltac:(intros u Hu; now right)).
    cbn [map app] in X, Y. now apply stands_one.
Qed.
Print Assumptions C171_roundtrip_partial.
(** a full stop in a namespace moves the boundary, a comma makes two values of one, and a
    header within its limits can be too long to be read *)
Theorem C171_stop_refuted : exists v w, built [v] /\ parse (text [v]) = Some [w] /\ v_space v = lit "a.b" /\ v_space w = lit "a".
Proof. exists (mkValue (lit "a.b") (lit "c")), (mkValue (lit "a") (lit "b.c")). refine (conj _ (conj _ (conj eq_refl eq_refl))); [now apply (b_single (lit "a.b") (lit "c"))|vm_compute; reflexivity]. Qed.
Print Assumptions C171_stop_refuted.
Theorem C171_comma_refuted : exists v w w', built [v] /\ parse (text [v]) = Some [w; w'].
Proof. exists (mkValue (lit "a") (lit "b,c.d")), (mkValue (lit "a") (lit "b")), (mkValue (lit "c") (lit "d")). split; [now apply (b_single (lit "a") (lit "b,c.d"))|vm_compute; reflexivity]. Qed.
Print Assumptions C171_comma_refuted.
Theorem C171_long_refuted : exists l, built l /\ (forall v, In v l -> plain v) /\ parse (text l) = None.
Proof.
  set (w := lit "0123456789012345678901234567890123456789012345678901234567890123"). set (v := mkValue w w).
  assert (V : value_new w w = Some v) by (vm_compute; reflexivity).
  exists [v; v; v; v]. refine (conj _ (conj _ _)).
  - apply (b_add [v; v; v] w w v); [|exact V|reflexivity]. apply (b_add [v; v] w w v); [|exact V|reflexivity]. apply (b_add [v] w w v); [|exact V|reflexivity]. now apply (b_single w w).
  - intros x Hx. assert (x = v) by (cbn [In] in Hx; intuition congruence). subst x. assert (M : mem 46 w = false /\ mem 44 w = false) by (vm_compute; split; reflexivity). destruct M as (M1 & M2). apply mem_false in M1, M2. repeat split; assumption.
  - unfold parse. assert (X : 512 <? blen (text [v; v; v; v]) = true) by (vm_compute; reflexivity). now rewrite X.
Qed.
Print Assumptions C171_long_refuted.
Example C171_case : parse (lit " dsn.flash , ,wps.0.1") = Some [mkValue (lit "dsn") (lit "flash"); mkValue (lit "wps") (lit "0.1")] /\ built [mkValue (lit "dsn") (lit "flash")] /\ plain (mkValue (lit "dsn") (lit "flash")).
Proof. refine (conj _ (conj _ _)); [vm_compute; reflexivity|now apply (b_single (lit "dsn") (lit "flash"))|]. repeat split; now apply mem_false. Qed.
