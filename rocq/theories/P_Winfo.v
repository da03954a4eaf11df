(** Properties of watcher information documents. *)
From Coq Require Import Arith NArith Bool String List Lia ZifyBool ZifyN ZifyNat.
Import ListNotations.
From Verif Require Import Base Text BaseFacts TypedFacts AnyUri PidfProofs Winfo WinfoSpec.
From Verif Require Pidf UriProofs.
Open Scope N_scope.
Open Scope list_scope.

(** ** Escapes *)
Lemma esc_cons : forall c s, escape (c :: s) = escape_c c ++ escape s.
Proof. reflexivity. Qed.
(** what one character becomes: itself, or an entity *)
Lemma esc_shape : forall c, (escape_c c = [c] /\ c <> 38 /\ c <> 60 /\ c <> 62 /\ c <> 34 /\ c <> 39)
  \/ exists e, escape_c c = 38 :: e ++ [59] /\ entity e = Some c /\ forall x, In x e -> (is_ws x = false /\ x <> 61 /\ x <> 60 /\ x <> 62 /\ x <> 34 /\ x <> 39 /\ x <> 59).
Proof.
  intros c. unfold escape_c.
  assert (G : forall e, forallb (fun x => negb (is_ws x) && negb (mem x [61; 60; 62; 34; 39; 59])) e = true -> forall x, In x e -> is_ws x = false /\ x <> 61 /\ x <> 60 /\ x <> 62 /\ x <> 34 /\ x <> 39 /\ x <> 59).
  { intros e H x Hx. rewrite forallb_forall in H. apply H in Hx. apply andb_true_iff in Hx as (A & B). rewrite negb_true_iff in A, B. split; [exact A|]. rewrite mem_false in B. cbn [In] in B. lia. }
  destruct (c =? 60) eqn:E1; [right; exists (lit "lt"); replace c with 60 by lia; refine (conj eq_refl (conj eq_refl (G (lit "lt") eq_refl)))|].
  destruct (c =? 62) eqn:E2; [right; exists (lit "gt"); replace c with 62 by lia; refine (conj eq_refl (conj eq_refl (G (lit "gt") eq_refl)))|].
  destruct (c =? 38) eqn:E3; [right; exists (lit "amp"); replace c with 38 by lia; refine (conj eq_refl (conj eq_refl (G (lit "amp") eq_refl)))|].
  destruct (c =? 34) eqn:E4; [right; exists (lit "quot"); replace c with 34 by lia; refine (conj eq_refl (conj eq_refl (G (lit "quot") eq_refl)))|].
  destruct (c =? 39) eqn:E5; [right; exists (lit "apos"); replace c with 39 by lia; refine (conj eq_refl (conj eq_refl (G (lit "apos") eq_refl)))|].
  destruct (is_control c && negb (c =? 9) && negb (c =? 10) && negb (c =? 13)) eqn:E6; [|left; repeat split; lia].
  right. exists (lit "#x" ++ hex_text c). split; [reflexivity|].
  assert (L : c < 160) by (unfold is_control, in_range in E6; lia).
  assert (X : forallb (fun k => let c := N.of_nat k in match entity (lit "#x" ++ hex_text c) with Some y => y =? c | None => false end && forallb (fun x => negb (is_ws x) && negb (mem x [61; 60; 62; 34; 39; 59])) (lit "#x" ++ hex_text c)) (seq 0 160) = true) by (vm_compute; reflexivity).
  rewrite forallb_forall in X. specialize (X (N.to_nat c)). cbv zeta in X. rewrite N2Nat.id in X. assert (Y : In (N.to_nat c) (seq 0 160)) by (apply in_seq; lia). apply X in Y. apply andb_true_iff in Y as (Y1 & Y2).
  split; [|exact (G _ Y2)]. destruct (entity (lit "#x" ++ hex_text c)); [f_equal; lia|discriminate].
Qed.
Lemma esc_none : forall s, ~ In 60 (escape s) /\ ~ In 62 (escape s) /\ ~ In 34 (escape s).
Proof.
  assert (G : forall s x, In x (escape s) -> x <> 60 /\ x <> 62 /\ x <> 34).
  { intros s x H. unfold escape in H. apply in_flat_map in H as (c & _ & H). destruct (esc_shape c) as [(E & K)|(e & E & _ & K)]; rewrite E in H.
    - destruct H as [<-|[]]. lia.
    - destruct H as [<-|H]; [lia|]. apply in_app_iff in H as [H|[<-|[]]]; [|lia]. apply K in H. lia. }
  intros s. refine (conj _ (conj _ _)); intros H; apply G in H; lia.
Qed.
Lemma unesc_fuel : forall s f, (List.length (escape s) <= f)%nat -> unescape_fuel f (escape s) = Some s.
Proof.
  induction s as [|c s IH]; intros f H; [destruct f; reflexivity|]. rewrite esc_cons in *. rewrite app_length in H. destruct (esc_shape c) as [(E & K)|(e & E & D & K)]; rewrite E in *.
  - cbn [List.length] in H. destruct f as [|f]; [lia|]. cbn [app unescape_fuel]. replace (c =? 38) with false by lia. rewrite IH by lia. reflexivity.
  - cbn [List.length] in H. destruct f as [|f]; [lia|]. cbn [app unescape_fuel]. change (38 =? 38) with true. cbv iota. rewrite <- app_assoc. cbn [app]. rewrite split_once_app.
    + rewrite D, IH; [reflexivity|]. rewrite app_length in H. lia.
    + apply mem_false. intros X. apply K in X. lia.
Qed.
Lemma unescape_escape : forall s, unescape (escape s) = Some s.
Proof. intros s. apply unesc_fuel. lia. Qed.
Lemma esc_same : forall s, (forall c, In c s -> ~ control c) -> escape s = Pidf.escape s.
Proof.
  induction s as [|c s IH]; intros H; [reflexivity|]. rewrite esc_cons. change (Pidf.escape (c :: s)) with (Pidf.escape_c c ++ Pidf.escape s). rewrite IH by (intros x Hx; apply H; now right). f_equal.
  unfold escape_c, Pidf.escape_c. assert (K : is_control c = false) by (specialize (H c (or_introl eq_refl)); unfold control in H; unfold is_control, in_range; lia). now rewrite K.
Qed.
Lemma uri_back : forall u, (forall c, In c u -> ~ control c) -> unescape (trim (escape u)) = Some (trim u).
Proof.
  intros u H. rewrite esc_same by exact H. rewrite trim_esc. rewrite <- esc_same; [apply unescape_escape|]. intros c Hc. apply H. destruct (trim_by_sub is_ws u) as (a & b & E & _). fold (trim u) in E. rewrite E. rewrite !in_app_iff. tauto.
Qed.

(** ** Attributes *)
(** [v] begins with what looks like the attribute [n] *)
Definition shows (n v : str) : Prop := exists b c, v = n ++ b ++ 61 :: c /\ forall x, In x b -> is_ws x = true.
Lemma esc_lead : forall n u t, ~ In 38 n -> escape u = n ++ t -> exists u', u = n ++ u' /\ t = escape u'.
Proof.
  induction n as [|c n IH]; intros u t H E; [exists u; split; [reflexivity|symmetry; exact E]|]. destruct u as [|x u]; [discriminate|]. rewrite esc_cons in E. destruct (esc_shape x) as [(S1 & _)|(e & S1 & _)]; rewrite S1 in E.
  - cbn [app] in E. assert (x = c) by congruence. subst x. assert (E' : escape u = n ++ t) by congruence. apply IH in E' as (u' & -> & ->); [now exists u'|]. intros X. apply H. now right.
  - cbn [app] in E. assert (c = 38) by congruence. subst c. elim H. now left.
Qed.
Lemma app_first : forall A (p q : A -> Prop) e (w : A) a r t, (forall x, In x e -> ~ p x) -> p w -> e ++ r = a ++ w :: t -> exists a', a = e ++ a' /\ r = a' ++ w :: t.
Proof.
  intros A p q e w. induction e as [|x e IH]; intros a r t H W E; [now exists a|]. destruct a as [|y a]; cbn [app] in E.
  - assert (x = w) by congruence. subst x. elim (H w); [now left|exact W].
  - assert (x = y) by congruence. subst y. assert (E' : e ++ r = a ++ w :: t) by congruence. apply IH in E' as (a' & -> & ->); [now exists a'| |exact W]. intros z Hz. apply H. now right.
Qed.
Lemma esc_mid : forall v a w t, is_ws w = true -> escape v = a ++ w :: t -> exists a' v', v = a' ++ w :: v' /\ t = escape v'.
Proof.
  induction v as [|c v IH]; intros a w t W E; [destruct a; discriminate|]. rewrite esc_cons in E. destruct (esc_shape c) as [(S1 & _)|(e & S1 & _ & K)]; rewrite S1 in E.
  - cbn [app] in E. destruct a as [|y a]; cbn [app] in E.
    + assert (c = w) by congruence. subst c. exists [], v. split; [reflexivity|congruence].
    + assert (E' : escape v = a ++ w :: t) by congruence. apply IH in E' as (a' & v' & -> & ->); [|exact W]. now exists (c :: a'), v'.
  - apply (app_first _ (fun x => is_ws x = true) (fun _ => True)) in E as (a' & -> & E); [| |exact W].
    + apply IH in E as (a'' & v' & -> & ->); [|exact W]. now exists (c :: a''), v'.
    + intros x [<-|Hx]; [discriminate|]. apply in_app_iff in Hx as [Hx|[<-|[]]]; [|discriminate]. apply K in Hx as (X & _). congruence.
Qed.
Lemma decoy_esc : forall n v, ~ In 38 n -> decoy n (escape v) -> decoy n v.
Proof.
  intros n v H (a & w & b & c & E & W & B). apply esc_mid in E as (a' & v' & -> & E); [|exact W]. symmetry in E. apply esc_lead in E as (u & -> & E); [|exact H]. symmetry in E.
  apply esc_lead in E as (u' & -> & E); [|intros X; apply B in X; discriminate]. symmetry in E. apply (esc_lead [61]) in E as (u'' & -> & _); [|intros [X|[]]; discriminate]. exists a', w, b, u''. auto.
Qed.
Lemma decoy_none : forall n v, (forall c, In c v -> is_ws c = false) -> ~ decoy n v.
Proof. intros n v H (a & w & b & c & -> & W & _). assert (X : In w (a ++ w :: n ++ b ++ 61 :: c)) by (apply in_elt). apply H in X. congruence. Qed.
Lemma strip_inside : forall n v r t, ~ In 34 n -> strip_prefix n (v ++ 34 :: r) = Some t -> exists t', v = n ++ t' /\ t = t' ++ 34 :: r.
Proof.
  induction n as [|c n IH]; intros v r t H E; [cbn [strip_prefix] in E; exists v; split; [reflexivity|congruence]|]. destruct v as [|x v]; cbn [app strip_prefix] in E.
  - destruct (c =? 34) eqn:Q; [|discriminate]. elim H. left. lia.
  - destruct (c =? x) eqn:Q; [|discriminate]. assert (c = x) by lia. subst x. apply IH in E as (t' & -> & ->); [now exists t'|]. intros X. apply H. now right.
Qed.
Lemma drop_none : forall t r, (forall b c, t = b ++ 61 :: c -> ~ forall x, In x b -> is_ws x = true) -> exists x u, drop_while is_ws (t ++ 34 :: r) = x :: u /\ x <> 61.
Proof.
  induction t as [|y t IH]; intros r H; [exists 34, r; split; [reflexivity|lia]|]. cbn [app drop_while]. destruct (is_ws y) eqn:Y.
  - apply IH. intros b c -> K. apply (H (y :: b) c eq_refl). intros x [<-|Hx]; auto.
  - exists y, (t ++ 34 :: r). split; [reflexivity|]. intros ->. apply (H [] t eq_refl). intros x [].
Qed.
Lemma pass : forall n v prev r, n <> [] -> ~ In 34 n -> ~ In 60 v -> ~ decoy n v -> ~ (before_ok prev = true /\ shows n v) -> scan n prev (v ++ 34 :: r) = scan n (Some 34) r.
Proof.
  intros n v. induction v as [|c v IH]; intros prev r N0 N1 L D F.
  - cbn [app scan]. destruct (strip_prefix n (34 :: r)) as [t|] eqn:S1; [|reflexivity]. apply (strip_inside n [] r t N1) in S1 as (t' & E & _). destruct n; [contradiction|discriminate].
  - assert (K : scan n (Some c) (v ++ 34 :: r) = scan n (Some 34) r).
    { apply IH; try assumption.
      - intros X. apply L. now right.
      - intros (a & w & b & x & -> & W & B). apply D. exists (c :: a), w, b, x. auto.
      - intros (Q & b & x & -> & B). apply D. exists [], c, b, x. split; [reflexivity|]. split; [|exact B]. cbn [before_ok] in Q. apply orb_true_iff in Q as [Q|Q]; [exact Q|]. elim L. left. lia. }
    rewrite <- K at 1. cbn [app scan]. change (c :: v ++ 34 :: r) with ((c :: v) ++ 34 :: r). destruct (strip_prefix n ((c :: v) ++ 34 :: r)) as [t|] eqn:S1; [|reflexivity].
    destruct (before_ok prev) eqn:B; cbn [andb]; [|reflexivity]. destruct (after_ok t); [|reflexivity].
    apply strip_inside in S1 as (t' & E & ->); [|exact N1]. destruct (drop_none t' r) as (x & u & Dw & X).
    { intros b y -> Q. apply F. split; [reflexivity|]. rewrite E. now exists b, y. }
    rewrite Dw. replace (x =? 61) with false by lia. reflexivity.
Qed.
Lemma pass_value : forall n v r, n <> [] -> ~ In 34 n -> ~ In 38 n -> ~ decoy n v -> scan n (Some 34) (escape v ++ 34 :: r) = scan n (Some 34) r.
Proof. intros n v r A B C D. apply pass; try assumption; [apply esc_none|intros X; apply D; now apply decoy_esc|intros (X & _); discriminate]. Qed.
Lemma pass_word : forall n v r, n <> [] -> ~ In 34 n -> ~ In 60 v -> (forall c, In c v -> is_ws c = false) -> scan n (Some 34) (v ++ 34 :: r) = scan n (Some 34) r.
Proof. intros n v r A B C D. apply pass; try assumption; [now apply decoy_none|intros (X & _); discriminate]. Qed.
Lemma quoted_esc : forall v r, quoted (34 :: escape v ++ 34 :: r) = Some (Some v).
Proof. intros v r. unfold quoted. change ((34 =? 34) || (34 =? 39)) with true. cbv iota. rewrite split_once_app by (apply mem_false; apply esc_none). now rewrite unescape_escape. Qed.
Lemma unesc_plain : forall v f, ~ In 38 v -> (List.length v <= f)%nat -> unescape_fuel f v = Some v.
Proof.
  induction v as [|c v IH]; intros f H L; [destruct f; reflexivity|]. destruct f as [|f]; [cbn in L; lia|]. cbn [unescape_fuel]. destruct (c =? 38) eqn:E; [elim H; left; lia|]. rewrite IH; [reflexivity| |cbn in L; lia]. intros X. apply H. now right.
Qed.
Lemma quoted_word : forall v r, ~ In 34 v -> ~ In 38 v -> quoted (34 :: v ++ 34 :: r) = Some (Some v).
Proof. intros v r A B. unfold quoted. change ((34 =? 34) || (34 =? 39)) with true. cbv iota. rewrite split_once_app by (now apply mem_false). unfold unescape. rewrite unesc_plain by (assumption || lia). reflexivity. Qed.
Lemma tag_read : forall p a t s n, clear p a -> ~ In 62 p -> ~ In 62 t -> attribute (a ++ (60 :: p) ++ t ++ 62 :: s) (60 :: p) n = scan n None ((60 :: p) ++ t).
Proof.
  intros p a t s n C P T. unfold attribute. rewrite find_hit by exact C. rewrite app_assoc. rewrite split_once_app; [reflexivity|]. apply mem_false. cbn [app In]. rewrite in_app_iff. intros [X|[X|X]]; [lia|now apply P|now apply T].
Qed.

(** ** One watcher *)
Definition wattrs (w : watcher) : str :=
  attr (lit "id") (escape (w_id w)) ++ attr (lit "status") (status_text (w_status w)) ++ attr (lit "event") (event_text (w_event w))
  ++ opt_attr (lit "display-name") (option_map escape (w_name w)) ++ opt_attr (lit "expiration") (option_map print_N (w_expires w))
  ++ opt_attr (lit "duration-subscribed") (option_map print_N (w_since w)).
Definition content (w : watcher) : str := match w_uri w with Some u => escape u | None => [] end.
Lemma watcher_split : forall w, watcher_xml w = lit "    " ++ (lit "<watcher" ++ wattrs w ++ lit ">" ++ content w ++ lit "</watcher>") ++ NL.
Proof. intros w. unfold watcher_xml, wattrs, content. rewrite <- !app_assoc. reflexivity. Qed.
Lemma digits_word : forall n, ~ In 60 (print_N n) /\ ~ In 62 (print_N n) /\ ~ In 34 (print_N n) /\ ~ In 38 (print_N n) /\ forall c, In c (print_N n) -> is_ws c = false.
Proof.
  intros n. refine (conj _ (conj _ (conj _ (conj _ _)))); try (intros X; apply print_N_digits in X; lia). intros c X. apply print_N_digits in X.
  assert (Y : In c [48; 49; 50; 51; 52; 53; 54; 55; 56; 57]) by (cbn [In]; lia). cbn [In] in Y. repeat (destruct Y as [<-|Y]; [reflexivity|]). destruct Y.
Qed.
Lemma status_word : forall s, ~ In 60 (status_text s) /\ ~ In 62 (status_text s) /\ ~ In 34 (status_text s) /\ ~ In 38 (status_text s) /\ forall c, In c (status_text s) -> is_ws c = false.
Proof.
  intros s. assert (X : forallb (fun x => negb (is_ws x) && negb (mem x [60; 62; 34; 38])) (status_text s) = true) by (destruct s; reflexivity). rewrite forallb_forall in X.
  assert (Y : forall c, In c (status_text s) -> is_ws c = false /\ c <> 60 /\ c <> 62 /\ c <> 34 /\ c <> 38) by (intros c Hc; apply X in Hc; apply andb_true_iff in Hc as (A & B); rewrite negb_true_iff in A, B; rewrite mem_false in B; cbn [In] in B; split; [exact A|lia]).
  refine (conj _ (conj _ (conj _ (conj _ _)))); try (intros Z; apply Y in Z; lia). intros c Hc. now apply Y.
Qed.
Lemma event_word : forall s, ~ In 60 (event_text s) /\ ~ In 62 (event_text s) /\ ~ In 34 (event_text s) /\ ~ In 38 (event_text s) /\ forall c, In c (event_text s) -> is_ws c = false.
Proof.
  intros s. assert (X : forallb (fun x => negb (is_ws x) && negb (mem x [60; 62; 34; 38])) (event_text s) = true) by (destruct s; reflexivity). rewrite forallb_forall in X.
  assert (Y : forall c, In c (event_text s) -> is_ws c = false /\ c <> 60 /\ c <> 62 /\ c <> 34 /\ c <> 38) by (intros c Hc; apply X in Hc; apply andb_true_iff in Hc as (A & B); rewrite negb_true_iff in A, B; rewrite mem_false in B; cbn [In] in B; split; [exact A|lia]).
  refine (conj _ (conj _ (conj _ (conj _ _)))); try (intros Z; apply Y in Z; lia). intros c Hc. now apply Y.
Qed.
Lemma status_back : forall s, status_of (status_text s) = Some s.
Proof. now destruct s. Qed.
Lemma event_back : forall s, event_of (event_text s) = Some s.
Proof. now destruct s. Qed.
Lemma attr_app : forall n v r, attr n v ++ r = (32 :: n ++ lit "=""") ++ v ++ 34 :: r.
Proof. intros n v r. unfold attr. cbn [app]. rewrite <- !app_assoc. reflexivity. Qed.
Lemma attr_in : forall x n v, In x (attr n v) -> In x (32 :: n ++ lit "=""") \/ In x v.
Proof. intros x n v H. rewrite <- (app_nil_r (attr n v)), attr_app in H. rewrite in_app_iff in H. destruct H as [H|H]; [now left|]. rewrite in_app_iff in H. destruct H as [H|[<-|[]]]; [now right|]. left. apply in_app_iff with (l := 32 :: n). right. right. now left. Qed.
Lemma no_by : forall x l, mem x l = false -> ~ In x l.
Proof. intros x l H. now apply mem_false. Qed.
Lemma wattrs_no : forall w x, x = 60 \/ x = 62 -> ~ In x (wattrs w).
Proof.
  intros w x Hx H. unfold wattrs in H. rewrite !in_app_iff in H.
  destruct H as [H|[H|[H|[H|[H|H]]]]].
  - apply attr_in in H as [H|H]; [apply (no_by x) in H; [exact H|]; destruct Hx as [->| ->]; reflexivity|]. destruct Hx as [->| ->]; revert H; apply esc_none.
  - apply attr_in in H as [H|H]; [apply (no_by x) in H; [exact H|]; destruct Hx as [->| ->]; reflexivity|]. destruct Hx as [->| ->]; revert H; apply status_word.
  - apply attr_in in H as [H|H]; [apply (no_by x) in H; [exact H|]; destruct Hx as [->| ->]; reflexivity|]. destruct Hx as [->| ->]; revert H; apply event_word.
  - destruct (w_name w); cbn [option_map opt_attr] in H; [|destruct H]. apply attr_in in H as [H|H]; [apply (no_by x) in H; [exact H|]; destruct Hx as [->| ->]; reflexivity|]. destruct Hx as [->| ->]; revert H; apply esc_none.
  - destruct (w_expires w); cbn [option_map opt_attr] in H; [|destruct H]. apply attr_in in H as [H|H]; [apply (no_by x) in H; [exact H|]; destruct Hx as [->| ->]; reflexivity|]. destruct Hx as [->| ->]; revert H; apply digits_word.
  - destruct (w_since w); cbn [option_map opt_attr] in H; [|destruct H]. apply attr_in in H as [H|H]; [apply (no_by x) in H; [exact H|]; destruct Hx as [->| ->]; reflexivity|]. destruct Hx as [->| ->]; revert H; apply digits_word.
Qed.
Lemma attr_watcher : forall w s n, attribute (lit "<watcher" ++ wattrs w ++ lit ">" ++ s) (lit "<watcher") n = scan n None (lit "<watcher" ++ wattrs w).
Proof. intros w s n. apply (tag_read (lit "watcher") [] (wattrs w) s n); [apply clear_nil|now apply no_by|apply wattrs_no; now right]. Qed.
Ltac hop :=
  match goal with |- context [scan ?n ?p (?a ++ ?X)] =>
    first [ let HH := fresh in assert (HH : forall Y, scan n p (a ++ Y) = scan n (Some 34) Y) by (intros; reflexivity); rewrite HH; clear HH
          | let HH := fresh in assert (HH : forall Y, scan n p (a ++ Y) = quoted (34 :: Y)) by (intros; reflexivity); rewrite HH; clear HH
          | rewrite pass_word by (solve [discriminate | now apply no_by | apply status_word | apply event_word | apply digits_word])
          | rewrite pass_value by (solve [discriminate | now apply no_by | assumption | auto]) ]
  end.
Ltac got := first [reflexivity | rewrite quoted_esc; reflexivity | rewrite quoted_word by (first [apply status_word | apply event_word | apply digits_word]); reflexivity].
Ltac start n p a := let HH := fresh in assert (HH : forall Y, scan n None (a ++ Y) = scan n (Some p) Y) by (intros; reflexivity); rewrite HH; clear HH.
Lemma scan_watcher : forall w, honest_watcher w ->
  scan (lit "id") None (lit "<watcher" ++ wattrs w) = Some (Some (w_id w)) /\ scan (lit "status") None (lit "<watcher" ++ wattrs w) = Some (Some (status_text (w_status w)))
  /\ scan (lit "event") None (lit "<watcher" ++ wattrs w) = Some (Some (event_text (w_event w))) /\ scan (lit "display-name") None (lit "<watcher" ++ wattrs w) = Some (w_name w)
  /\ scan (lit "expiration") None (lit "<watcher" ++ wattrs w) = Some (option_map print_N (w_expires w)) /\ scan (lit "duration-subscribed") None (lit "<watcher" ++ wattrs w) = Some (option_map print_N (w_since w)).
Proof.
  intros w (A & B & _). rewrite <- (app_nil_r (wattrs w)). unfold wattrs. destruct w as [i st ev u nm ex si]. cbn [w_id w_status w_event w_name w_expires w_since] in *.
  assert (A1 := A (lit "status") ltac:(cbn [In]; tauto)). assert (A2 := A (lit "event") ltac:(cbn [In]; tauto)). assert (A3 := A (lit "display-name") ltac:(cbn [In]; tauto)). assert (A4 := A (lit "expiration") ltac:(cbn [In]; tauto)). assert (A5 := A (lit "duration-subscribed") ltac:(cbn [In]; tauto)). clear A.
  assert (B1 : forall v, nm = Some v -> ~ decoy (lit "expiration") v) by (intros v E; apply (B v); [exact E|cbn [In]; tauto]). assert (B2 : forall v, nm = Some v -> ~ decoy (lit "duration-subscribed") v) by (intros v E; apply (B v); [exact E|cbn [In]; tauto]). clear B.
  refine (conj _ (conj _ (conj _ (conj _ (conj _ _))))).
  - rewrite <- !app_assoc, attr_app. start (lit "id") 114 (lit "<watcher"). hop. got.
  - rewrite <- !app_assoc, !attr_app. start (lit "status") 114 (lit "<watcher"). repeat hop. got.
  - rewrite <- !app_assoc, !attr_app. start (lit "event") 114 (lit "<watcher"). repeat hop. got.
  - destruct nm as [v|], ex as [e|], si as [d|]; cbn [opt_attr option_map]; rewrite <- !app_assoc, ?app_nil_l, !attr_app; start (lit "display-name") 114 (lit "<watcher"); repeat hop; got.
  - destruct nm as [v|], ex as [e|], si as [d|]; cbn [opt_attr option_map]; rewrite <- !app_assoc, ?app_nil_l, !attr_app; start (lit "expiration") 114 (lit "<watcher"); repeat hop; got.
  - destruct nm as [v|], ex as [e|], si as [d|]; cbn [opt_attr option_map]; rewrite <- !app_assoc, ?app_nil_l, !attr_app; start (lit "duration-subscribed") 114 (lit "<watcher"); repeat hop; got.
Qed.

(** ** Limits *)
Lemma control_c : forall c, is_control c = true <-> control c.
Proof. intros c. unfold is_control, control, in_range. lia. Qed.
Lemma line_iff : forall n s, (blen s <=? n) && negb (existsb is_control s) = true <-> line n s.
Proof.
  intros n s. unfold line. rewrite andb_true_iff, negb_true_iff, <- not_true_iff_false, existsb_exists. split; intros (A & B); (split; [lia|]).
  - intros c Hc K. apply B. exists c. split; [exact Hc|now apply control_c].
  - intros (c & Hc & K). apply (B c Hc). now apply control_c.
Qed.
Lemma blank_iff : forall s, negb (str_eqb s []) = true <-> s <> [].
Proof. intros s. rewrite negb_true_iff. split; [apply str_eqb_neq|]. intros H. destruct (str_eqb s []) eqn:E; [apply str_eqb_spec in E; contradiction|reflexivity]. Qed.
Lemma id_iff : forall s, id_ok s = true <-> s <> [] /\ line 128 s.
Proof. intros s. unfold id_ok. now rewrite <- andb_assoc, andb_true_iff, blank_iff, line_iff. Qed.
Lemma uri_iff : forall s, uri_ok s = true <-> address s.
Proof.
  intros s. unfold uri_ok, address. rewrite andb_true_iff, <- andb_assoc, andb_true_iff, blank_iff, line_iff. rewrite <- and_assoc. apply and_iff_compat_l. destruct (parse_any s); cbn [is_some]; split; congruence.
Qed.
Lemma name_iff : forall s, name_ok s = true <-> blen s <= 256 /\ forall c, In c s -> control c -> c = 9.
Proof.
  intros s. unfold name_ok. rewrite andb_true_iff, negb_true_iff, <- not_true_iff_false, existsb_exists. split; intros (A & B); (split; [lia|]).
  - intros c Hc K. apply control_c in K. destruct (N.eq_dec c 9) as [E|E]; [exact E|]. elim B. exists c. split; [exact Hc|]. rewrite K. cbn [andb]. lia.
  - intros (c & Hc & K). apply andb_true_iff in K as (K1 & K2). apply control_c in K1. apply B in K1; [|exact Hc]. lia.
Qed.
Lemma letter_iff : forall c, token_c c = true <-> letter c.
Proof. intros c. unfold token_c, letter. rewrite orb_true_iff, mem_In. unfold is_alnum, is_alpha, is_digit, is_lower, is_upper, in_range. intuition lia. Qed.
Lemma letter_plain : forall c, letter c -> ~ control c.
Proof. intros c [H|[H|[H|H]]] K; unfold control in K; [lia|lia|lia|]. cbn [lit In] in H. cbn in H. lia. Qed.
Lemma package_iff : forall s, package_ok s = true <-> s <> [] /\ blen s <= 64 /\ forall c, In c s -> letter c.
Proof.
  intros s. unfold package_ok. rewrite andb_true_iff, <- andb_assoc, andb_true_iff, blank_iff, line_iff, forallb_forall. unfold line. split.
  - intros ((A & B & C) & D). refine (conj A (conj B _)). intros c Hc. apply letter_iff. now apply D.
  - intros (A & B & C). refine (conj (conj A (conj B _)) _); intros c Hc; [apply letter_plain|apply letter_iff]; now apply C.
Qed.
Lemma state_iff : forall s, state_ok s = true <-> lower s = lit "full" \/ lower s = lit "partial".
Proof.
  intros s. unfold state_ok. rewrite andb_true_iff, orb_true_iff, !eq_ic_spec. change (lower (lit "full")) with (lit "full"). change (lower (lit "partial")) with (lit "partial"). split; [tauto|]. intros H. split; [|exact H].
  assert (L : s <> [] /\ blen s <= 16).
  { split; [intros ->; cbn in H; destruct H; discriminate|]. rewrite <- (UriProofs.blen_lower s). destruct H as [-> | ->]; vm_compute; discriminate. }
  rewrite andb_true_iff, blank_iff. split; [apply L|]. destruct L. lia.
Qed.
Lemma watcher_good : forall w, watcher_built w -> good_watcher w.
Proof.
  induction 1 as [i s e w H|w u w' _ IH H|w n w' _ IH H|w n _ IH H|w n _ IH H].
  - unfold watcher_new in H. destruct (id_ok i) eqn:E; [|discriminate]. assert (X : mkWatcher i s e None None None None = w) by congruence. subst w. apply id_iff in E. unfold good_watcher. cbn [w_id w_uri w_name w_expires w_since]. refine (conj E (conj _ (conj _ (conj _ _)))); intros; discriminate.
  - unfold with_uri in H. destruct (uri_ok u) eqn:E; [|discriminate]. apply uri_iff in E. injection H as <-. destruct IH as (A & B & C & D & F). unfold good_watcher. cbn [w_id w_uri w_name w_expires w_since]. refine (conj A (conj _ (conj C (conj D F)))). intros v X. assert (v = u) by congruence. now subst v.
  - unfold with_name in H. destruct (name_ok n) eqn:E; [|discriminate]. apply name_iff in E. injection H as <-. destruct IH as (A & B & C & D & F). unfold good_watcher. cbn [w_id w_uri w_name w_expires w_since]. refine (conj A (conj B (conj _ (conj D F)))). intros v X. assert (v = n) by congruence. now subst v.
  - destruct IH as (A & B & C & D & F). unfold good_watcher, with_expires. cbn [w_id w_uri w_name w_expires w_since]. refine (conj A (conj B (conj C (conj _ F)))). intros v X. assert (v = n) by congruence. now subst v.
  - destruct IH as (A & B & C & D & F). unfold good_watcher, with_since. cbn [w_id w_uri w_name w_expires w_since]. refine (conj A (conj B (conj C (conj D _)))). intros v X. assert (v = n) by congruence. now subst v.
Qed.
Lemma list_started : forall r p l, list_new r p = Some l -> good_list l.
Proof.
  intros r p l H. unfold list_new in H. destruct (uri_ok r) eqn:E; [|discriminate]. destruct (package_ok p) eqn:F; [|discriminate]. cbn [andb] in H. apply uri_iff in E. apply package_iff in F. injection H as <-. refine (conj E (conj F (conj _ _))); cbn [l_watchers List.length]; [lia|intros w []].
Qed.
Lemma list_more : forall l w l', good_list l -> good_watcher w -> add_watcher l w = Some l' -> good_list l'.
Proof.
  intros l w l' (A & B & C & D) G H. unfold add_watcher in H. destruct (1000 <=? llen (l_watchers l)) eqn:E; [discriminate|]. injection H as <-. unfold llen in E. refine (conj A (conj B (conj _ _))); cbn [l_watchers].
  - rewrite app_length. cbn [List.length]. lia.
  - intros x Hx. apply in_app_iff in Hx as [Hx|[<-|[]]]; auto.
Qed.
Lemma list_good : forall l, list_built l -> good_list l.
Proof. induction 1 as [r p l H|l w l' _ IH W H]; [now apply list_started in H|]. now apply (list_more l w); [|apply watcher_good|]. Qed.
Lemma info_started : forall v s d, v <= u32_max -> info_new v s = Some d -> within d.
Proof.
  intros v s d V H. unfold info_new in H. destruct (state_ok s) eqn:E; [|discriminate]. apply state_iff in E. assert (X : mkInfo v (lower s) [] = d) by congruence. subst d. refine (conj V (conj E (conj _ _))); cbn [i_lists List.length]; [lia|intros w []].
Qed.
Lemma info_more : forall d l d', within d -> good_list l -> add_list d l = Some d' -> within d'.
Proof.
  intros d l d' (A & B & C & D) G H. unfold add_list in H. destruct (100 <=? llen (i_lists d)) eqn:E; [discriminate|]. injection H as <-. unfold llen in E. refine (conj A (conj B (conj _ _))); cbn [i_lists].
  - rewrite app_length. cbn [List.length]. lia.
  - intros x Hx. apply in_app_iff in Hx as [Hx|[<-|[]]]; auto.
Qed.
Lemma built_within : forall d, built d -> within d.
Proof. induction 1 as [v s d V H|d l d' _ IH L H]; [now apply info_started in H|]. now apply (info_more d l); [|apply list_good|]. Qed.

(** ** Reading back *)
Lemma watcher_read : forall w, good_watcher w -> honest_watcher w -> read_watcher (lit "<watcher" ++ wattrs w ++ lit ">" ++ content w ++ lit "</watcher>") = Some w.
Proof.
  intros w (A & B & C & D & E) H. destruct (scan_watcher w H) as (S1 & S2 & S3 & S4 & S5 & S6). destruct H as (_ & _ & H). unfold read_watcher. rewrite !attr_watcher, S1, S2, S3, S4, S5, S6. cbn [need]. rewrite status_back, event_back.
  unfold watcher_new. replace (id_ok (w_id w)) with true by (symmetry; now apply id_iff).
  assert (X : split_once 62 (lit "<watcher" ++ wattrs w ++ lit ">" ++ content w ++ lit "</watcher>") = Some (lit "<watcher" ++ wattrs w, content w ++ lit "</watcher>")).
  { rewrite app_assoc. apply (split_once_app 62 (lit "<watcher" ++ wattrs w)). apply mem_false. rewrite in_app_iff. intros [X|X]; [now apply (no_by 62 (lit "<watcher") eq_refl)|apply (wattrs_no w 62) in X; [exact X|now right]]. }
  rewrite X.
  assert (Y : find_sub (lit "</watcher>") (content w ++ lit "</watcher>") = Some (content w, [])).
  { rewrite <- (app_nil_r (lit "</watcher>")) at 2. apply (find_hit (lit "/watcher>")). apply clear_no. unfold content. destruct (w_uri w); [apply esc_none|intros []]. }
  rewrite Y. unfold content. destruct w as [i st ev u nm ex si]. cbn [w_id w_status w_event w_uri w_name w_expires w_since] in *.
  assert (U : forall w3, match unescape (trim match u with Some u => escape u | None => [] end) with Some u => if str_eqb u [] then Some w3 else with_uri w3 u | None => None end = match u with Some u => Some (mkWatcher (w_id w3) (w_status w3) (w_event w3) (Some u) (w_name w3) (w_expires w3) (w_since w3)) | None => Some w3 end).
  { intros w3. destruct u as [u|]; [|reflexivity]. pose proof (B u eq_refl) as Bu. rewrite uri_back by (apply Bu). rewrite (H u eq_refl). destruct (str_eqb u []) eqn:Q; [apply str_eqb_spec in Q; now apply Bu in Q|]. unfold with_uri. now replace (uri_ok u) with true by (symmetry; now apply uri_iff). }
  assert (N1 : number (option_map print_N ex) = ex) by (destruct ex as [n|]; [apply parse_uint_print; now apply D|reflexivity]). assert (N2 : number (option_map print_N si) = si) by (destruct si as [n|]; [apply parse_uint_print; now apply E|reflexivity]).
  rewrite N1, N2. destruct nm as [v|].
  - unfold with_name. replace (name_ok v) with true by (symmetry; apply name_iff; now apply C). cbv zeta. rewrite U. destruct u, ex, si; reflexivity.
  - cbv zeta. rewrite U. destruct u, ex, si; reflexivity.
Qed.
Definition wtext (w : watcher) : str := (lit "<watcher" ++ wattrs w ++ lit ">" ++ content w).
Lemma wattrs_start : forall w, wattrs w = 32 :: tl (wattrs w).
Proof. reflexivity. Qed.
Lemma wtext_start : forall w s, wtext w ++ s = lit "<watcher " ++ (tl (wattrs w) ++ lit ">" ++ content w) ++ s.
Proof. intros w s. unfold wtext. rewrite <- !app_assoc. reflexivity. Qed.
Lemma wtext_close : forall w, clear (lit "/watcher>") (wtext w) /\ clear (lit "/watcher-list>") (wtext w) /\ clear (lit "watcher-list") (wtext w).
Proof.
  intros w. assert (G : forall p, clear p (wattrs w) /\ clear p (lit ">") /\ clear p (content w)).
  { intros p. refine (conj _ (conj _ _)); apply clear_no; [apply wattrs_no; now left|now apply no_by|unfold content; destruct (w_uri w); [apply esc_none|intros []]]. }
  assert (K : forall p, clear p (lit "<watcher" ++ [32]) -> clear p (wtext w)).
  { intros p Hp s. assert (Q : clear p ((lit "<watcher" ++ [32]) ++ tl (wattrs w) ++ lit ">" ++ content w)).
    { apply clear_app; [exact Hp|]. apply clear_app; [|apply clear_app; apply G]. apply clear_no. intros X. apply (wattrs_no w 60); [now left|]. rewrite wattrs_start. now right. }
    exact (Q s). }
  refine (conj _ (conj _ _)); apply K; apply clearb_clear; reflexivity.
Qed.
Lemma watchers_read : forall ws a b l f, clear (lit "watcher ") a -> clear (lit "watcher ") b -> (List.length (l_watchers l) + List.length ws <= 1000)%nat -> (forall w, In w ws -> good_watcher w /\ honest_watcher w) -> (List.length ws < f)%nat ->
  read_watchers f (a ++ flat_map watcher_xml ws ++ b) l = Some (mkList (l_resource l) (l_package l) (l_watchers l ++ ws)).
Proof.
  induction ws as [|w ws IH]; intros a b l f A B L G F; (destruct f as [|f]; [cbn in F; lia|]); cbn [flat_map].
  - cbn [app]. cbn [read_watchers]. change (lit "<watcher ") with (60 :: lit "watcher "). rewrite clear_end by (now apply clear_app). rewrite app_nil_r. now destruct l.
  - rewrite watcher_split. cbn [read_watchers].
    assert (E : a ++ ((lit "    " ++ (lit "<watcher" ++ wattrs w ++ lit ">" ++ content w ++ lit "</watcher>") ++ NL) ++ flat_map watcher_xml ws) ++ b
      = (a ++ lit "    ") ++ (60 :: lit "watcher ") ++ (tl (wattrs w) ++ lit ">" ++ content w) ++ lit "</watcher>" ++ NL ++ flat_map watcher_xml ws ++ b).
    { rewrite <- !app_assoc. reflexivity. }
    rewrite E. change (lit "<watcher ") with (60 :: lit "watcher "). rewrite find_hit by (apply clear_app; [exact A|now apply clearb_clear]).
    assert (E2 : (60 :: lit "watcher ") ++ (tl (wattrs w) ++ lit ">" ++ content w) ++ lit "</watcher>" ++ NL ++ flat_map watcher_xml ws ++ b = wtext w ++ (60 :: lit "/watcher>") ++ NL ++ flat_map watcher_xml ws ++ b).
    { rewrite wtext_start. reflexivity. }
    rewrite E2. change (lit "</watcher>") with (60 :: lit "/watcher>"). rewrite find_hit by (apply wtext_close).
    assert (E3 : wtext w ++ 60 :: lit "/watcher>" = lit "<watcher" ++ wattrs w ++ lit ">" ++ content w ++ lit "</watcher>") by (unfold wtext; rewrite <- !app_assoc; reflexivity).
    rewrite E3. destruct (G w (or_introl eq_refl)) as (G1 & G2). rewrite (watcher_read w G1 G2).
    unfold add_watcher. cbn [List.length] in L, F. replace (1000 <=? llen (l_watchers l)) with false by (unfold llen; lia).
    rewrite (IH NL b); [cbn [l_resource l_package l_watchers]; now rewrite <- app_assoc|now apply clearb_clear|exact B| |intros x Hx; apply G; now right|lia].
    cbn [l_watchers]. rewrite app_length. cbn [List.length]. lia.
Qed.

(** ** One list *)
Definition lattrs (l : wlist) : str := attr (lit "resource") (escape (l_resource l)) ++ attr (lit "package") (escape (l_package l)).
Definition ltext (l : wlist) : str := lit "<watcher-list" ++ lattrs l ++ lit ">" ++ NL ++ flat_map watcher_xml (l_watchers l) ++ lit "  ".
Lemma list_split : forall l, list_xml l = lit "  " ++ ltext l ++ lit "</watcher-list>" ++ NL.
Proof. intros l. unfold list_xml, ltext, lattrs. rewrite <- !app_assoc. reflexivity. Qed.
Lemma lattrs_no : forall l x, x = 60 \/ x = 62 -> ~ In x (lattrs l).
Proof.
  intros l x Hx H. unfold lattrs in H. rewrite in_app_iff in H. destruct H as [H|H]; (apply attr_in in H as [H|H]; [apply (no_by x) in H; [exact H|]; destruct Hx as [->| ->]; reflexivity|]); destruct Hx as [->| ->]; revert H; apply esc_none.
Qed.
Lemma watcher_clear : forall p w, clearb p (lit "    <watcher ") = true -> clearb p (lit "</watcher>" ++ NL) = true -> clear p (watcher_xml w).
Proof.
  intros p w P Q. rewrite watcher_split. assert (E : lit "    " ++ (lit "<watcher" ++ wattrs w ++ lit ">" ++ content w ++ lit "</watcher>") ++ NL = lit "    <watcher " ++ (tl (wattrs w) ++ lit ">" ++ content w) ++ (lit "</watcher>" ++ NL)).
  { rewrite <- !app_assoc. reflexivity. }
  rewrite E. apply clear_app; [now apply clearb_clear|]. apply clear_app; [|now apply clearb_clear]. apply clear_no. rewrite !in_app_iff. intros [X|[X|X]].
  - apply (wattrs_no w 60); [now left|]. rewrite wattrs_start. now right.
  - now apply (no_by 60 (lit ">") eq_refl).
  - unfold content in X. destruct (w_uri w); [now apply esc_none in X|destruct X].
Qed.
Lemma ltext_close : forall l, clear (lit "/watcher-list>") (ltext l).
Proof.
  intros l. unfold ltext. apply clear_app; [now apply clearb_clear|]. apply clear_app; [apply clear_no; apply lattrs_no; now left|]. apply clear_app; [now apply clearb_clear|]. apply clear_app; [now apply clearb_clear|]. apply clear_app; [|now apply clearb_clear].
  apply clear_flat. intros w _. now apply watcher_clear.
Qed.
Lemma list_read : forall l, good_list l -> ~ decoy (lit "package") (l_resource l) -> (forall w, In w (l_watchers l) -> honest_watcher w) -> read_list (ltext l ++ lit "</watcher-list>") = Some l.
Proof.
  intros l (A & B & C & D) H W. unfold read_list.
  assert (E : ltext l ++ lit "</watcher-list>" = [] ++ (60 :: lit "watcher-list") ++ lattrs l ++ 62 :: (NL ++ flat_map watcher_xml (l_watchers l) ++ lit "  </watcher-list>")) by (unfold ltext; rewrite <- !app_assoc; reflexivity).
  assert (T : forall n, attribute (ltext l ++ lit "</watcher-list>") (lit "<watcher-list") n = scan n None (lit "<watcher-list" ++ lattrs l)).
  { intros n. rewrite E. apply tag_read; [apply clear_nil|now apply no_by|apply lattrs_no; now right]. }
  rewrite !T.
  assert (S1 : scan (lit "resource") None (lit "<watcher-list" ++ lattrs l) = Some (Some (l_resource l))) by (unfold lattrs; rewrite attr_app; start (lit "resource") 116 (lit "<watcher-list"); hop; got).
  assert (S2 : scan (lit "package") None (lit "<watcher-list" ++ lattrs l) = Some (Some (l_package l))) by (rewrite <- (app_nil_r (lattrs l)); unfold lattrs; rewrite <- app_assoc, !attr_app; start (lit "package") 116 (lit "<watcher-list"); repeat hop; got).
  rewrite S1, S2. cbn [need]. unfold list_new. replace (uri_ok (l_resource l)) with true by (symmetry; now apply uri_iff). replace (package_ok (l_package l)) with true by (symmetry; now apply package_iff). cbn [andb].
  assert (E2 : ltext l ++ lit "</watcher-list>" = (lit "<watcher-list" ++ lattrs l ++ lit ">" ++ NL) ++ flat_map watcher_xml (l_watchers l) ++ lit "  </watcher-list>") by (unfold ltext; rewrite <- !app_assoc; reflexivity).
  rewrite E2. rewrite watchers_read.
  - cbn [l_resource l_package l_watchers app]. now destruct l.
  - apply clear_app; [now apply clearb_clear|]. apply clear_app; [apply clear_no; apply lattrs_no; now left|now apply clearb_clear].
  - now apply clearb_clear.
  - cbn [l_watchers List.length]. lia.
  - intros w Hw. auto.
  - apply Nat.lt_succ_r. rewrite !app_length. assert (X := flat_len _ watcher_xml (l_watchers l) (fun x => ltac:(discriminate))). lia.
Qed.
Lemma lists_read : forall ls a b d f, clear (lit "watcher-list") a -> clear (lit "watcher-list") b -> (List.length (i_lists d) + List.length ls <= 100)%nat ->
  (forall l, In l ls -> good_list l /\ ~ decoy (lit "package") (l_resource l) /\ forall w, In w (l_watchers l) -> honest_watcher w) -> (List.length ls < f)%nat ->
  read_lists f (a ++ flat_map list_xml ls ++ b) d = Some (mkInfo (i_version d) (i_state d) (i_lists d ++ ls)).
Proof.
  induction ls as [|l ls IH]; intros a b d f A B L G F; (destruct f as [|f]; [cbn in F; lia|]); cbn [flat_map].
  - cbn [app]. cbn [read_lists]. change (lit "<watcher-list") with (60 :: lit "watcher-list"). rewrite clear_end by (now apply clear_app). rewrite app_nil_r. now destruct d.
  - rewrite list_split. cbn [read_lists].
    assert (E : a ++ ((lit "  " ++ ltext l ++ lit "</watcher-list>" ++ NL) ++ flat_map list_xml ls) ++ b
      = (a ++ lit "  ") ++ (60 :: lit "watcher-list") ++ (lattrs l ++ lit ">" ++ NL ++ flat_map watcher_xml (l_watchers l) ++ lit "  ") ++ lit "</watcher-list>" ++ NL ++ flat_map list_xml ls ++ b).
    { unfold ltext. rewrite <- !app_assoc. reflexivity. }
    rewrite E. change (lit "<watcher-list") with (60 :: lit "watcher-list"). rewrite find_hit by (apply clear_app; [exact A|now apply clearb_clear]).
    assert (E2 : (60 :: lit "watcher-list") ++ (lattrs l ++ lit ">" ++ NL ++ flat_map watcher_xml (l_watchers l) ++ lit "  ") ++ lit "</watcher-list>" ++ NL ++ flat_map list_xml ls ++ b = ltext l ++ (60 :: lit "/watcher-list>") ++ NL ++ flat_map list_xml ls ++ b).
    { unfold ltext. rewrite <- !app_assoc. reflexivity. }
    rewrite E2. change (lit "</watcher-list>") with (60 :: lit "/watcher-list>"). rewrite find_hit by (apply ltext_close).
    destruct (G l (or_introl eq_refl)) as (G1 & G2 & G3). change (60 :: lit "/watcher-list>") with (lit "</watcher-list>"). rewrite (list_read l G1 G2 G3).
    unfold add_list. cbn [List.length] in L, F. replace (100 <=? llen (i_lists d)) with false by (unfold llen; lia).
    rewrite (IH NL b); [cbn [i_version i_state i_lists]; now rewrite <- app_assoc|now apply clearb_clear|exact B| |intros x Hx; apply G; now right|lia].
    cbn [i_lists]. rewrite app_length. cbn [List.length]. lia.
Qed.
Definition iattrs (d : winfo) : str := attr (lit "xmlns") (lit "urn:ietf:params:xml:ns:watcherinfo") ++ attr (lit "version") (print_N (i_version d)) ++ attr (lit "state") (escape (i_state d)).
Lemma iattrs_no : forall d x, x = 60 \/ x = 62 -> ~ In x (iattrs d).
Proof.
  intros d x Hx H. unfold iattrs in H. rewrite !in_app_iff in H. destruct H as [H|[H|H]].
  - apply (no_by x) in H; [exact H|]; destruct Hx as [->| ->]; reflexivity.
  - apply attr_in in H as [H|H]; [apply (no_by x) in H; [exact H|]; destruct Hx as [->| ->]; reflexivity|]. destruct Hx as [->| ->]; revert H; apply digits_word.
  - apply attr_in in H as [H|H]; [apply (no_by x) in H; [exact H|]; destruct Hx as [->| ->]; reflexivity|]. destruct Hx as [->| ->]; revert H; apply esc_none.
Qed.
Lemma info_read : forall d, within d -> honest d -> parse_winfo (to_xml d) = Some d.
Proof.
  intros d (A & B & C & D) H. unfold parse_winfo.
  assert (T : forall n, attribute (to_xml d) (lit "<watcherinfo") n = scan n None (lit "<watcherinfo" ++ iattrs d)).
  { intros n. assert (E : to_xml d = (lit "<?xml version=""1.0"" encoding=""UTF-8""?>" ++ NL) ++ (60 :: lit "watcherinfo") ++ iattrs d ++ 62 :: (NL ++ flat_map list_xml (i_lists d) ++ lit "</watcherinfo>" ++ NL)) by (unfold to_xml, iattrs; rewrite <- !app_assoc; reflexivity).
    rewrite E. apply tag_read; [now apply clearb_clear|now apply no_by|apply iattrs_no; now right]. }
  rewrite !T.
  assert (S1 : scan (lit "version") None (lit "<watcherinfo" ++ iattrs d) = Some (Some (print_N (i_version d)))).
  { unfold iattrs. rewrite !attr_app. start (lit "version") 111 (lit "<watcherinfo"). hop. rewrite pass_word by (first [discriminate | now apply no_by | intros c Hc; assert (X : forallb (fun c => negb (is_ws c)) (lit "urn:ietf:params:xml:ns:watcherinfo") = true) by reflexivity; rewrite forallb_forall in X; apply X in Hc; now apply negb_true_iff]). hop. got. }
  assert (S2 : scan (lit "state") None (lit "<watcherinfo" ++ iattrs d) = Some (Some (i_state d))).
  { rewrite <- (app_nil_r (iattrs d)). unfold iattrs. rewrite <- !app_assoc, !attr_app. start (lit "state") 111 (lit "<watcherinfo"). hop. rewrite pass_word by (first [discriminate | now apply no_by | intros c Hc; assert (X : forallb (fun c => negb (is_ws c)) (lit "urn:ietf:params:xml:ns:watcherinfo") = true) by reflexivity; rewrite forallb_forall in X; apply X in Hc; now apply negb_true_iff]). repeat hop. got. }
  rewrite S1, S2. cbn [need]. rewrite parse_uint_print by exact A. unfold info_new.
  assert (Ls : lower (i_state d) = i_state d) by (destruct B as [-> | ->]; reflexivity).
  replace (state_ok (i_state d)) with true by (symmetry; apply state_iff; now rewrite Ls). rewrite Ls.
  assert (E : to_xml d = (lit "<?xml version=""1.0"" encoding=""UTF-8""?>" ++ NL ++ lit "<watcherinfo" ++ iattrs d ++ lit ">" ++ NL) ++ flat_map list_xml (i_lists d) ++ (lit "</watcherinfo>" ++ NL)) by (unfold to_xml, iattrs; rewrite <- !app_assoc; reflexivity).
  rewrite E, lists_read.
  - cbn [i_version i_state i_lists app]. now destruct d.
  - apply clear_app; [now apply clearb_clear|]. apply clear_app; [now apply clearb_clear|]. apply clear_app; [now apply clearb_clear|]. apply clear_app; [apply clear_no; apply iattrs_no; now left|now apply clearb_clear].
  - now apply clearb_clear.
  - cbn [i_lists List.length]. lia.
  - intros l Hl. split; [now apply D|now apply H].
  - apply Nat.lt_succ_r. rewrite !app_length. assert (X := flat_len _ list_xml (i_lists d) (fun x => ltac:(discriminate))). lia.
Qed.

(** ** What a reader accepts *)
Lemma number_le : forall o n, number o = Some n -> n <= u32_max.
Proof.
  intros [v|] n H; [|discriminate]. cbn [number] in H. unfold parse_uint in H. cbv zeta in H. repeat match type of H with (if ?b then _ else _) = _ => destruct b eqn:?; try discriminate | match ?x with _ => _ end = _ => destruct x eqn:?; try discriminate end; injection H as <-; lia.
Qed.
Lemma watcher_ok : forall xml w, read_watcher xml = Some w -> good_watcher w.
Proof.
  intros xml w H. unfold read_watcher in H.
  destruct (need (attribute xml (lit "<watcher") (lit "id"))) as [i|]; [|discriminate]. destruct (need (attribute xml (lit "<watcher") (lit "status"))) as [s|]; [|discriminate]. destruct (need (attribute xml (lit "<watcher") (lit "event"))) as [e|]; [|discriminate].
  destruct (status_of s) as [st|]; [|discriminate]. destruct (event_of e) as [ev|]; [|discriminate]. destruct (watcher_new i st ev) as [w0|] eqn:W0; [|discriminate]. assert (B0 := wb_new _ _ _ _ W0).
  destruct (attribute xml (lit "<watcher") (lit "display-name")) as [dn|]; [|discriminate].
  destruct (match dn with Some n => with_name w0 n | None => Some w0 end) as [w1|] eqn:W1; [|discriminate].
  assert (B1 : watcher_built w1) by (destruct dn as [n|]; [exact (wb_name _ _ _ B0 W1)|assert (w0 = w1) by congruence; now subst w1]).
  destruct (attribute xml (lit "<watcher") (lit "expiration")) as [ex|]; [|discriminate]. destruct (attribute xml (lit "<watcher") (lit "duration-subscribed")) as [du|]; [|discriminate].
  assert (B2 : watcher_built (match number ex with Some n => with_expires w1 n | None => w1 end)) by (destruct (number ex) as [n|] eqn:E; [apply wb_expires; [exact B1|now apply number_le in E]|exact B1]).
  set (w2 := match number ex with Some n => with_expires w1 n | None => w1 end) in *.
  assert (B3 : watcher_built (match number du with Some n => with_since w2 n | None => w2 end)) by (destruct (number du) as [n|] eqn:E; [apply wb_since; [exact B2|now apply number_le in E]|exact B2]).
  set (w3 := match number du with Some n => with_since w2 n | None => w2 end) in *.
  assert (H' : match split_once 62 xml with Some (_, r) => match find_sub (lit "</watcher>") r with Some (c, _) => match unescape (trim c) with Some u => if str_eqb u [] then Some w3 else with_uri w3 u | None => None end | None => Some w3 end | None => Some w3 end = Some w).
  { exact H. }
  clear H. apply watcher_good. destruct (split_once 62 xml) as [(x, r)|]; [|now assert (w3 = w) as <- by congruence]. destruct (find_sub (lit "</watcher>") r) as [(c, y)|]; [|now assert (w3 = w) as <- by congruence]. destruct (unescape (trim c)) as [u|]; [|discriminate]. destruct (str_eqb u []); [now assert (w3 = w) as <- by congruence|]. exact (wb_uri _ _ _ B3 H').
Qed.
Lemma watchers_ok : forall f xml l l', good_list l -> read_watchers f xml l = Some l' -> good_list l'.
Proof.
  induction f as [|f IH]; intros xml l l' G H; [discriminate|]. cbn [read_watchers] in H. destruct (find_sub (lit "<watcher ") xml) as [(a, r)|]; [|now assert (l = l') as <- by congruence]. destruct (find_sub (lit "</watcher>") (lit "<watcher " ++ r)) as [(x, r')|]; [|discriminate]. destruct (read_watcher (x ++ lit "</watcher>")) as [w|] eqn:W; [|discriminate]. destruct (add_watcher l w) as [l1|] eqn:L; [|discriminate].
  apply (IH r' l1 l'); [|exact H]. apply (list_more l w); [exact G|now apply watcher_ok in W|exact L].
Qed.
Lemma list_ok : forall xml l, read_list xml = Some l -> good_list l.
Proof.
  intros xml l H. unfold read_list in H. destruct (need (attribute xml (lit "<watcher-list") (lit "resource"))) as [r|]; [|discriminate]. destruct (need (attribute xml (lit "<watcher-list") (lit "package"))) as [p|]; [|discriminate]. destruct (list_new r p) as [l0|] eqn:L; [|discriminate]. apply list_started in L. exact (watchers_ok _ _ _ _ L H).
Qed.
Lemma lists_ok : forall f xml d d', within d -> read_lists f xml d = Some d' -> within d'.
Proof.
  induction f as [|f IH]; intros xml d d' G H; [discriminate|]. cbn [read_lists] in H. destruct (find_sub (lit "<watcher-list") xml) as [(a, r)|]; [|now assert (d = d') as <- by congruence]. destruct (find_sub (lit "</watcher-list>") (lit "<watcher-list" ++ r)) as [(x, r')|]; [|discriminate]. destruct (read_list (x ++ lit "</watcher-list>")) as [w|] eqn:W; [|discriminate]. destruct (add_list d w) as [l1|] eqn:L; [|discriminate].
  apply (IH r' l1 d'); [|exact H]. apply (info_more d w); [exact G|now apply list_ok in W|exact L].
Qed.

(** ** Theorems *)
(** C169: a document that can be built keeps the limits; written and read back it is the
    same document, provided no value looks as if it held an attribute that is written
    behind it and no watcher address has white space at an end *)
Theorem C169_limits : forall d, built d -> within d.
Proof. exact built_within. Qed.
Print Assumptions C169_limits.
Theorem C169_roundtrip_partial : forall d, built d -> honest d -> parse_winfo (to_xml d) = Some d.
Proof. intros d B H. apply info_read; [now apply built_within|exact H]. Qed.
Print Assumptions C169_roundtrip_partial.
(** any text can be written as a value: what is written holds no markup, and reading
    gives the text back *)
Theorem C169_values : forall s, unescape (escape s) = Some s /\ forall c, In c (escape s) -> c <> 60 /\ c <> 62 /\ c <> 34.
Proof. intros s. split; [apply unescape_escape|]. intros c Hc. destruct (esc_none s) as (A & B & C). repeat split; intros ->; contradiction. Qed.
Print Assumptions C169_values.
(** documents with one list and one watcher *)
Definition with_one (w : watcher) : winfo := mkInfo 7 (lit "full") [mkList (lit "sip:a@b.org") (lit "presence") [w]].
Lemma one_built : forall w, watcher_built w -> built (with_one w).
Proof.
  intros w H. apply (ib_add (mkInfo 7 (lit "full") []) (mkList (lit "sip:a@b.org") (lit "presence") [w])); [|apply (lb_add (mkList (lit "sip:a@b.org") (lit "presence") []) w); [|exact H|reflexivity]|reflexivity].
  - apply (ib_new 7 (lit "Full")); [discriminate|reflexivity].
  - apply (lb_new (lit "sip:a@b.org") (lit "presence")). vm_compute. reflexivity.
Qed.
(** an identifier can pass for another attribute: the reader sees a display name that
    nobody gave, or refuses the document *)
Theorem C169_decoy_refuted : exists d d', built d /\ parse_winfo (to_xml d) = Some d'
  /\ (exists l w l' w', i_lists d = [l] /\ l_watchers l = [w] /\ i_lists d' = [l'] /\ l_watchers l' = [w'] /\ w_name w = None /\ w_name w' = Some (lit " status=")).
Proof.
  exists (with_one (mkWatcher (lit "a display-name=") Active Approved None None None None)), (with_one (mkWatcher (lit "a display-name=") Active Approved None (Some (lit " status=")) None None)).
  refine (conj _ (conj _ _)); [apply one_built; now apply (wb_new (lit "a display-name=") Active Approved)|vm_compute; reflexivity|]. do 4 eexists. cbn. repeat split; reflexivity.
Qed.
Print Assumptions C169_decoy_refuted.
Theorem C169_refused_refuted : exists d, built d /\ parse_winfo (to_xml d) = None.
Proof. exists (with_one (mkWatcher (lit "a status=b") Active Approved None None None None)). split; [apply one_built; now apply (wb_new (lit "a status=b") Active Approved)|vm_compute; reflexivity]. Qed.
Print Assumptions C169_refused_refuted.
Theorem C169_blank_refuted : exists d d', built d /\ parse_winfo (to_xml d) = Some d' /\ d' <> d.
Proof.
  exists (with_one (mkWatcher (lit "a") Active Approved (Some (lit "sip:c@d.org ")) None None None)), (with_one (mkWatcher (lit "a") Active Approved (Some (lit "sip:c@d.org")) None None None)).
  refine (conj _ (conj _ _)); [apply one_built; apply (wb_uri (mkWatcher (lit "a") Active Approved None None None None) (lit "sip:c@d.org ")); [now apply (wb_new (lit "a") Active Approved)|vm_compute; reflexivity]|vm_compute; reflexivity|discriminate].
Qed.
Print Assumptions C169_blank_refuted.
Example C169_case : exists d, built d /\ honest d /\ (exists w, d = with_one w /\ w_name w = Some (lit "A & ""B"" <c>") /\ w_expires w = Some 60).
Proof.
  set (w0 := mkWatcher (lit "x1") Pending Subscribe None None None None). assert (B0 : watcher_built w0) by (now apply (wb_new (lit "x1") Pending Subscribe)).
  assert (B1 := wb_name w0 (lit "A & ""B"" <c>") _ B0 eq_refl). assert (B2 := wb_expires _ 60 B1 ltac:(discriminate)). eexists. refine (conj (one_built _ B2) (conj _ _)); [|eexists; split; [reflexivity|split; reflexivity]].
  intros l [<-|[]]. split.
  - apply decoy_none. intros c Hc. assert (X : forallb (fun c => negb (is_ws c)) (lit "sip:a@b.org") = true) by reflexivity. rewrite forallb_forall in X. apply X in Hc. now apply negb_true_iff.
  - intros w [<-|[]]. refine (conj _ (conj _ _)).
    + intros n _. apply decoy_none. intros c Hc. cbn in Hc. repeat (destruct Hc as [<-|Hc]; [reflexivity|]). destruct Hc.
    + intros v n E _ (a & x & b & c & D & _). assert (E' : Some (lit "A & ""B"" <c>") = Some v) by exact E. assert (K : lit "A & ""B"" <c>" = v) by congruence. assert (X : In 61 (lit "A & ""B"" <c>")) by (rewrite K, D; apply in_app_iff; right; right; apply in_app_iff; right; apply in_app_iff; right; now left). revert X. now apply no_by.
    + discriminate.
Qed.

(** C170: what a reader accepts keeps every limit, whatever the text *)
Theorem C170_read : forall xml d, parse_winfo xml = Some d -> within d.
Proof.
  intros xml d H. unfold parse_winfo in H. destruct (need (attribute xml (lit "<watcherinfo") (lit "version"))) as [v|]; [|discriminate]. destruct (parse_uint u32_max v) as [n|] eqn:V; [|discriminate]. destruct (need (attribute xml (lit "<watcherinfo") (lit "state"))) as [s|]; [|discriminate]. destruct (info_new n s) as [d0|] eqn:D; [|discriminate].
  apply info_started in D; [|now apply (number_le (Some v))]. exact (lists_ok _ _ _ _ D H).
Qed.
Print Assumptions C170_read.
(** states and events are known by their names, in any case *)
Theorem C170_words : (forall s x, status_of s = Some x <-> lower s = status_text x) /\ (forall s x, event_of s = Some x <-> lower s = event_text x).
Proof.
  split; intros s x; split; intros H.
  - apply find_some in H as (_ & H). now apply str_eqb_spec in H.
  - unfold status_of. rewrite H. destruct x; reflexivity.
  - apply find_some in H as (_ & H). now apply str_eqb_spec in H.
  - unfold event_of. rewrite H. destruct x; reflexivity.
Qed.
Print Assumptions C170_words.
(** a number that cannot be read is dropped without an error *)
Theorem C170_number_refuted : exists d, parse_winfo (lit "<watcherinfo version=""0"" state=""full""><watcher-list resource=""sip:a@b.org"" package=""presence""><watcher id=""1"" status=""active"" event=""approved"" expiration=""60s""></watcher></watcher-list></watcherinfo>") = Some d
  /\ exists l w, i_lists d = [l] /\ l_watchers l = [w] /\ w_expires w = None.
Proof.
  exists (mkInfo 0 (lit "full") [mkList (lit "sip:a@b.org") (lit "presence") [mkWatcher (lit "1") Active Approved None None None None]]). split; [vm_compute; reflexivity|]. do 2 eexists. repeat split.
Qed.
Print Assumptions C170_number_refuted.
Example C170_case : exists d, parse_winfo (lit "<watcherinfo state='Partial' version='+3'></watcherinfo>") = Some d /\ i_version d = 3 /\ i_state d = lit "partial".
Proof. exists (mkInfo 3 (lit "partial") []). split; [vm_compute; reflexivity|split; reflexivity]. Qed.

(** references by number stand for the character with that number, if there is one *)
Theorem C170_reference : forall n, n <= u32_max ->
  (n <= 55295 \/ 57344 <= n <= 1114111 -> unescape (lit "&#" ++ print_N n ++ lit ";") = Some [n])
  /\ (55296 <= n <= 57343 \/ 1114111 < n -> unescape (lit "&#" ++ print_N n ++ lit ";") = None).
Proof.
  intros n L. assert (U : unescape (lit "&#" ++ print_N n ++ lit ";") = match as_char (Some n) with Some x => Some [x] | None => None end).
  { change (unescape (lit "&#" ++ print_N n ++ lit ";")) with (unescape_fuel (S (List.length (35 :: print_N n ++ [59]))) (38 :: 35 :: print_N n ++ [59])). generalize (List.length (35 :: print_N n ++ [59])). intros k. cbn [unescape_fuel]. change (38 =? 38) with true. cbv iota.
    assert (S : split_once 59 (35 :: print_N n ++ [59]) = Some (35 :: print_N n, [])) by (apply (split_once_app 59 (35 :: print_N n) []); apply mem_false; intros [H|H]; [lia|apply print_N_digits in H; lia]).
    rewrite S.
    assert (E : entity (35 :: print_N n) = as_char (parse_uint u32_max (print_N n))).
    { pose proof (print_N_digits n) as D. destruct (print_N_spec n) as (_ & _ & NE). destruct (print_N n) as [|c s]; [now elim NE|]. specialize (D c (or_introl eq_refl)). unfold entity.
      assert (X : forall w, match w with [] => true | y :: _ => negb (y =? 35) end = true -> str_eqb (35 :: c :: s) w = false) by (intros w W; apply str_eqb_neq; intros <-; discriminate).
      rewrite !X by reflexivity. destruct c as [|p]; [lia|]. do 7 (destruct p as [p|p|]; try reflexivity; try lia). }
    rewrite E, parse_uint_print by exact L. destruct (as_char (Some n)) as [x|]; [|reflexivity]. now destruct k. }
  split; intros H; rewrite U; unfold as_char, is_scalar, in_range.
  - replace ((n <? 55296) || ((57344 <=? n) && (n <=? 1114111))) with true by lia. reflexivity.
  - replace ((n <? 55296) || ((57344 <=? n) && (n <=? 1114111))) with false by lia. reflexivity.
Qed.
Print Assumptions C170_reference.
(** values may stand in quotation marks or in apostrophes *)
Theorem C170_quotes : forall q v, q = 34 \/ q = 39 -> ~ In q v -> ~ In 62 v ->
  attribute (lit "<watcher id=" ++ q :: v ++ q :: lit ">") (lit "<watcher") (lit "id") = match unescape v with Some t => Some (Some t) | None => None end.
Proof.
  intros q v Q V G. pose proof (tag_read (lit "watcher") [] (lit " id=" ++ q :: v ++ [q]) [] (lit "id")) as T. cbn [app] in T.
  replace (lit "<watcher id=" ++ q :: v ++ q :: lit ">") with ((60 :: lit "watcher" ++ (lit " id=" ++ q :: v ++ [q]) ++ [62])) by (assert (A : (v ++ [q]) ++ [62] = v ++ q :: lit ">") by (rewrite <- app_assoc; reflexivity); rewrite <- A; reflexivity).
  change (lit "<watcher") with (60 :: lit "watcher"). rewrite T; [|apply clear_nil|cbn; intuition discriminate|].
  - change (scan (lit "id") None (60 :: lit "watcher" ++ lit " id=" ++ q :: v ++ [q])) with (quoted (drop_while is_ws (q :: v ++ [q]))).
    assert (D : drop_while is_ws (q :: v ++ [q]) = q :: v ++ [q]) by (destruct Q as [-> | ->]; reflexivity). rewrite D. unfold quoted. replace ((q =? 34) || (q =? 39)) with true by lia. rewrite split_once_app by now apply mem_false. reflexivity.
  - intros H. apply in_app_or in H as [H|[H|H]]; [cbn in H; intuition discriminate|lia|]. apply in_app_or in H as [H|[H|[]]]; [now apply G|lia].
Qed.
Print Assumptions C170_quotes.
Example C170_quotes_met : exists t, unescape (lit "a&#66;""c") = Some t /\ t = lit "aB""c". Proof. eexists. split; vm_compute; reflexivity. Qed.
