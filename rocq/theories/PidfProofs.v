(** Facts about presence documents. *)
From Coq Require Import Arith NArith Bool String List Lia ZifyBool ZifyN ZifyNat.
Import ListNotations.
From Verif Require Import Base BaseFacts TypedFacts Pidf CpimSpec PidfSpec CpimProofs.
From Verif Require HepProofs.
Open Scope N_scope.
Open Scope list_scope.

(** ** Escapes *)
Lemma esc_cons : forall c s, escape (c :: s) = escape_c c ++ escape s.
Proof. reflexivity. Qed.
Lemma esc_char : forall c x, In x (escape_c c) -> x <> 60 /\ x <> 62 /\ x <> 34 /\ x <> 39 /\ (x = c \/ x = 59 \/ 38 <= x <= 122).
Proof.
  intros c x H. unfold escape_c in H.
  destruct (c =? 60) eqn:E1; [cbn in H; repeat (destruct H as [<-|H]; [lia|]); destruct H|].
  destruct (c =? 62) eqn:E2; [cbn in H; repeat (destruct H as [<-|H]; [lia|]); destruct H|].
  destruct (c =? 38) eqn:E3; [cbn in H; repeat (destruct H as [<-|H]; [lia|]); destruct H|].
  destruct (c =? 34) eqn:E4; [cbn in H; repeat (destruct H as [<-|H]; [lia|]); destruct H|].
  destruct (c =? 39) eqn:E5; [cbn in H; repeat (destruct H as [<-|H]; [lia|]); destruct H|].
  destruct H as [<-|[]]. lia.
Qed.
Lemma esc_in : forall s x, In x (escape s) -> exists c, In c s /\ In x (escape_c c).
Proof. intros s x H. unfold escape in H. apply in_flat_map in H. exact H. Qed.
Lemma esc_no : forall s, ~ In 60 (escape s) /\ ~ In 62 (escape s) /\ ~ In 34 (escape s).
Proof. intros s. refine (conj _ (conj _ _)); intros H; apply esc_in in H as (c & _ & H); apply esc_char in H; lia. Qed.
Lemma unesc_step : forall f c s, (List.length (escape (c :: s)) <= f)%nat -> exists g, (List.length (escape s) <= g)%nat /\ unescape_fuel f (escape (c :: s)) = c :: unescape_fuel g (escape s).
Proof.
  intros f c s H. rewrite esc_cons in *. rewrite app_length in H. destruct f as [|f]; [exfalso; assert (1 <= List.length (escape_c c))%nat by (unfold escape_c; destruct (c =? 60), (c =? 62), (c =? 38), (c =? 34), (c =? 39); cbn; lia); lia|]. exists f.
  unfold escape_c in *.
  destruct (c =? 60) eqn:E1; [apply N.eqb_eq in E1; subst c; cbn in H; split; [lia|reflexivity]|].
  destruct (c =? 62) eqn:E2; [apply N.eqb_eq in E2; subst c; cbn in H; split; [lia|reflexivity]|].
  destruct (c =? 38) eqn:E3; [apply N.eqb_eq in E3; subst c; cbn in H; split; [lia|reflexivity]|].
  destruct (c =? 34) eqn:E4; [apply N.eqb_eq in E4; subst c; cbn in H; split; [lia|reflexivity]|].
  destruct (c =? 39) eqn:E5; [apply N.eqb_eq in E5; subst c; cbn in H; split; [lia|reflexivity]|].
  cbn in H. split; [lia|]. cbn [app unescape_fuel]. now rewrite E3.
Qed.
Lemma unescape_escape : forall s, unescape (escape s) = s.
Proof.
  intros s. unfold unescape. assert (K : forall t f, (List.length (escape t) <= f)%nat -> unescape_fuel f (escape t) = t); [|now apply K]. induction t as [|c t IH]; intros f H; [destruct f; reflexivity|]. apply unesc_step in H as (g & L & ->). now rewrite IH.
Qed.
Lemma esc_first : forall c, if is_ws c then escape_c c = [c] else exists x r, escape_c c = x :: r /\ is_ws x = false /\ is_ws (last (escape_c c) 0) = false.
Proof.
  intros c. unfold escape_c.
  destruct (c =? 60) eqn:E1; [apply N.eqb_eq in E1; subst c; cbn; now eexists _, _|].
  destruct (c =? 62) eqn:E2; [apply N.eqb_eq in E2; subst c; cbn; now eexists _, _|].
  destruct (c =? 38) eqn:E3; [apply N.eqb_eq in E3; subst c; cbn; now eexists _, _|].
  destruct (c =? 34) eqn:E4; [apply N.eqb_eq in E4; subst c; cbn; now eexists _, _|].
  destruct (c =? 39) eqn:E5; [apply N.eqb_eq in E5; subst c; cbn; now eexists _, _|].
  destruct (is_ws c) eqn:W; [reflexivity|]. exists c, []. cbn. now rewrite W.
Qed.
Lemma esc_start : forall s, trim_start_by is_ws (escape s) = escape (trim_start_by is_ws s).
Proof.
  unfold trim_start_by. induction s as [|c s IH]; [reflexivity|]. rewrite esc_cons. cbn [drop_while]. pose proof (esc_first c) as E. destruct (is_ws c) eqn:B.
  - rewrite E. cbn [app drop_while]. rewrite B. exact IH.
  - destruct E as (x & r & E & W & _). rewrite esc_cons, E. cbn [app drop_while]. now rewrite W.
Qed.
Lemma esc_end : forall s, trim_end_by is_ws (escape s) = escape (trim_end_by is_ws s).
Proof.
  induction s as [|c s IH]; [reflexivity|]. rewrite esc_cons, HepProofs.trim_end_by_app, IH. cbn [trim_end_by]. pose proof (esc_first c) as E. destruct (trim_end_by is_ws s) as [|y t].
  - change (escape []) with (@nil N). destruct (is_ws c) eqn:B.
    + rewrite E. cbn [trim_end_by]. now rewrite B.
    + destruct E as (x & r & E & _ & W). unfold escape. cbn [flat_map]. rewrite app_nil_r. apply (trim_end_last is_ws _ 0); [rewrite E; discriminate|exact W].
  - rewrite (esc_cons c). destruct (escape (y :: t)) as [|z u] eqn:K; [|reflexivity]. exfalso. rewrite esc_cons in K. pose proof (esc_first y) as F. destruct (is_ws y); [rewrite F in K; discriminate|destruct F as (x & r & F & _); rewrite F in K; discriminate].
Qed.
Lemma trim_esc : forall s, trim (escape s) = escape (trim s).
Proof. intros s. unfold trim, trim_by. rewrite esc_start. apply esc_end. Qed.
Lemma read_back : forall s, unescape (trim (escape s)) = trim s.
Proof. intros s. rewrite trim_esc. apply unescape_escape. Qed.

(** ** Looking for a tag *)
Definition pre (a : str) (o : option (str * str)) : option (str * str) := match o with Some (x, y) => Some (a ++ x, y) | None => None end.
(** no tag [60 :: p] begins in [a], whatever follows *)
Definition clear (p a : str) : Prop := forall s, find_sub (60 :: p) (a ++ s) = pre a (find_sub (60 :: p) s).
Lemma pre_app : forall a b o, pre a (pre b o) = pre (a ++ b) o.
Proof. intros a b [(x, y)|]; [|reflexivity]. cbn [pre]. now rewrite app_assoc. Qed.
Lemma clear_nil : forall p, clear p [].
Proof. intros p s. cbn [app]. destruct (find_sub (60 :: p) s) as [(x, y)|]; reflexivity. Qed.
Lemma clear_app : forall p a b, clear p a -> clear p b -> clear p (a ++ b).
Proof. intros p a b A B s. rewrite <- app_assoc, A, B. apply pre_app. Qed.
Fixpoint differ (p c : str) : bool := match p, c with x :: p', y :: c' => if x =? y then differ p' c' else true | _, _ => false end.
Lemma differ_strip : forall p c s, differ p c = true -> strip_prefix p (c ++ s) = None.
Proof. induction p as [|x p IH]; intros [|y c] s H; try discriminate. cbn [differ] in H. cbn [app strip_prefix]. destruct (x =? y); [now apply IH|reflexivity]. Qed.
Fixpoint clearb (p a : str) : bool := match a with [] => true | x :: r => (if x =? 60 then differ p r else true) && clearb p r end.
Lemma clearb_clear : forall p a, clearb p a = true -> clear p a.
Proof.
  intros p. induction a as [|x a IH]; intros H; [apply clear_nil|]. cbn [clearb] in H. apply andb_true_iff in H as (H1 & H2). specialize (IH H2). intros s. cbn [app find_sub strip_prefix]. rewrite (N.eqb_sym 60 x). destruct (x =? 60).
  - rewrite differ_strip by exact H1. rewrite IH. destruct (find_sub (60 :: p) s) as [(u, v)|]; reflexivity.
  - rewrite IH. destruct (find_sub (60 :: p) s) as [(u, v)|]; reflexivity.
Qed.
Lemma clear_no : forall p a, ~ In 60 a -> clear p a.
Proof.
  intros p a H. apply clearb_clear. induction a as [|x a IH]; [reflexivity|]. cbn [clearb]. replace (x =? 60) with false; [apply IH; intros K; apply H; now right|]. symmetry. apply N.eqb_neq. intros ->. apply H. now left.
Qed.
Lemma clear_esc : forall p s, clear p (escape s).
Proof. intros p s. apply clear_no. apply esc_no. Qed.
Lemma clear_flat : forall A p (f : A -> str) l, (forall x, In x l -> clear p (f x)) -> clear p (flat_map f l).
Proof. intros A p f. induction l as [|x l IH]; intros H; [apply clear_nil|]. cbn [flat_map]. apply clear_app; [apply H; now left|apply IH; intros y Hy; apply H; now right]. Qed.
Lemma clear_end : forall p a, clear p a -> find_sub (60 :: p) a = None.
Proof. intros p a H. specialize (H []). rewrite app_nil_r in H. rewrite H. reflexivity. Qed.
Lemma find_hit : forall p a s, clear p a -> find_sub (60 :: p) (a ++ (60 :: p) ++ s) = Some (a, s).
Proof. intros p a s H. rewrite H. cbn [app find_sub]. rewrite (strip_prefix_app (60 :: p) s : strip_prefix (60 :: p) (60 :: p ++ s) = Some s). cbn [pre]. now rewrite app_nil_r. Qed.
Ltac clr := repeat apply clear_app; first [apply clearb_clear; reflexivity|apply clear_esc].

(** ** Limits *)
Lemma plain_iff : forall k s, plain_text k s = true <-> clean k [] s.
Proof. intros k s. unfold plain_text. apply clean_iff. intros c. rewrite control_iff. cbn [In]. tauto. Qed.
Lemma named_iff : forall k s, negb (str_eqb s []) && plain_text k s = true <-> s <> [] /\ clean k [] s.
Proof. intros k s. now rewrite andb_true_iff, nonempty_iff, plain_iff. Qed.
Lemma tuple_good : forall t, tuple_built t -> good_tuple t.
Proof.
  intros t B. induction B as [i t E|t b B IH|t c t' B IH E|t n t' B IH E|t s t' B IH E].
  - unfold tuple_new in E. destruct (id_ok i) eqn:K; [|discriminate]. injection E as <-. refine (conj _ (conj _ (conj _ (conj _ _)))); [now apply named_iff|discriminate|cbn; lia|intros ? []|discriminate].
  - exact IH.
  - unfold with_contact in E. destruct (contact_ok c) eqn:K; [|discriminate]. injection E as <-. destruct IH as (I1 & I2 & I3 & I4 & I5). refine (conj I1 (conj _ (conj I3 (conj I4 I5)))). intros x X. injection X as <-. now apply plain_iff.
  - unfold with_note in E. destruct (note_ok n) eqn:K; [|discriminate]. destruct (10 <=? llen (t_notes t)) eqn:L; [discriminate|]. injection E as <-. destruct IH as (I1 & I2 & I3 & I4 & I5). refine (conj I1 (conj I2 (conj _ (conj _ I5)))).
    + cbn [t_notes]. rewrite app_length. cbn [List.length]. unfold llen in L. lia.
    + cbn [t_notes]. intros x X. apply in_app_or in X as [X|[<-|[]]]; [now apply I4|now apply plain_iff].
  - unfold with_time in E. destruct (time_ok s) eqn:K; [|discriminate]. injection E as <-. destruct IH as (I1 & I2 & I3 & I4 & I5). refine (conj I1 (conj I2 (conj I3 (conj I4 _)))). intros x X. injection X as <-. now apply plain_iff.
Qed.
Lemma built_within : forall d, built d -> within d.
Proof.
  intros d B. induction B as [e d E|d t d' B IH T E|d n d' B IH E].
  - unfold pidf_new in E. destruct (entity_ok e) eqn:K; [|discriminate]. injection E as <-. refine (conj _ (conj _ (conj _ (conj _ _)))); [now apply named_iff|cbn; lia|intros ? []|cbn; lia|intros ? []].
  - unfold add_tuple in E. destruct (50 <=? llen (d_tuples d)) eqn:L; [discriminate|]. injection E as <-. destruct IH as (I1 & I2 & I3 & I4 & I5). refine (conj I1 (conj _ (conj _ (conj I4 I5)))).
    + cbn [d_tuples]. rewrite app_length. cbn [List.length]. unfold llen in L. lia.
    + cbn [d_tuples]. intros x X. apply in_app_or in X as [X|[<-|[]]]; [now apply I3|now apply tuple_good].
  - unfold add_note in E. destruct (note_ok n) eqn:K; [|discriminate]. destruct (20 <=? llen (d_notes d)) eqn:L; [discriminate|]. injection E as <-. destruct IH as (I1 & I2 & I3 & I4 & I5). refine (conj I1 (conj I2 (conj I3 (conj _ _)))).
    + cbn [d_notes]. rewrite app_length. cbn [List.length]. unfold llen in L. lia.
    + cbn [d_notes]. intros x X. apply in_app_or in X as [X|[<-|[]]]; [now apply I5|now apply plain_iff].
Qed.

(** ** One tuple *)
Definition tnote (n : str) : str := lit "    <note>" ++ escape n ++ lit "</note>" ++ NL.
Definition dnote (n : str) : str := lit "  <note>" ++ escape n ++ lit "</note>" ++ NL.
Definition thead (i : str) : str := lit "<tuple id=""" ++ escape i ++ lit """>" ++ NL.
Definition tbody (t : tuple) : str := thead (t_id t) ++ status_text (t_status t) ++ contact_text (t_contact t) ++ flat_map tnote (t_notes t) ++ time_text (t_time t) ++ lit "  ".
Lemma tuple_split : forall t, tuple_xml t = lit "  " ++ tbody t ++ lit "</tuple>" ++ NL.
Proof. intros t. unfold tuple_xml, tbody, thead. rewrite <- !app_assoc. reflexivity. Qed.
Lemma head_clear : forall i, clear (lit "basic>") (thead i) /\ clear (lit "contact>") (thead i) /\ clear (lit "note>") (thead i) /\ clear (lit "timestamp>") (thead i) /\ clear (lit "/tuple>") (thead i).
Proof. intros i. refine (conj _ (conj _ (conj _ (conj _ _)))); unfold thead, NL; clr. Qed.
Lemma status_clear : forall o, clear (lit "contact>") (status_text o) /\ clear (lit "note>") (status_text o) /\ clear (lit "timestamp>") (status_text o) /\ clear (lit "/tuple>") (status_text o) /\ clear (lit "tuple") (status_text o).
Proof. intros [[]|]; refine (conj _ (conj _ (conj _ (conj _ _)))); unfold status_text, NL, basic_text; try apply clear_nil; clr. Qed.
Lemma contact_clear : forall o, clear (lit "basic>") (contact_text o) /\ clear (lit "note>") (contact_text o) /\ clear (lit "timestamp>") (contact_text o) /\ clear (lit "/tuple>") (contact_text o) /\ clear (lit "tuple") (contact_text o).
Proof. intros [c|]; refine (conj _ (conj _ (conj _ (conj _ _)))); unfold contact_text, NL; try apply clear_nil; clr. Qed.
Lemma time_clear : forall o, clear (lit "basic>") (time_text o) /\ clear (lit "contact>") (time_text o) /\ clear (lit "note>") (time_text o) /\ clear (lit "/tuple>") (time_text o) /\ clear (lit "tuple") (time_text o).
Proof. intros [c|]; refine (conj _ (conj _ (conj _ (conj _ _)))); unfold time_text, NL; try apply clear_nil; clr. Qed.
Lemma tnotes_clear : forall ns, clear (lit "basic>") (flat_map tnote ns) /\ clear (lit "contact>") (flat_map tnote ns) /\ clear (lit "timestamp>") (flat_map tnote ns) /\ clear (lit "/tuple>") (flat_map tnote ns) /\ clear (lit "tuple") (flat_map tnote ns).
Proof. intros ns. refine (conj _ (conj _ (conj _ (conj _ _)))); apply clear_flat; intros n _; unfold tnote, NL; clr. Qed.
Lemma once_some : forall name a c b, clear (name ++ lit ">") a -> clear (name ++ lit ">") b -> once (a ++ open_tag name ++ escape c ++ close_tag name ++ b) name = Some (Some (trim c)).
Proof.
  intros name a c b A B. unfold once, element. rewrite (find_hit (name ++ lit ">") a _ A : find_sub (open_tag name) (a ++ open_tag name ++ _) = _). rewrite (find_hit (47 :: name ++ lit ">") (escape c) b (clear_esc _ _) : find_sub (close_tag name) (escape c ++ close_tag name ++ b) = _).
  unfold again. rewrite (clear_end _ _ B : find_sub (open_tag name) b = None). now rewrite read_back.
Qed.
Lemma once_none : forall name a, clear (name ++ lit ">") a -> once a name = Some None.
Proof. intros name a A. unfold once, element. now rewrite (clear_end _ _ A : find_sub (open_tag name) a = None). Qed.
(** the tuple as a reader sees it *)
Definition pare (t : tuple) : tuple := mkTuple (t_id t) (t_status t) (option_map trim (t_contact t)) (map trim (t_notes t)) (option_map trim (t_time t)).
Lemma id_read : forall i s, attribute (thead i ++ s) (lit "<tuple") (lit "id") = Some (escape i).
Proof.
  intros i s. unfold attribute. assert (E : find_sub (lit "<tuple") (thead i ++ s) = Some ([], lit " id=""" ++ escape i ++ lit """>" ++ NL ++ s)).
  { unfold thead. rewrite <- !app_assoc. reflexivity. }
  rewrite E. assert (E2 : lit "<tuple" ++ lit " id=""" ++ escape i ++ lit """>" ++ NL ++ s = (lit "<tuple id=""" ++ escape i ++ lit """") ++ 62 :: (NL ++ s)).
  { rewrite <- !app_assoc. reflexivity. }
  rewrite E2. rewrite split_once_app.
  - assert (E3 : find_sub (lit "id" ++ lit "=""") (lit "<tuple id=""" ++ escape i ++ lit """") = Some (lit "<tuple ", escape i ++ lit """")) by reflexivity. rewrite E3. change (lit """") with (34 :: []). rewrite split_once_app; [reflexivity|]. apply mem_false, esc_no.
  - apply mem_false. intros H. apply in_app_or in H as [H|H]; [cbn in H; repeat (destruct H as [H|H]; [discriminate|]); exact H|]. apply in_app_or in H as [H|H]; [now apply esc_no in H|]. destruct H as [H|[]]. discriminate.
Qed.
Lemma status_read : forall o a b, clear (lit "basic>") a -> clear (lit "basic>") b -> read_status (a ++ status_text o ++ b) = Some o.
Proof.
  intros o a b A B. unfold read_status. change (lit "<basic>") with (60 :: lit "basic>"). destruct o as [s|].
  - assert (E : a ++ status_text (Some s) ++ b = (a ++ (lit "    <status>" ++ NL ++ lit "      ")) ++ (60 :: lit "basic>") ++ basic_text s ++ (60 :: lit "/basic>") ++ (NL ++ lit "    </status>" ++ NL ++ b)).
    { unfold status_text. rewrite <- !app_assoc. reflexivity. }
    rewrite E. rewrite find_hit by (apply clear_app; [exact A|unfold NL; clr]). change (lit "</basic>") with (60 :: lit "/basic>"). rewrite find_hit by (destruct s; clr). destruct s; reflexivity.
  - cbn [status_text app]. rewrite clear_end; [reflexivity|now apply clear_app].
Qed.
Lemma notes_read : forall ns a b t f, clear (lit "note>") a -> clear (lit "note>") b -> (List.length (t_notes t) + List.length ns <= 10)%nat -> (forall n, In n ns -> clean 512 [] n) -> (List.length ns < f)%nat ->
  read_notes f (a ++ flat_map tnote ns ++ b) t = Some (mkTuple (t_id t) (t_status t) (t_contact t) (t_notes t ++ map trim ns) (t_time t)).
Proof.
  induction ns as [|n ns IH]; intros a b t f A B L C F; (destruct f as [|f]; [cbn in F; lia|]); cbn [read_notes]; change (lit "<note>") with (60 :: lit "note>").
  - cbn [flat_map app map]. rewrite clear_end by now apply clear_app. rewrite app_nil_r. now destruct t.
  - cbn [flat_map map]. assert (E : a ++ (tnote n ++ flat_map tnote ns) ++ b = (a ++ lit "    ") ++ (60 :: lit "note>") ++ escape n ++ (60 :: lit "/note>") ++ (NL ++ flat_map tnote ns ++ b)).
    { unfold tnote. rewrite <- !app_assoc. reflexivity. }
    rewrite E. rewrite find_hit by (apply clear_app; [exact A|clr]). change (lit "</note>") with (60 :: lit "/note>"). rewrite find_hit by apply clear_esc. rewrite read_back.
    unfold with_note. assert (K : note_ok (trim n) = true) by (apply plain_iff, clean_trim, C; now left). rewrite K. cbn [List.length] in L, F. unfold llen at 1. replace (10 <=? N.of_nat (List.length (t_notes t))) with false by lia. cbn [andb negb].
    rewrite IH; cbn [t_id t_status t_contact t_notes t_time]; [now rewrite <- app_assoc|unfold NL; clr|exact B|rewrite app_length; cbn [List.length]; lia|intros x X; apply C; now right|lia].
Qed.
Lemma flat_len : forall A (f : A -> str) l, (forall x, f x <> []) -> (List.length l <= List.length (flat_map f l))%nat.
Proof. intros A f l H. induction l as [|x l IH]; [cbn; lia|]. cbn [flat_map List.length]. rewrite app_length. specialize (H x). destruct (f x); [contradiction|]. cbn [List.length]. lia. Qed.
Lemma tuple_read : forall t, good_tuple t -> read_tuple (tbody t ++ lit "</tuple>") = Some (pare t).
Proof.
  intros t (G1 & G2 & G3 & G4 & G5). destruct (head_clear (t_id t)) as (H1 & H2 & H3 & H4 & H5). destruct (status_clear (t_status t)) as (S1 & S2 & S3 & S4 & S5). destruct (contact_clear (t_contact t)) as (C1 & C2 & C3 & C4 & C5). destruct (time_clear (t_time t)) as (T1 & T2 & T3 & T4 & T5). destruct (tnotes_clear (t_notes t)) as (N1 & N2 & N3 & N4 & N5).
  unfold tbody. rewrite <- !app_assoc. set (stop := lit "  " ++ lit "</tuple>"). unfold read_tuple. rewrite id_read, unescape_escape. unfold tuple_new. assert (K : id_ok (t_id t) = true) by now apply named_iff. rewrite K. cbn [t_id t_contact t_notes t_time].
  assert (X1 : clear (lit "basic>") stop) by (unfold stop; clr). assert (X2 : clear (lit "contact>") stop) by (unfold stop; clr). assert (X3 : clear (lit "note>") stop) by (unfold stop; clr). assert (X4 : clear (lit "timestamp>") stop) by (unfold stop; clr).
  rewrite status_read; [|exact H1|repeat (apply clear_app; [assumption|]); assumption]. cbv zeta.
  assert (OC : once (thead (t_id t) ++ status_text (t_status t) ++ contact_text (t_contact t) ++ flat_map tnote (t_notes t) ++ time_text (t_time t) ++ stop) (lit "contact") = Some (option_map trim (t_contact t))).
  { destruct (t_contact t) as [c|].
    - assert (E : thead (t_id t) ++ status_text (t_status t) ++ contact_text (Some c) ++ flat_map tnote (t_notes t) ++ time_text (t_time t) ++ stop
        = (thead (t_id t) ++ status_text (t_status t) ++ lit "    ") ++ open_tag (lit "contact") ++ escape c ++ close_tag (lit "contact") ++ (NL ++ flat_map tnote (t_notes t) ++ time_text (t_time t) ++ stop)).
      { unfold contact_text. rewrite <- !app_assoc. reflexivity. }
      rewrite E. apply once_some; change (lit "contact" ++ lit ">") with (lit "contact>"); repeat (apply clear_app; [first [assumption|unfold NL; clr]|]); first [assumption|clr].
    - cbn [contact_text app option_map]. apply once_none. change (lit "contact" ++ lit ">") with (lit "contact>"). repeat (apply clear_app; [assumption|]). assumption. }
  rewrite OC. assert (WC : (match option_map trim (t_contact t) with Some c => with_contact (mkTuple (t_id t) (t_status t) None [] None) c | None => Some (mkTuple (t_id t) (t_status t) None [] None) end) = Some (mkTuple (t_id t) (t_status t) (option_map trim (t_contact t)) [] None)).
  { destruct (t_contact t) as [c|]; [|reflexivity]. cbn [option_map]. unfold with_contact. assert (Q : contact_ok (trim c) = true) by (apply plain_iff, clean_trim, G2; reflexivity). rewrite Q. reflexivity. }
  rewrite WC.
  assert (NR : forall f, (List.length (t_notes t) < f)%nat -> read_notes f (thead (t_id t) ++ status_text (t_status t) ++ contact_text (t_contact t) ++ flat_map tnote (t_notes t) ++ time_text (t_time t) ++ stop) (mkTuple (t_id t) (t_status t) (option_map trim (t_contact t)) [] None)
     = Some (mkTuple (t_id t) (t_status t) (option_map trim (t_contact t)) (map trim (t_notes t)) None)).
  { intros f F. assert (E : thead (t_id t) ++ status_text (t_status t) ++ contact_text (t_contact t) ++ flat_map tnote (t_notes t) ++ time_text (t_time t) ++ stop = (thead (t_id t) ++ status_text (t_status t) ++ contact_text (t_contact t)) ++ flat_map tnote (t_notes t) ++ (time_text (t_time t) ++ stop)) by now rewrite <- !app_assoc.
    rewrite E. rewrite notes_read; [reflexivity|repeat (apply clear_app; [assumption|]); assumption|apply clear_app; assumption|cbn [t_notes List.length]; lia|exact G4|exact F]. }
  rewrite NR; [|rewrite !app_length; pose proof (flat_len _ tnote (t_notes t) ltac:(discriminate)); lia].
  assert (OT : once (thead (t_id t) ++ status_text (t_status t) ++ contact_text (t_contact t) ++ flat_map tnote (t_notes t) ++ time_text (t_time t) ++ stop) (lit "timestamp") = Some (option_map trim (t_time t))).
  { destruct (t_time t) as [c|].
    - assert (E : thead (t_id t) ++ status_text (t_status t) ++ contact_text (t_contact t) ++ flat_map tnote (t_notes t) ++ time_text (Some c) ++ stop
        = (thead (t_id t) ++ status_text (t_status t) ++ contact_text (t_contact t) ++ flat_map tnote (t_notes t) ++ lit "    ") ++ open_tag (lit "timestamp") ++ escape c ++ close_tag (lit "timestamp") ++ (NL ++ stop)).
      { unfold time_text. rewrite <- !app_assoc. reflexivity. }
      rewrite E. apply once_some; change (lit "timestamp" ++ lit ">") with (lit "timestamp>"); repeat (apply clear_app; [first [assumption|unfold NL; clr]|]); first [assumption|clr].
    - cbn [time_text app option_map]. apply once_none. change (lit "timestamp" ++ lit ">") with (lit "timestamp>"). repeat (apply clear_app; [assumption|]). assumption. }
  rewrite OT. unfold pare. destruct (t_time t) as [c|]; [|reflexivity]. cbn [option_map]. unfold with_time. assert (Q : time_ok (trim c) = true) by (apply plain_iff, clean_trim, G5; reflexivity). rewrite Q. reflexivity.
Qed.

(** ** The document *)
Lemma body_clear : forall t, clear (lit "/tuple>") (tbody t).
Proof.
  intros t. destruct (head_clear (t_id t)) as (_ & _ & _ & _ & H). destruct (status_clear (t_status t)) as (_ & _ & _ & S & _). destruct (contact_clear (t_contact t)) as (_ & _ & _ & C & _). destruct (time_clear (t_time t)) as (_ & _ & _ & T & _). destruct (tnotes_clear (t_notes t)) as (_ & _ & _ & N & _).
  unfold tbody. repeat (apply clear_app; [assumption|]). clr.
Qed.
(** where the tuples are *)
Fixpoint spans (pos : nat) (ts : list tuple) : list (nat * nat) :=
  match ts with [] => [] | t :: r => let stop := (pos + 2 + List.length (tbody t) + 8)%nat in ((pos + 2)%nat, stop) :: spans (stop + 1) r end.
Lemma body_start : forall t, exists r, tbody t = lit "<tuple" ++ r.
Proof. intros t. exists (lit " id=""" ++ escape (t_id t) ++ lit """>" ++ NL ++ status_text (t_status t) ++ contact_text (t_contact t) ++ flat_map tnote (t_notes t) ++ time_text (t_time t) ++ lit "  "). unfold tbody, thead. rewrite <- !app_assoc. reflexivity. Qed.
Lemma tuples_read : forall ts a b pos d f rg, clear (lit "tuple") a -> clear (lit "tuple") b -> (List.length (d_tuples d) + List.length ts <= 50)%nat -> (forall t, In t ts -> good_tuple t) -> (List.length ts < f)%nat ->
  read_tuples f pos (a ++ flat_map tuple_xml ts ++ b) d rg = Some (mkPidf (d_entity d) (d_tuples d ++ map pare ts) (d_notes d), rg ++ spans (pos + List.length a) ts).
Proof.
  induction ts as [|t ts IH]; intros a b pos d f rg A B L G F; (destruct f as [|f]; [cbn in F; lia|]); cbn [read_tuples]; change (lit "<tuple") with (60 :: lit "tuple").
  - cbn [flat_map app map spans]. rewrite clear_end by now apply clear_app. rewrite !app_nil_r. now destruct d.
  - destruct (body_start t) as (r & R). change (lit "<tuple") with (60 :: lit "tuple") in R. cbn [flat_map map spans]. assert (E : a ++ (tuple_xml t ++ flat_map tuple_xml ts) ++ b = (a ++ lit "  ") ++ (60 :: lit "tuple") ++ (r ++ lit "</tuple>" ++ NL ++ flat_map tuple_xml ts ++ b)).
    { rewrite tuple_split, R. rewrite <- !app_assoc. reflexivity. }
    rewrite E. rewrite find_hit by (apply clear_app; [exact A|clr]). cbv zeta. rewrite (app_assoc (60 :: lit "tuple") r), <- R. change (lit "</tuple>") with (60 :: lit "/tuple>"). rewrite find_hit by apply body_clear. change (60 :: lit "/tuple>") with (lit "</tuple>"). rewrite tuple_read by (apply G; now left). cbn [List.length] in L, F.
    unfold add_tuple. unfold llen at 1. replace (50 <=? N.of_nat (List.length (d_tuples d))) with false by lia. rewrite IH; cbn [d_entity d_tuples d_notes].
    + rewrite <- !app_assoc. cbn [app]. rewrite app_length. change (List.length (lit "  ")) with 2%nat. change (List.length NL) with 1%nat. do 2 f_equal. f_equal. f_equal; [f_equal; lia|f_equal; lia].
    + unfold NL; clr.
    + exact B.
    + rewrite app_length. cbn [List.length]. lia.
    + intros x X. apply G. now right.
    + lia.
Qed.
(** the notes of a tuple are skipped *)
Lemma skip_notes : forall ns a b pos f rg d s e, clear (lit "note>") a -> In (s, e) rg -> (s <= pos + List.length a)%nat -> (pos + List.length a + List.length (flat_map tnote ns) <= e)%nat -> (List.length (a ++ flat_map tnote ns ++ b) < f)%nat ->
  exists f' a' pos', read_doc_notes f pos (a ++ flat_map tnote ns ++ b) rg d = read_doc_notes f' pos' (a' ++ b) rg d /\ clear (lit "note>") a' /\ (List.length (a' ++ b) < f')%nat /\ (pos' + List.length a' = pos + List.length a + List.length (flat_map tnote ns))%nat.
Proof.
  induction ns as [|n ns IH]; intros a b pos f rg d s e A In1 L1 L2 F.
  - exists f, a, pos. cbn [flat_map app List.length] in *. refine (conj eq_refl (conj A (conj F _))). lia.
  - destruct f as [|f]; [lia|]. cbn [flat_map] in *. assert (E : a ++ (tnote n ++ flat_map tnote ns) ++ b = (a ++ lit "    ") ++ (60 :: lit "note>") ++ ((escape n ++ lit "</note>" ++ NL) ++ flat_map tnote ns ++ b)).
    { unfold tnote. rewrite <- !app_assoc. reflexivity. }
    assert (TN : List.length (tnote n) = (10 + List.length (escape n ++ lit "</note>" ++ NL))%nat) by (unfold tnote; rewrite app_length; reflexivity).
    rewrite app_length, TN in L2. rewrite !app_length, TN in F. cbn [read_doc_notes]. change (lit "<note>") with (60 :: lit "note>"). rewrite E. rewrite find_hit by (apply clear_app; [exact A|clr]). cbv zeta. rewrite (app_length a). change (List.length (lit "    ")) with 4%nat.
    assert (X : existsb (within_range (pos + (List.length a + 4))) rg = true) by (apply existsb_exists; exists (s, e); split; [exact In1|]; unfold within_range; cbn [fst snd]; lia). rewrite X.
    destruct (IH (escape n ++ lit "</note>" ++ NL) b (pos + (List.length a + 4) + 6)%nat f rg d s e) as (f' & a' & pos' & R & Ca & Lf & Lp).
    + unfold NL. clr.
    + exact In1.
    + lia.
    + lia.
    + rewrite !app_length. rewrite !app_length in F. lia.
    + exists f', a', pos'. refine (conj R (conj Ca (conj Lf _))). rewrite Lp, (app_length (tnote n)), TN. lia.
Qed.
Lemma skip_tuples : forall ts a b pos f rg d, clear (lit "note>") a -> incl (spans (pos + List.length a) ts) rg -> (List.length (a ++ flat_map tuple_xml ts ++ b) < f)%nat ->
  exists f' a' pos', read_doc_notes f pos (a ++ flat_map tuple_xml ts ++ b) rg d = read_doc_notes f' pos' (a' ++ b) rg d /\ clear (lit "note>") a' /\ (List.length (a' ++ b) < f')%nat /\ (pos' + List.length a' = pos + List.length a + List.length (flat_map tuple_xml ts))%nat.
Proof.
  induction ts as [|t ts IH]; intros a b pos f rg d A I1 F.
  - exists f, a, pos. cbn [flat_map app List.length] in *. refine (conj eq_refl (conj A (conj F _))). lia.
  - destruct (head_clear (t_id t)) as (_ & _ & H & _ & _). destruct (status_clear (t_status t)) as (_ & S & _ & _ & _). destruct (contact_clear (t_contact t)) as (_ & C & _ & _ & _). destruct (time_clear (t_time t)) as (_ & _ & T & _ & _).
    set (front := lit "  " ++ thead (t_id t) ++ status_text (t_status t) ++ contact_text (t_contact t)). set (back := time_text (t_time t) ++ lit "  " ++ lit "</tuple>" ++ NL).
    assert (TX : tuple_xml t = front ++ flat_map tnote (t_notes t) ++ back) by (unfold front, back; rewrite tuple_split; unfold tbody; rewrite <- !app_assoc; reflexivity).
    assert (TB : (List.length (tbody t) + 11 = List.length (tuple_xml t))%nat) by (rewrite tuple_split, !app_length; change (List.length (lit "  ")) with 2%nat; change (List.length (lit "</tuple>")) with 8%nat; change (List.length NL) with 1%nat; lia).
    assert (TL : List.length (tuple_xml t) = (List.length front + List.length (flat_map tnote (t_notes t)) + List.length back)%nat) by (rewrite TX, !app_length; lia).
    assert (BL : (1 <= List.length back)%nat) by (unfold back; rewrite !app_length; change (List.length NL) with 1%nat; lia). assert (FL : (2 <= List.length front)%nat) by (unfold front; rewrite app_length; change (List.length (lit "  ")) with 2%nat; lia).
    cbn [flat_map spans] in *. cbv zeta in I1. assert (E : a ++ (tuple_xml t ++ flat_map tuple_xml ts) ++ b = (a ++ front) ++ flat_map tnote (t_notes t) ++ (back ++ flat_map tuple_xml ts ++ b)) by (rewrite TX; now rewrite <- !app_assoc).
    rewrite E. destruct (skip_notes (t_notes t) (a ++ front) (back ++ flat_map tuple_xml ts ++ b) pos f rg d (pos + List.length a + 2) (pos + List.length a + 2 + List.length (tbody t) + 8)) as (f1 & a1 & p1 & R1 & C1 & F1 & P1).
    + apply clear_app; [exact A|]. unfold front. apply clear_app; [clr|]. repeat (apply clear_app; [assumption|]). assumption.
    + apply I1. now left.
    + rewrite app_length. lia.
    + rewrite app_length. lia.
    + rewrite <- E. exact F.
    + rewrite R1. assert (E1 : a1 ++ back ++ flat_map tuple_xml ts ++ b = (a1 ++ back) ++ flat_map tuple_xml ts ++ b) by now rewrite <- app_assoc. rewrite E1 in *.
      rewrite app_length in P1. destruct (IH (a1 ++ back) b p1 f1 rg d) as (f2 & a2 & p2 & R2 & C2 & F2 & P2).
      * apply clear_app; [exact C1|]. unfold back, NL. apply clear_app; [assumption|clr].
      * assert (EP : (p1 + List.length (a1 ++ back) = pos + List.length a + 2 + List.length (tbody t) + 8 + 1)%nat) by (rewrite app_length; lia). rewrite EP. intros x X. apply I1. now right.
      * exact F1.
      * exists f2, a2, p2. refine (conj R2 (conj C2 (conj F2 _))). rewrite P2, !app_length. lia.
Qed.
Lemma doc_notes : forall ns a b pos f rg d, clear (lit "note>") a -> clear (lit "note>") b -> (forall s e, In (s, e) rg -> (e <= pos + List.length a)%nat) -> (List.length (d_notes d) + List.length ns <= 20)%nat -> (forall n, In n ns -> clean 512 [] n) -> (List.length (a ++ flat_map dnote ns ++ b) < f)%nat ->
  read_doc_notes f pos (a ++ flat_map dnote ns ++ b) rg d = Some (mkPidf (d_entity d) (d_tuples d) (d_notes d ++ map trim ns)).
Proof.
  induction ns as [|n ns IH]; intros a b pos f rg d A B R L C F; (destruct f as [|f]; [lia|]); cbn [read_doc_notes]; change (lit "<note>") with (60 :: lit "note>").
  - cbn [flat_map app map]. rewrite clear_end by now apply clear_app. rewrite app_nil_r. now destruct d.
  - cbn [flat_map map] in *. assert (E : a ++ (dnote n ++ flat_map dnote ns) ++ b = (a ++ lit "  ") ++ (60 :: lit "note>") ++ escape n ++ (60 :: lit "/note>") ++ (NL ++ flat_map dnote ns ++ b)).
    { unfold dnote. rewrite <- !app_assoc. reflexivity. }
    rewrite E in *. rewrite find_hit by (apply clear_app; [exact A|clr]). cbv zeta. rewrite (app_length a). change (List.length (lit "  ")) with 2%nat.
    assert (X : existsb (within_range (pos + (List.length a + 2))) rg = false).
    { apply not_true_iff_false. intros X. apply existsb_exists in X as ((s, e) & I1 & W). unfold within_range in W. cbn [fst snd] in W. specialize (R s e I1). lia. }
    rewrite X. change (lit "</note>") with (60 :: lit "/note>"). rewrite find_hit by apply clear_esc. rewrite read_back. unfold add_note. assert (K : note_ok (trim n) = true) by (apply plain_iff, clean_trim, C; now left). rewrite K. cbn [List.length] in L. unfold llen at 1. replace (20 <=? N.of_nat (List.length (d_notes d))) with false by lia. cbn [andb negb].
    rewrite IH; cbn [d_entity d_tuples d_notes].
    + now rewrite <- app_assoc.
    + unfold NL; clr.
    + exact B.
    + intros s e I1. specialize (R s e I1). lia.
    + rewrite app_length. cbn [List.length]. lia.
    + intros x Hx. apply C. now right.
    + rewrite !app_length in *. cbn [List.length] in F. change (List.length NL) with 1%nat. lia.
Qed.
Lemma spans_end : forall ts pos s e, In (s, e) (spans pos ts) -> (e <= pos + List.length (flat_map tuple_xml ts))%nat.
Proof.
  induction ts as [|t ts IH]; intros pos s e H; [destruct H|]. cbn [spans flat_map] in *. cbv zeta in H. rewrite app_length. assert (TB : (List.length (tbody t) + 11 = List.length (tuple_xml t))%nat) by (rewrite tuple_split, !app_length; change (List.length (lit "  ")) with 2%nat; change (List.length (lit "</tuple>")) with 8%nat; change (List.length NL) with 1%nat; lia).
  destruct H as [H|H]; [apply pair_equal_spec in H as (H1 & H2); lia|]. apply IH in H. lia.
Qed.
Definition dhead (e : str) : str := lit "<?xml version=""1.0"" encoding=""UTF-8""?>" ++ NL ++ lit "<presence xmlns=""urn:ietf:params:xml:ns:pidf"" entity=""" ++ escape e ++ lit """>" ++ NL.
Definition dtail : str := lit "</presence>" ++ NL.
Lemma doc_split : forall d, to_xml d = dhead (d_entity d) ++ flat_map tuple_xml (d_tuples d) ++ flat_map dnote (d_notes d) ++ dtail.
Proof. intros d. unfold to_xml, dhead, dtail. rewrite <- !app_assoc. reflexivity. Qed.
Lemma entity_read : forall e s, attribute (dhead e ++ s) (lit "<presence") (lit "entity") = Some (escape e).
Proof.
  intros e s. unfold attribute. assert (E : find_sub (lit "<presence") (dhead e ++ s) = Some (lit "<?xml version=""1.0"" encoding=""UTF-8""?>" ++ NL, lit " xmlns=""urn:ietf:params:xml:ns:pidf"" entity=""" ++ escape e ++ lit """>" ++ NL ++ s)).
  { unfold dhead. rewrite <- !app_assoc. reflexivity. }
  rewrite E. assert (E2 : lit "<presence" ++ lit " xmlns=""urn:ietf:params:xml:ns:pidf"" entity=""" ++ escape e ++ lit """>" ++ NL ++ s = (lit "<presence xmlns=""urn:ietf:params:xml:ns:pidf"" entity=""" ++ escape e ++ lit """") ++ 62 :: (NL ++ s)) by (rewrite <- !app_assoc; reflexivity).
  rewrite E2. rewrite split_once_app.
  - assert (E3 : find_sub (lit "entity" ++ lit "=""") (lit "<presence xmlns=""urn:ietf:params:xml:ns:pidf"" entity=""" ++ escape e ++ lit """") = Some (lit "<presence xmlns=""urn:ietf:params:xml:ns:pidf"" ", escape e ++ lit """")) by reflexivity. rewrite E3. change (lit """") with (34 :: []). rewrite split_once_app; [reflexivity|]. apply mem_false, esc_no.
  - apply mem_false. intros H. apply in_app_or in H as [H|H]; [cbn in H; repeat (destruct H as [H|H]; [discriminate|]); exact H|]. apply in_app_or in H as [H|H]; [now apply esc_no in H|]. destruct H as [H|[]]. discriminate.
Qed.
Lemma doc_read : forall d, within d -> blen (to_xml d) <= 1048576 -> parse_pidf (to_xml d) = Some (mkPidf (d_entity d) (map pare (d_tuples d)) (map trim (d_notes d))).
Proof.
  intros d (W1 & W2 & W3 & W4 & W5) L. unfold parse_pidf. replace (1048576 <? blen (to_xml d)) with false by (symmetry; now apply N.ltb_ge). rewrite doc_split, entity_read, unescape_escape. unfold pidf_new. assert (K : entity_ok (d_entity d) = true) by now apply named_iff. rewrite K.
  assert (C1 : clear (lit "tuple") (dhead (d_entity d))) by (unfold dhead, NL; clr). assert (C2 : clear (lit "note>") (dhead (d_entity d))) by (unfold dhead, NL; clr). assert (C3 : clear (lit "tuple") (flat_map dnote (d_notes d) ++ dtail)) by (apply clear_app; [apply clear_flat; intros n _; unfold dnote, NL; clr|unfold dtail, NL; clr]). assert (C4 : clear (lit "note>") dtail) by (unfold dtail, NL; clr).
  rewrite tuples_read; cbn [d_entity d_tuples d_notes app]; [|exact C1|exact C3|cbn [List.length]; lia|exact W3|].
  - rewrite Nat.add_0_l. destruct (skip_tuples (d_tuples d) (dhead (d_entity d)) (flat_map dnote (d_notes d) ++ dtail) 0 (Datatypes.S (List.length (dhead (d_entity d) ++ flat_map tuple_xml (d_tuples d) ++ flat_map dnote (d_notes d) ++ dtail))) (spans (List.length (dhead (d_entity d))) (d_tuples d)) (mkPidf (d_entity d) (map pare (d_tuples d)) [])) as (f' & a' & p' & R & Ca & Lf & Lp).
    + exact C2.
    + rewrite Nat.add_0_l. apply incl_refl.
    + lia.
    + rewrite R. apply doc_notes; cbn [d_entity d_tuples d_notes]; [exact Ca|exact C4| |cbn [List.length]; lia|exact W5|exact Lf].
      intros s e I1. apply spans_end in I1. lia.
  - rewrite !app_length. pose proof (flat_len _ tuple_xml (d_tuples d) ltac:(discriminate)). lia.
Qed.
