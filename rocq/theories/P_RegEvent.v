(** Registration event documents: what can be built (C182) and what a reader is told
    (C183). *)
From Coq Require Import Arith NArith Bool String List Lia ZifyBool ZifyN ZifyNat.
Import ListNotations.
From Verif Require Import Base BaseFacts RegEvent RegEventSpec.
Open Scope N_scope.
Open Scope list_scope.

(** ** Reading is a function *)
Lemma sep : forall (c : N) a b r r', ~ In c a -> ~ In c b -> a ++ c :: r = b ++ c :: r' -> a = b /\ r = r'.
Proof.
  intros c. induction a as [|x a IH]; intros [|y b] r r' Ha Hb E; cbn [app] in E.
  - now injection E.
  - injection E as E1 E2. elim Hb. now left.
  - injection E as E1 E2. elim Ha. now left.
  - injection E as E1 E2. destruct (IH b r r' (fun K => Ha (or_intror K)) (fun K => Hb (or_intror K)) E2) as (<- & <-). now subst.
Qed.
Lemma means_no : forall s x, means s x -> ~ In 34 s /\ ~ In 60 s.
Proof.
  intros s x M. induction M as [|c s t H M (IH1 & IH2)|s t M (IH1 & IH2)|s t M (IH1 & IH2)|s t M (IH1 & IH2)|s t M (IH1 & IH2)|s t M (IH1 & IH2)];
  [split; intros []| |..]; [|split; intros K; apply in_app_or in K as [K|K]; [cbn in K; intuition discriminate|now auto|cbn in K; intuition discriminate|now auto]..].
  cbn in H. split; intros [K|K]; [|now auto| |now auto]; subst; apply H; auto.
Qed.
Lemma means_fun : forall s x, means s x -> forall y, means s y -> x = y.
Proof.
  intros s x M. induction M as [|c s t H M IH|s t M IH|s t M IH|s t M IH|s t M IH|s t M IH]; intros y K.
  - inversion K; reflexivity.
  - inversion K as [|c' s' t' H' K'|s' t' K'|s' t' K'|s' t' K'|s' t' K'|s' t' K']; subst; [f_equal; auto|elim H; right; now left..].
  - inversion K as [|c' s' t' H' K'|s' t' K' E|s' t' K' E|s' t' K' E|s' t' K' E|s' t' K' E]; subst; [elim H'; right; now left|]. f_equal. auto.
  - inversion K as [|c' s' t' H' K'|s' t' K' E|s' t' K' E|s' t' K' E|s' t' K' E|s' t' K' E]; subst; [elim H'; right; now left|]. f_equal. auto.
  - inversion K as [|c' s' t' H' K'|s' t' K' E|s' t' K' E|s' t' K' E|s' t' K' E|s' t' K' E]; subst; [elim H'; right; now left|]. f_equal. auto.
  - inversion K as [|c' s' t' H' K'|s' t' K' E|s' t' K' E|s' t' K' E|s' t' K' E|s' t' K' E]; subst; [elim H'; right; now left|]. f_equal. auto.
  - inversion K as [|c' s' t' H' K'|s' t' K' E|s' t' K' E|s' t' K' E|s' t' K' E|s' t' K' E]; subst; [elim H'; right; now left|]. f_equal. auto.
Qed.
Lemma name_no : forall n x, name_like n -> x < 97 -> x <> 45 -> ~ In x n.
Proof. intros n x (_ & H) L K I. apply H in I. lia. Qed.
Lemma attributes_fun : forall s l, attributes s l -> forall k, attributes s k -> l = k.
Proof.
  intros s l A. induction A as [|n v x s l Hn Hv A IH]; intros k K; inversion K as [|n' v' x' s' l' Hn' Hv' A' E]; subst; [reflexivity|].
  apply sep in E as (-> & E); [|apply name_no; [assumption|lia|lia]|apply name_no; [assumption|lia|lia]]. injection E as E. apply sep in E as (-> & ->); [|exact (proj1 (means_no _ _ Hv'))|exact (proj1 (means_no _ _ Hv))].
  rewrite (means_fun _ _ Hv _ Hv'). f_equal. now apply IH.
Qed.
Lemma attributes_start : forall s l, attributes s l -> s = [] \/ exists r, s = 32 :: r.
Proof. intros s l [|n v x r k _ _ _]; [now left|right; eexists; reflexivity]. Qed.
Lemma open_cut : forall n s l n' s' l', name_like n -> name_like n' -> attributes s l -> attributes s' l' -> n ++ s = n' ++ s' -> n = n' /\ s = s'.
Proof.
  intros n s l n' s' l' Hn Hn' A A' E. assert (K : n ++ 32 :: tl s = n' ++ 32 :: tl s' \/ s = [] \/ s' = []) by (destruct (attributes_start _ _ A) as [->|(r & ->)], (attributes_start _ _ A') as [->|(r' & ->)]; auto).
  destruct (attributes_start _ _ A) as [->|(r & ->)], (attributes_start _ _ A') as [->|(r' & ->)].
  - rewrite !app_nil_r in E. auto.
  - rewrite app_nil_r in E. elim (name_no n 32 Hn); [lia|lia|]. rewrite E. apply in_or_app. right. now left.
  - rewrite app_nil_r in E. elim (name_no n' 32 Hn'); [lia|lia|]. rewrite <- E. apply in_or_app. right. now left.
  - apply sep in E as (-> & ->); [auto|apply name_no; [exact Hn|lia|lia]|apply name_no; [exact Hn'|lia|lia]].
Qed.
Lemma name_slash : forall n s m, name_like n -> n ++ s <> lit "/" ++ m.
Proof. intros n s m (H & K) E. destruct n as [|c n]; [now elim H|]. injection E as E _. specialize (K c (or_introl eq_refl)). lia. Qed.
Lemma stands_fun : forall g i, stands_for g i -> forall j, stands_for g j -> i = j.
Proof.
  intros g i S j T. inversion S as [n s l Hn A|n Hn|s x M]; subst; inversion T as [n' s' l' Hn' A' E|n' Hn' E|s' x' M' E]; subst.
  - destruct (open_cut _ _ _ _ _ _ Hn' Hn A' A E) as (-> & ->). f_equal. exact (attributes_fun _ _ A _ A').
  - symmetry in E. now elim (name_slash n s n' Hn).
  - now elim (name_slash n' s' n Hn').
  - reflexivity.
  - f_equal. exact (means_fun _ _ M _ M').
Qed.
Lemma reads_fun : forall l a, reads l a -> forall b, reads l b -> a = b.
Proof.
  intros l a R. induction R as [w W|w g i l r W S T R IH|w g n s y h l r W S T Sy Sh R IH]; intros b Rb.
  - inversion Rb. reflexivity.
  - inversion Rb as [|w' g' i' l' r' W' S' T' R'|w' g' n' s' y' h' l' r' W' S' T' Sy' Sh' R']; subst.
    + rewrite (stands_fun _ _ S _ S'). f_equal. now apply IH.
    + elim (T n' []); [exact (stands_fun _ _ S _ S')|exact T'].
  - inversion Rb as [|w' g' i' l' r' W' S' T' R'|w' g' n' s' y' h' l' r' W' S' T' Sy' Sh' R']; subst.
    + elim (T' n []); [exact (stands_fun _ _ S' _ S)|exact T].
    + pose proof (stands_fun _ _ S _ S') as E. injection E as <-. rewrite (stands_fun _ _ Sy _ Sy'). do 3 f_equal. now apply IH.
Qed.
Lemma document_fun : forall t a b, document t a -> document t b -> a = b.
Proof. intros t a b (l & C & R) (l' & C' & R'). rewrite C in C'. injection C' as <-. exact (reads_fun _ _ R _ R'). Qed.

(** ** Cutting *)
Lemma cut_text : forall s a r, ~ In 60 s -> cut InText a (s ++ 60 :: r) = option_map (cons (Text (a ++ s))) (cut InTag [] r).
Proof.
  induction s as [|c s IH]; intros a r H; [rewrite app_nil_r; reflexivity|]. cbn [app cut]. replace (c =? 60) with false by (symmetry; apply N.eqb_neq; intros ->; apply H; now left). rewrite IH by (intros K; apply H; now right). now rewrite <- app_assoc.
Qed.
Lemma cut_end : forall s a, ~ In 60 s -> cut InText a s = Some [Text (a ++ s)].
Proof.
  induction s as [|c s IH]; intros a H; [now rewrite app_nil_r|]. cbn [cut]. replace (c =? 60) with false by (symmetry; apply N.eqb_neq; intros ->; apply H; now left). rewrite IH by (intros K; apply H; now right). now rewrite <- app_assoc.
Qed.
Definition tagged (s : str) : Prop := forall a r, cut InTag a (s ++ r) = cut InTag (a ++ s) r.
Lemma tagged_app : forall s t, tagged s -> tagged t -> tagged (s ++ t).
Proof. intros s t S T a r. rewrite <- app_assoc, S, T. now rewrite <- app_assoc. Qed.
Lemma tagged_nil : tagged []. Proof. intros a r. now rewrite app_nil_r. Qed.
Lemma tagged_plain : forall s, ~ In 62 s -> ~ In 34 s -> tagged s.
Proof.
  induction s as [|c s IH]; intros H K; [apply tagged_nil|]. intros a r. cbn [app cut]. replace (c =? 62) with false by (symmetry; apply N.eqb_neq; intros ->; apply H; now left). replace (c =? 34) with false by (symmetry; apply N.eqb_neq; intros ->; apply K; now left).
  pose proof (IH (fun X => H (or_intror X)) (fun X => K (or_intror X))) as T. rewrite (T (a ++ [c]) r). now rewrite <- app_assoc.
Qed.
Lemma cut_value : forall v a r, ~ In 34 v -> cut InValue a (v ++ 34 :: r) = cut InTag (a ++ v ++ [34]) r.
Proof.
  induction v as [|c v IH]; intros a r H; [reflexivity|]. cbn [app cut]. replace (c =? 34) with false by (symmetry; apply N.eqb_neq; intros ->; apply H; now left). rewrite IH by (intros X; apply H; now right). now rewrite <- app_assoc.
Qed.
Lemma tagged_quoted : forall v, ~ In 34 v -> tagged (34 :: v ++ [34]).
Proof. intros v H a r. cbn [app]. rewrite <- app_assoc. cbn [app cut]. change (34 =? 62) with false. change (34 =? 34) with true. cbv iota. rewrite cut_value by exact H. now rewrite <- app_assoc. Qed.
Lemma tagged_name : forall n, name_like n -> tagged n.
Proof. intros n H. apply tagged_plain; apply name_no; try exact H; lia. Qed.
Lemma tagged_attributes : forall s l, attributes s l -> tagged s.
Proof.
  intros s l A. induction A as [|n v x s l Hn Hv A IH]; [apply tagged_nil|]. replace (lit " " ++ n ++ lit "=""" ++ v ++ lit """" ++ s) with ([32] ++ n ++ [61] ++ (34 :: v ++ [34]) ++ s) by (cbn [lit app]; now rewrite <- app_assoc).
  apply tagged_app; [apply tagged_plain; cbn; intuition discriminate|]. apply tagged_app; [now apply tagged_name|]. apply tagged_app; [apply tagged_plain; cbn; intuition discriminate|]. apply tagged_app; [|exact IH]. apply tagged_quoted. exact (proj1 (means_no _ _ Hv)).
Qed.
Lemma tagged_item : forall b i, stands_for (Tag b) i -> tagged b.
Proof.
  intros b i S. inversion S as [n s l Hn A|n Hn|]; subst; [apply tagged_app; [now apply tagged_name|exact (tagged_attributes _ _ A)]|]. apply (tagged_app (lit "/") n); [apply tagged_plain; cbn; intuition discriminate|now apply tagged_name].
Qed.
Lemma cut_tag : forall b r, tagged b -> cut InTag [] (b ++ 62 :: r) = option_map (cons (Tag b)) (cut InText [] r).
Proof. intros b r T. rewrite T. reflexivity. Qed.

(** what is read from the text [t] when [a] has been seen since the last tag *)
Definition told (a t : str) (r : list item) : Prop := exists l, cut InText a t = Some l /\ reads l r.
Lemma blank_app : forall a b, blank a -> blank b -> blank (a ++ b).
Proof. intros a b A B c H. apply in_app_or in H as [H|H]; auto. Qed.
Lemma blank_no : forall w, blank w -> ~ In 60 w.
Proof. intros w W H. apply W in H. lia. Qed.
Lemma told_end : forall a w, blank a -> blank w -> told a w [].
Proof. intros a w A W. exists [Text (a ++ w)]. split; [apply cut_end; now apply blank_no|]. apply rd_end. now apply blank_app. Qed.
Lemma told_tag : forall t w b r i k, t = w ++ 60 :: b ++ 62 :: r -> blank w -> stands_for (Tag b) i -> (forall n a, i = Open n a -> ~ texted n) -> (forall a, blank a -> told a r k) -> forall a, blank a -> told a t (i :: k).
Proof.
  intros t w b r i k -> W S T R a A. destruct (R [] (fun c H => match H with end)) as (l & C & Rl). exists (Text (a ++ w) :: Tag b :: l). split; [|apply rd_tag; [now apply blank_app|exact S|exact T|exact Rl]].
  rewrite cut_text by now apply blank_no. rewrite cut_tag by exact (tagged_item _ _ S). now rewrite C.
Qed.
Lemma told_leaf : forall t w n s x r k, t = w ++ 60 :: n ++ 62 :: s ++ 60 :: (lit "/" ++ n) ++ 62 :: r -> blank w -> name_like n -> texted n -> means s x -> (forall a, blank a -> told a r k) -> forall a, blank a -> told a t (leaf n x ++ k).
Proof.
  intros t w n s x r k -> W Hn T M R a A. destruct (R [] (fun c H => match H with end)) as (l & C & Rl). exists (Text (a ++ w) :: Tag n :: Text s :: Tag (lit "/" ++ n) :: l).
  assert (So : stands_for (Tag n) (Open n [])) by (rewrite <- (app_nil_r n) at 1; apply sf_open; [exact Hn|constructor]). assert (Sc : stands_for (Tag (lit "/" ++ n)) (Close n)) by now apply sf_close.
  split; [|apply rd_leaf; [now apply blank_app|exact So|exact T|now apply sf_chars|exact Sc|exact Rl]].
  rewrite cut_text by now apply blank_no. rewrite cut_tag by exact (tagged_item _ _ So). rewrite cut_text by exact (proj2 (means_no _ _ M)). rewrite cut_tag by exact (tagged_item _ _ Sc). now rewrite C.
Qed.

(** ** What the writer writes *)
Lemma esc_means : forall s, means (escape s) s.
Proof.
  induction s as [|c s IH]; [constructor|]. change (escape (c :: s)) with (escape_c c ++ escape s). unfold escape_c.
  destruct (c =? 60) eqn:E1; [apply N.eqb_eq in E1; subst c; now apply m_lt|]. destruct (c =? 62) eqn:E2; [apply N.eqb_eq in E2; subst c; now apply m_gt|]. destruct (c =? 38) eqn:E3; [apply N.eqb_eq in E3; subst c; now apply m_amp|].
  destruct (c =? 34) eqn:E4; [apply N.eqb_eq in E4; subst c; now apply m_quot|]. destruct (c =? 39) eqn:E5; [apply N.eqb_eq in E5; subst c; now apply m_apos|]. apply m_char; [|exact IH]. cbn. lia.
Qed.
Lemma means_plain : forall s, (forall c, In c s -> ~ In c (lit "<&""")) -> means s s.
Proof. induction s as [|c s IH]; intros H; [constructor|]. apply m_char; [apply H; now left|]. apply IH. intros x X. apply H. now right. Qed.
Lemma means_word : forall s, forallb (fun c => negb (mem c (lit "<&"""))) s = true -> means s s.
Proof. intros s H. apply means_plain. intros c C K. rewrite forallb_forall in H. apply H in C. apply mem_In in K. rewrite K in C. discriminate. Qed.
Lemma means_number : forall n, means (print_N n) (print_N n).
Proof. intros n. apply means_plain. intros c H. apply print_N_digits in H. cbn. lia. Qed.
Lemma means_decimal : forall s, decimal s -> means s s.
Proof. intros s D. apply means_plain. intros c H. apply D in H. cbn in H. cbn. lia. Qed.
Lemma name_by : forall n, forallb (fun c => in_range 97 122 c || (c =? 45)) n = true -> n <> [] -> name_like n.
Proof. intros n H K. split; [exact K|]. intros c C. rewrite forallb_forall in H. apply H in C. unfold in_range in C. lia. Qed.
Ltac named := apply name_by; [reflexivity|discriminate].
Lemma at_one : forall n v x s l, name_like n -> means v x -> attributes s l -> attributes (attr n v ++ s) ((n, x) :: l).
Proof. intros n v x s l Hn M A. unfold attr. rewrite <- !app_assoc. now apply at_more. Qed.
Lemma at_opt : forall A n (f g : A -> str) o s l, name_like n -> (forall v, o = Some v -> means (f v) (g v)) -> attributes s l -> attributes (opt_attr n (option_map f o) ++ s) (some n g o ++ l).
Proof. intros A n f g [v|] s l Hn M H; [|exact H]. apply at_one; [exact Hn|now apply M|exact H]. Qed.
Definition contact_attrs (c : contact) : str :=
  attr (lit "id") (escape (c_id c)) ++ attr (lit "state") (con_state_text (c_state c))
  ++ opt_attr (lit "event") (option_map event_text (c_event c)) ++ opt_attr (lit "expires") (option_map print_N (c_expires c))
  ++ opt_attr (lit "retry-after") (option_map print_N (c_retry c)) ++ opt_attr (lit "duration-registered") (option_map print_N (c_duration c))
  ++ opt_attr (lit "q") (option_map shown (c_q c)) ++ opt_attr (lit "callid") (option_map escape (c_call c)) ++ opt_attr (lit "cseq") (option_map print_N (c_cseq c)) ++ [].
Definition contact_list (c : contact) : list (str * str) :=
  [(lit "id", c_id c); (lit "state", con_state_text (c_state c))] ++ some (lit "event") event_text (c_event c) ++ some (lit "expires") print_N (c_expires c)
     ++ some (lit "retry-after") print_N (c_retry c) ++ some (lit "duration-registered") print_N (c_duration c) ++ some (lit "q") shown (c_q c)
     ++ some (lit "callid") (fun s => s) (c_call c) ++ some (lit "cseq") print_N (c_cseq c) ++ [].
Lemma contact_attributes : forall c, good_contact c -> attributes (contact_attrs c) (contact_list c).
Proof.
  intros c (_ & _ & _ & _ & Q). unfold contact_attrs, contact_list. cbn [app]. apply at_one; [named|apply esc_means|]. apply at_one; [named|destruct (c_state c); now apply means_word|].
  apply at_opt; [named|intros e _; destruct e; now apply means_word|]. apply at_opt; [named|intros; apply means_number|]. apply at_opt; [named|intros; apply means_number|]. apply at_opt; [named|intros; apply means_number|].
  apply at_opt; [named|intros q E; apply means_decimal, (Q q E)|]. apply at_opt; [named|intros; apply esc_means|]. apply at_opt; [named|intros; apply means_number|]. constructor.
Qed.
Lemma blank_by : forall w, forallb (fun c => (c =? 32) || (c =? 10)) w = true -> blank w.
Proof. intros w H c C. rewrite forallb_forall in H. apply H in C. lia. Qed.
Ltac blanks := apply blank_by; reflexivity.
Ltac untexted := let E := fresh in let K := fresh in intros ? ? E [K|K]; rewrite K in E; discriminate.
Lemma close_named : forall n, name_like n -> stands_for (Tag (lit "/" ++ n)) (Close n).
Proof. intros n H. now apply sf_close. Qed.
Lemma told_contact : forall c r k, good_contact c -> (forall a, blank a -> told a r k) -> forall a, blank a -> told a (contact_xml c ++ r) (contact_items c ++ k).
Proof.
  intros c r k G R. assert (R1 : forall a, blank a -> told a (NL ++ lit "    </contact>" ++ NL ++ r) (Close (lit "contact") :: k)).
  { apply (told_tag _ (NL ++ lit "    ") (lit "/contact") (NL ++ r)); [reflexivity|blanks|apply (close_named (lit "contact")); named|untexted|]. intros a A. destruct (R (a ++ NL)) as (l & C & Rl); [apply blank_app; [exact A|blanks]|]. now exists l. }
  assert (R2 : forall a, blank a -> told a (NL ++ match c_name c with Some n => lit "      <display-name>" ++ escape n ++ lit "</display-name>" ++ NL | None => [] end ++ lit "    </contact>" ++ NL ++ r) (match c_name c with Some n => leaf (lit "display-name") n | None => [] end ++ Close (lit "contact") :: k)).
  { destruct (c_name c) as [n|]; [|exact R1]. apply (told_leaf _ (NL ++ lit "      ") (lit "display-name") (escape n) n (NL ++ lit "    </contact>" ++ NL ++ r)); [|blanks|named|now right|apply esc_means|exact R1]. rewrite <- !app_assoc. reflexivity. }
  replace (contact_items c ++ k) with (Open (lit "contact") (contact_list c) :: leaf (lit "uri") (c_uri c) ++ match c_name c with Some n => leaf (lit "display-name") n | None => [] end ++ Close (lit "contact") :: k)
    by (unfold contact_items, contact_list; rewrite app_nil_r; cbn [app]; rewrite <- !app_assoc; reflexivity).
  apply (told_tag _ (lit "    ") (lit "contact" ++ contact_attrs c) (NL ++ lit "      <uri>" ++ escape (c_uri c) ++ lit "</uri>" ++ NL
    ++ match c_name c with Some n => lit "      <display-name>" ++ escape n ++ lit "</display-name>" ++ NL | None => [] end ++ lit "    </contact>" ++ NL ++ r));
    [|blanks|apply sf_open; [named|now apply contact_attributes]|untexted|].
  { unfold contact_xml, contact_attrs. rewrite app_nil_r, <- !app_assoc. reflexivity. }
  apply (told_leaf _ (NL ++ lit "      ") (lit "uri") (escape (c_uri c)) (c_uri c) (NL ++ match c_name c with Some n => lit "      <display-name>" ++ escape n ++ lit "</display-name>" ++ NL | None => [] end ++ lit "    </contact>" ++ NL ++ r)); [reflexivity|blanks|named|now left|apply esc_means|exact R2].
Qed.
Lemma told_contacts : forall cs r k, (forall c, In c cs -> good_contact c) -> (forall a, blank a -> told a r k) -> forall a, blank a -> told a (flat_map contact_xml cs ++ r) (flat_map contact_items cs ++ k).
Proof.
  induction cs as [|c cs IH]; intros r k G R; [exact R|]. cbn [flat_map]. rewrite <- !app_assoc. apply told_contact; [apply G; now left|]. apply IH; [intros x X; apply G; now right|exact R].
Qed.
Lemma told_nl : forall t k, (forall a, blank a -> told a t k) -> forall a, blank a -> told a (NL ++ t) k.
Proof. intros t k R a A. destruct (R (a ++ NL)) as (l & C & Rl); [apply blank_app; [exact A|blanks]|]. now exists l. Qed.
Lemma told_reg : forall g r k, good_reg g -> (forall a, blank a -> told a r k) -> forall a, blank a -> told a (reg_xml g ++ r) (reg_items g ++ k).
Proof.
  intros g r k (_ & _ & _ & G) R.
  replace (reg_items g ++ k) with (Open (lit "registration") [(lit "aor", r_aor g); (lit "id", r_id g); (lit "state", reg_state_text (r_state g))] :: flat_map contact_items (r_contacts g) ++ Close (lit "registration") :: k) by (unfold reg_items; cbn [app]; rewrite <- !app_assoc; reflexivity).
  apply (told_tag _ (lit "  ") (lit "registration" ++ attr (lit "aor") (escape (r_aor g)) ++ attr (lit "id") (escape (r_id g)) ++ attr (lit "state") (reg_state_text (r_state g)) ++ []) (NL ++ flat_map contact_xml (r_contacts g) ++ lit "  </registration>" ++ NL ++ r)); [|blanks| |untexted|].
  - unfold reg_xml. rewrite app_nil_r, <- !app_assoc. reflexivity.
  - apply sf_open; [named|]. apply at_one; [named|apply esc_means|]. apply at_one; [named|apply esc_means|]. apply at_one; [named|destruct (r_state g); now apply means_word|constructor].
  - apply told_nl, told_contacts; [exact G|]. apply (told_tag _ (lit "  ") (lit "/registration") (NL ++ r)); [reflexivity|blanks|apply (close_named (lit "registration")); named|untexted|]. now apply told_nl.
Qed.
Lemma told_regs : forall gs r k, (forall g, In g gs -> good_reg g) -> (forall a, blank a -> told a r k) -> forall a, blank a -> told a (flat_map reg_xml gs ++ r) (flat_map reg_items gs ++ k).
Proof.
  induction gs as [|c cs IH]; intros r k G R; [exact R|]. cbn [flat_map]. rewrite <- !app_assoc. apply told_reg; [apply G; now left|]. apply IH; [intros x X; apply G; now right|exact R].
Qed.
Lemma prolog : forall t, cut InText [] (lit "<?xml version=""1.0""?>" ++ t) = option_map (cons (Text [])) (option_map (cons (Tag (lit "?xml version=""1.0""?"))) (cut InText [] t)).
Proof. reflexivity. Qed.
Lemma told_info : forall d, within d -> document (to_xml d) (items d).
Proof.
  intros d (_ & G).
  assert (R : told [] (NL ++ lit "<reginfo" ++ attr (lit "xmlns") (lit "urn:ietf:params:xml:ns:reginfo") ++ attr (lit "version") (print_N (i_version d)) ++ attr (lit "state") (doc_state_text (i_state d)) ++ lit ">" ++ NL ++ flat_map reg_xml (i_regs d) ++ lit "</reginfo>" ++ NL) (items d)).
  { unfold items. refine (told_tag _ NL (lit "reginfo" ++ attr (lit "xmlns") (lit "urn:ietf:params:xml:ns:reginfo") ++ attr (lit "version") (print_N (i_version d)) ++ attr (lit "state") (doc_state_text (i_state d)) ++ []) (NL ++ flat_map reg_xml (i_regs d) ++ lit "</reginfo>" ++ NL) _ _ _ _ _ _ _ [] (fun c H => match H with end)); [|blanks| |untexted|].
    - rewrite app_nil_r, <- !app_assoc. reflexivity.
    - apply sf_open; [named|]. apply at_one; [named|now apply means_word|]. apply at_one; [named|apply means_number|]. apply at_one; [named|destruct (i_state d); now apply means_word|constructor].
    - apply told_nl, told_regs; [exact G|]. apply (told_tag _ [] (lit "/reginfo") NL); [reflexivity|intros c []|apply (close_named (lit "reginfo")); named|untexted|]. intros a A. apply told_end; [exact A|blanks]. }
  destruct R as (l & C & R). exists l. split; [|exact R]. unfold to_xml.
  rewrite prolog. now rewrite C.
Qed.

(** ** What can be built *)
Lemma plain_iff : forall n s, (blen s <=? n) && negb (existsb is_ascii_control s) = true <-> plain n s.
Proof.
  intros n s. unfold plain. rewrite andb_true_iff, negb_true_iff, N.leb_le. split; intros (H & K); split; try exact H.
  - intros c C. assert (X : is_ascii_control c = false). { destruct (is_ascii_control c) eqn:E; [|reflexivity]. rewrite <- K. symmetry. apply existsb_exists. now exists c. } unfold is_ascii_control in X. lia.
  - destruct (existsb is_ascii_control s) eqn:E; [|reflexivity]. apply existsb_exists in E as (c & C & X). apply K in C. unfold is_ascii_control in X. lia.
Qed.
Lemma filled_iff : forall n s, negb (str_eqb s []) && (blen s <=? n) && negb (existsb is_ascii_control s) = true <-> s <> [] /\ plain n s.
Proof.
  intros n s. rewrite <- andb_assoc, andb_true_iff, plain_iff. apply and_iff_compat_r. destruct s; cbn; split; intros H; try discriminate; try reflexivity. now elim H.
Qed.
Lemma contact_good : forall c, contact_built c -> good_contact c.
Proof.
  intros c B. induction B as [i s u c E|c e B (G1 & G2 & G3 & G4 & G5)|c n B (G1 & G2 & G3 & G4 & G5)|c n B (G1 & G2 & G3 & G4 & G5)|c n B (G1 & G2 & G3 & G4 & G5)|c n B (G1 & G2 & G3 & G4 & G5)|c n c' B (G1 & G2 & G3 & G4 & G5) E|c n c' B (G1 & G2 & G3 & G4 & G5) E|c q c' B (G1 & G2 & G3 & G4 & G5) D E]; try exact (conj G1 (conj G2 (conj G3 (conj G4 G5)))).
  - unfold contact_new in E. destruct (id_ok i && uri_ok u) eqn:K; [|discriminate]. injection E as <-. apply andb_true_iff in K as (K1 & K2). refine (conj (proj1 (filled_iff _ _) K1) (conj (proj1 (filled_iff _ _) K2) (conj _ (conj _ _)))); cbn; discriminate.
  - unfold with_name in E. destruct (name_ok n) eqn:K; [|discriminate]. injection E as <-. refine (conj G1 (conj G2 (conj _ (conj G4 G5)))). intros m M. injection M as <-. now apply plain_iff.
  - unfold with_call in E. destruct (call_ok n) eqn:K; [|discriminate]. injection E as <-. refine (conj G1 (conj G2 (conj G3 (conj _ G5)))). intros m M. injection M as <-. now apply filled_iff.
  - unfold with_q in E. destruct (in_unit q) eqn:K; [|discriminate]. injection E as <-. refine (conj G1 (conj G2 (conj G3 (conj G4 _)))). intros m M. injection M as <-. now split.
Qed.
Lemma reg_good : forall r, reg_built r -> good_reg r.
Proof.
  intros r B. induction B as [a i s r E|r c r' B (G1 & G2 & G3 & G4) C E].
  - unfold reg_new in E. destruct (uri_ok a && id_ok i) eqn:K; [|discriminate]. injection E as <-. apply andb_true_iff in K as (K1 & K2). refine (conj (proj1 (filled_iff _ _) K1) (conj (proj1 (filled_iff _ _) K2) (conj _ _))); cbn; [lia|intros c []].
  - unfold add_contact in E. destruct (50 <=? llen (r_contacts r)) eqn:L; [discriminate|]. injection E as <-. refine (conj G1 (conj G2 (conj _ _))); cbn [r_contacts]; [rewrite app_length; unfold llen in L; cbn [List.length]; lia|]. intros x X. apply in_app_or in X as [X|[<-|[]]]; [now apply G4|now apply contact_good].
Qed.
Lemma info_good : forall d, built d -> within d.
Proof.
  intros d B. induction B as [v s V|d r d' B (G1 & G2) R E]; [split; cbn; [lia|intros r []]|]. unfold add_registration in E. destruct (100 <=? llen (i_regs d)) eqn:L; [discriminate|]. injection E as <-. split; cbn [i_regs]; [rewrite app_length; unfold llen in L; cbn [List.length]; lia|]. intros x X. apply in_app_or in X as [X|[<-|[]]]; [now apply G2|now apply reg_good].
Qed.

(** ** C182 *)
(** everything that is built is within the limits *)
Theorem C182_limits : forall d, built d -> within d.
Proof. exact info_good. Qed.
Print Assumptions C182_limits.
(** ... and exactly that is accepted: contacts *)
Theorem C182_contact : forall i s u,
  (contact_new i s u <> None <-> (i <> [] /\ plain 128 i) /\ (u <> [] /\ plain 512 u))
  /\ forall c, contact_new i s u = Some c -> c_id c = i /\ c_state c = s /\ c_uri c = u /\ c_event c = None /\ c_name c = None /\ c_expires c = None /\ c_retry c = None /\ c_duration c = None /\ c_q c = None /\ c_call c = None /\ c_cseq c = None.
Proof.
  intros i s u. rewrite <- !filled_iff, <- andb_true_iff. change (negb (str_eqb i []) && (blen i <=? 128) && negb (existsb is_ascii_control i)) with (id_ok i). change (negb (str_eqb u []) && (blen u <=? 512) && negb (existsb is_ascii_control u)) with (uri_ok u).
  unfold contact_new. destruct (id_ok i && uri_ok u); split; [intuition discriminate| |intuition discriminate|discriminate]. intros c E. injection E as <-. repeat split.
Qed.
Print Assumptions C182_contact.
(** each builder sets its own field and leaves the others *)
Definition view (c : contact) := (c_id c, c_state c, c_uri c, c_event c, c_name c, (c_expires c, c_retry c, c_duration c, c_q c, c_call c, c_cseq c)).
Theorem C182_set : forall c,
  (forall e, view (with_event c e) = (c_id c, c_state c, c_uri c, Some e, c_name c, (c_expires c, c_retry c, c_duration c, c_q c, c_call c, c_cseq c)))
  /\ (forall n, view (with_expires c n) = (c_id c, c_state c, c_uri c, c_event c, c_name c, (Some n, c_retry c, c_duration c, c_q c, c_call c, c_cseq c)))
  /\ (forall n, view (with_retry c n) = (c_id c, c_state c, c_uri c, c_event c, c_name c, (c_expires c, Some n, c_duration c, c_q c, c_call c, c_cseq c)))
  /\ (forall n, view (with_duration c n) = (c_id c, c_state c, c_uri c, c_event c, c_name c, (c_expires c, c_retry c, Some n, c_q c, c_call c, c_cseq c)))
  /\ (forall n, view (with_cseq c n) = (c_id c, c_state c, c_uri c, c_event c, c_name c, (c_expires c, c_retry c, c_duration c, c_q c, c_call c, Some n)))
  /\ (forall n c', with_name c n = Some c' <-> plain 256 n /\ view c' = (c_id c, c_state c, c_uri c, c_event c, Some n, (c_expires c, c_retry c, c_duration c, c_q c, c_call c, c_cseq c)))
  /\ (forall i c', with_call c i = Some c' <-> (i <> [] /\ plain 256 i) /\ view c' = (c_id c, c_state c, c_uri c, c_event c, c_name c, (c_expires c, c_retry c, c_duration c, c_q c, Some i, c_cseq c)))
  /\ (forall q c', with_q c q = Some c' <-> in_unit q = true /\ view c' = (c_id c, c_state c, c_uri c, c_event c, c_name c, (c_expires c, c_retry c, c_duration c, Some q, c_call c, c_cseq c))).
Proof.
  intros c. do 5 (split; [reflexivity|]). refine (conj _ (conj _ _)).
  - intros n c'. rewrite <- plain_iff. change ((blen n <=? 256) && negb (existsb is_ascii_control n)) with (name_ok n). unfold with_name. destruct (name_ok n); [|intuition discriminate]. split; [intros E; injection E as <-; now split|]. intros (_ & E). destruct c'. unfold view in E. cbn in E. injection E as -> -> -> -> -> -> -> -> -> -> ->. reflexivity.
  - intros n c'. rewrite <- filled_iff. change (negb (str_eqb n []) && (blen n <=? 256) && negb (existsb is_ascii_control n)) with (call_ok n). unfold with_call. destruct (call_ok n); [|intuition discriminate]. split; [intros E; injection E as <-; now split|]. intros (_ & E). destruct c'. unfold view in E. cbn in E. injection E as -> -> -> -> -> -> -> -> -> -> ->. reflexivity.
  - intros n c'. unfold with_q. destruct (in_unit n); [|intuition discriminate]. split; [intros E; injection E as <-; now split|]. intros (_ & E). destruct c'. unfold view in E. cbn in E. injection E as -> -> -> -> -> -> -> -> -> -> ->. reflexivity.
Qed.
Print Assumptions C182_set.
(** ... registrations and documents: what is added goes behind what is there *)
Theorem C182_add :
  (forall a i s r, reg_new a i s = Some r <-> ((a <> [] /\ plain 512 a) /\ (i <> [] /\ plain 128 i)) /\ r_aor r = a /\ r_id r = i /\ r_state r = s /\ r_contacts r = [])
  /\ (forall r c r', add_contact r c = Some r' <-> (List.length (r_contacts r) < 50)%nat /\ r_aor r' = r_aor r /\ r_id r' = r_id r /\ r_state r' = r_state r /\ r_contacts r' = r_contacts r ++ [c])
  /\ (forall v s, i_version (info_new v s) = v /\ i_state (info_new v s) = s /\ i_regs (info_new v s) = [])
  /\ (forall d r d', add_registration d r = Some d' <-> (List.length (i_regs d) < 100)%nat /\ i_version d' = i_version d /\ i_state d' = i_state d /\ i_regs d' = i_regs d ++ [r]).
Proof.
  refine (conj _ (conj _ (conj _ _))).
  - intros a i s r. rewrite <- !filled_iff, <- andb_true_iff. change (negb (str_eqb i []) && (blen i <=? 128) && negb (existsb is_ascii_control i)) with (id_ok i). change (negb (str_eqb a []) && (blen a <=? 512) && negb (existsb is_ascii_control a)) with (uri_ok a).
    unfold reg_new. destruct (uri_ok a && id_ok i); [|intuition discriminate]. split; [intros E; injection E as <-; repeat split|]. intros (_ & E1 & E2 & E3 & E4). destruct r. cbn in *. now subst.
  - intros r c r'. unfold add_contact. destruct (50 <=? llen (r_contacts r)) eqn:L; unfold llen in L; split; [discriminate|intros (K & _); lia|intros E; injection E as <-; repeat split; lia|]. intros (_ & E1 & E2 & E3 & E4). destruct r'. cbn in *. now subst.
  - intros v s. repeat split.
  - intros d r d'. unfold add_registration. destruct (100 <=? llen (i_regs d)) eqn:L; unfold llen in L; split; [discriminate|intros (K & _); lia|intros E; injection E as <-; repeat split; lia|]. intros (_ & E1 & E2 & E3). destruct d'. cbn in *. now subst.
Qed.
Print Assumptions C182_add.
(** an event is read from its own word only, and every event has a word of its own *)
Theorem C182_event : forall s e, event_of s = Some e <-> s = event_text e.
Proof.
  intros s e. split; [|intros ->; now destruct e]. unfold event_of.
  repeat match goal with |- (if ?b then _ else _) = _ -> _ => let E := fresh "E" in destruct b eqn:E; [intros K; injection K as <-; exact (proj1 (str_eqb_spec _ _) E)|clear E] end. discriminate.
Qed.
Print Assumptions C182_event.

(** ** C183 *)
(** a reader of XML is told what was put in, and nothing else *)
Theorem C183_told : forall d r, built d -> (document (to_xml d) r <-> r = items d).
Proof.
  intros d r B. apply info_good, told_info in B. split; [intros R; exact (document_fun _ _ _ R B)|now intros ->].
Qed.
Print Assumptions C183_told.

(** *** documents that differ are written differently *)
Fixpoint seek (n : str) (l : list (str * str)) : option str := match l with [] => None | (m, v) :: r => if str_eqb m n then Some v else seek n r end.
Lemma event_inj : forall a b, option_map event_text a = option_map event_text b -> a = b.
Proof. intros [[]|] [[]|] E; try reflexivity; discriminate. Qed.
Lemma number_inj : forall a b, option_map print_N a = option_map print_N b -> a = b.
Proof. intros [a|] [b|] E; try reflexivity; try discriminate. injection E as E. f_equal. now apply print_N_inj. Qed.
Lemma con_state_inj : forall a b, con_state_text a = con_state_text b -> a = b.
Proof. intros [] [] E; try reflexivity; discriminate. Qed.
Lemma reg_state_inj : forall a b, reg_state_text a = reg_state_text b -> a = b.
Proof. intros [] [] E; try reflexivity; discriminate. Qed.
Lemma doc_state_inj : forall a b, doc_state_text a = doc_state_text b -> a = b.
Proof. intros [] [] E; try reflexivity; discriminate. Qed.
Lemma seek_some : forall A n m (f : A -> str) o l, seek n (some m f o ++ l) = if str_eqb m n then match o with Some v => Some (f v) | None => seek n l end else seek n l.
Proof. intros A n m f [v|] l; cbn [some app seek]; now destruct (str_eqb m n). Qed.
Lemma seek_contact : forall c, seek (lit "id") (contact_list c) = Some (c_id c) /\ seek (lit "state") (contact_list c) = Some (con_state_text (c_state c))
  /\ seek (lit "event") (contact_list c) = option_map event_text (c_event c) /\ seek (lit "expires") (contact_list c) = option_map print_N (c_expires c)
  /\ seek (lit "retry-after") (contact_list c) = option_map print_N (c_retry c) /\ seek (lit "duration-registered") (contact_list c) = option_map print_N (c_duration c)
  /\ seek (lit "q") (contact_list c) = option_map shown (c_q c) /\ seek (lit "callid") (contact_list c) = c_call c /\ seek (lit "cseq") (contact_list c) = option_map print_N (c_cseq c).
Proof.
  intros c. unfold contact_list. repeat split; try reflexivity;
  cbn [app]; match goal with |- seek ?n ((?a, ?u) :: (?b, ?v) :: ?l) = _ => change (seek n ((a, u) :: (b, v) :: l)) with (seek n l) end;
  rewrite !seek_some; repeat match goal with |- context [str_eqb (lit ?a) (lit ?b)] => let v := eval vm_compute in (str_eqb (lit a) (lit b)) in change (str_eqb (lit a) (lit b)) with v; cbv iota end;
  match goal with |- match ?o with _ => _ end = _ => now destruct o end.
Qed.
(** the same contact but for what is not written of a weight *)
Definition same_q (a b : option real) : Prop := option_map shown a = option_map shown b.
Lemma real_eq : forall a b, (forall q, a = Some q -> in_unit q = true) -> (forall q, b = Some q -> in_unit q = true) -> same_q a b -> a = b.
Proof. intros [[a s]|] [[b t]|] A B E; try reflexivity; try discriminate. injection E as E. specialize (A _ eq_refl). specialize (B _ eq_refl). cbn in A, B, E. now subst. Qed.
Lemma contact_inj : forall c c' r r', good_contact c -> good_contact c' -> contact_items c ++ r = contact_items c' ++ r' -> c = c' /\ r = r'.
Proof.
  intros c c' r r' G G' E.
  assert (U : forall x k, contact_items x ++ k = Open (lit "contact") (contact_list x) :: Open (lit "uri") [] :: Chars (c_uri x) :: Close (lit "uri") :: match c_name x with Some n => leaf (lit "display-name") n | None => [] end ++ Close (lit "contact") :: k)
    by (intros x k; unfold contact_items, contact_list; rewrite app_nil_r; cbn [app leaf]; rewrite <- !app_assoc; reflexivity).
  rewrite !U in E. pose proof (f_equal (fun l => match l with Open _ a :: _ => a | _ => [] end) E) as E1. pose proof (f_equal (fun l => match l with _ :: _ :: Chars u :: _ => u | _ => [] end) E) as E2. pose proof (f_equal (skipn 4) E) as E3. cbn [skipn] in E1, E2, E3. cbv beta iota in E1, E2. clear E.
  destruct (seek_contact c) as (A1 & A2 & A3 & A4 & A5 & A6 & A7 & A8 & A9). destruct (seek_contact c') as (B1 & B2 & B3 & B4 & B5 & B6 & B7 & B8 & B9). rewrite E1 in *.
  assert (F : c_name c = c_name c' /\ r = r').
  { destruct (c_name c) as [n|], (c_name c') as [n'|]; cbn [leaf app] in E3; try discriminate; [injection E3 as -> ->; now split|injection E3 as ->; now split]. }
  destruct F as (F & ->). split; [|reflexivity]. rewrite A1 in B1. rewrite A2 in B2. rewrite A3 in B3. rewrite A4 in B4. rewrite A5 in B5. rewrite A6 in B6. rewrite A7 in B7. rewrite A8 in B8. rewrite A9 in B9.
  injection B1 as B1. injection B2 as B2. apply con_state_inj in B2. apply event_inj in B3. apply number_inj in B4, B5, B6, B9. destruct G as (_ & _ & _ & _ & G), G' as (_ & _ & _ & _ & G'). assert (Q : c_q c = c_q c') by exact (real_eq _ _ (fun q X => proj1 (G q X)) (fun q X => proj1 (G' q X)) B7). clear - B1 B2 B3 B4 B5 B6 Q B8 B9 F E2. destruct c, c'. cbn in *. subst. reflexivity.
Qed.
Lemma contacts_inj : forall l l' r r' n, (forall c, In c l -> good_contact c) -> (forall c, In c l' -> good_contact c) -> flat_map contact_items l ++ Close n :: r = flat_map contact_items l' ++ Close n :: r' -> l = l' /\ r = r'.
Proof.
  induction l as [|c l IH]; intros [|c' l'] r r' n G G' E; cbn [flat_map app] in E; try discriminate; [now injection E|]. rewrite <- !app_assoc in E.
  apply contact_inj in E as (-> & E); [|apply G; now left|apply G'; now left]. apply IH in E as (-> & ->); [now split|intros x X; apply G; now right|intros x X; apply G'; now right].
Qed.
Lemma reg_inj : forall g g' r r', good_reg g -> good_reg g' -> reg_items g ++ r = reg_items g' ++ r' -> g = g' /\ r = r'.
Proof.
  intros g g' r r' (_ & _ & _ & G) (_ & _ & _ & G') E. unfold reg_items in E. cbn [app] in E. rewrite <- !app_assoc in E. injection E as E1 E2 E3 E4. apply reg_state_inj in E3. apply contacts_inj in E4 as (E4 & ->); [|exact G|exact G']. destruct g, g'. cbn in *. now subst.
Qed.
Lemma regs_inj : forall l l' r r' n, (forall c, In c l -> good_reg c) -> (forall c, In c l' -> good_reg c) -> flat_map reg_items l ++ Close n :: r = flat_map reg_items l' ++ Close n :: r' -> l = l' /\ r = r'.
Proof.
  induction l as [|c l IH]; intros [|c' l'] r r' n G G' E; cbn [flat_map app] in E; try discriminate; [now injection E|]. rewrite <- !app_assoc in E.
  apply reg_inj in E as (-> & E); [|apply G; now left|apply G'; now left]. apply IH in E as (-> & ->); [now split|intros x X; apply G; now right|intros x X; apply G'; now right].
Qed.
Theorem C183_distinct : forall d d', built d -> built d' -> to_xml d = to_xml d' -> d = d'.
Proof.
  intros d d' B B' E. pose proof (told_info d (info_good d B)) as R. pose proof (told_info d' (info_good d' B')) as R'. rewrite E in R. pose proof (document_fun _ _ _ R R') as K. unfold items in K. injection K as K1 K2 K3.
  apply print_N_inj in K1. apply doc_state_inj in K2. apply regs_inj in K3 as (K3 & _); [|apply (info_good d B)|apply (info_good d' B')]. destruct d, d'. cbn in *. now subst.
Qed.
Print Assumptions C183_distinct.

(** an example with every field, and with markup in the values *)
Definition phone : contact := mkContact (lit "c""1>") CActive (Some Shortened) (lit "sip:a@b;x=<&>") (Some (lit " </uri>'Al' ")) (Some 60) (Some 5) (Some 7) (Some (mkReal true (lit "0.8"))) (Some (lit "a&b")) (Some 314).
Definition doc : reginfo := mkInfo 3 Partial [mkReg (lit "sip:a@b") (lit "r") Init [phone]; mkReg (lit "sip:c@d") (lit "s") RTerminated []].
Lemma phone_built : contact_built phone.
Proof.
  apply (cb_cseq (mkContact (lit "c""1>") CActive (Some Shortened) (lit "sip:a@b;x=<&>") (Some (lit " </uri>'Al' ")) (Some 60) (Some 5) (Some 7) (Some (mkReal true (lit "0.8"))) (Some (lit "a&b")) None) 314); [|unfold u32_max; lia].
  apply (cb_call (mkContact (lit "c""1>") CActive (Some Shortened) (lit "sip:a@b;x=<&>") (Some (lit " </uri>'Al' ")) (Some 60) (Some 5) (Some 7) (Some (mkReal true (lit "0.8"))) None None) (lit "a&b")); [|reflexivity].
  apply (cb_q (mkContact (lit "c""1>") CActive (Some Shortened) (lit "sip:a@b;x=<&>") (Some (lit " </uri>'Al' ")) (Some 60) (Some 5) (Some 7) None None None) (mkReal true (lit "0.8"))); [|intros c H; cbn in H; cbn; tauto|reflexivity].
  apply (cb_duration (mkContact (lit "c""1>") CActive (Some Shortened) (lit "sip:a@b;x=<&>") (Some (lit " </uri>'Al' ")) (Some 60) (Some 5) None None None None) 7); [|unfold u32_max; lia].
  apply (cb_retry (mkContact (lit "c""1>") CActive (Some Shortened) (lit "sip:a@b;x=<&>") (Some (lit " </uri>'Al' ")) (Some 60) None None None None None) 5); [|unfold u32_max; lia].
  apply (cb_expires (mkContact (lit "c""1>") CActive (Some Shortened) (lit "sip:a@b;x=<&>") (Some (lit " </uri>'Al' ")) None None None None None None) 60); [|unfold u32_max; lia].
  apply (cb_name (mkContact (lit "c""1>") CActive (Some Shortened) (lit "sip:a@b;x=<&>") None None None None None None None) (lit " </uri>'Al' ")); [|reflexivity].
  apply (cb_event (mkContact (lit "c""1>") CActive None (lit "sip:a@b;x=<&>") None None None None None None None) Shortened).
  apply (cb_new (lit "c""1>") CActive (lit "sip:a@b;x=<&>")). reflexivity.
Qed.
Lemma doc_built : built doc.
Proof.
  apply (ib_add (mkInfo 3 Partial [mkReg (lit "sip:a@b") (lit "r") Init [phone]]) (mkReg (lit "sip:c@d") (lit "s") RTerminated [])); [|apply (rb_new (lit "sip:c@d") (lit "s") RTerminated); reflexivity|reflexivity].
  apply (ib_add (mkInfo 3 Partial []) (mkReg (lit "sip:a@b") (lit "r") Init [phone])); [apply (ib_new 3 Partial); unfold u32_max; lia| |reflexivity].
  apply (rb_add (mkReg (lit "sip:a@b") (lit "r") Init []) phone); [apply (rb_new (lit "sip:a@b") (lit "r") Init); reflexivity|apply phone_built|reflexivity].
Qed.
Example C183_example : built doc /\ document (to_xml doc) (items doc).
Proof. split; [apply doc_built|]. now apply C183_told; [apply doc_built|]. Qed.

(** characters that XML 1.0 does not allow at all are accepted and written *)
Definition xml_char (c : N) : Prop := c = 9 \/ c = 10 \/ c = 13 \/ 32 <= c <= 55295 \/ 57344 <= c <= 65533 \/ 65536 <= c <= 1114111.
Theorem C183_char_refuted : exists d c, built d /\ In c (to_xml d) /\ ~ xml_char c.
Proof.
  exists (mkInfo 0 Full [mkReg (lit "sip:a@b" ++ [65534]) (lit "r") Init []]), 65534. split; [|split].
  - apply (ib_add (mkInfo 0 Full []) (mkReg (lit "sip:a@b" ++ [65534]) (lit "r") Init [])); [apply (ib_new 0 Full); unfold u32_max; lia|apply (rb_new (lit "sip:a@b" ++ [65534]) (lit "r") Init); reflexivity|reflexivity].
  - apply mem_In. vm_compute. reflexivity.
  - unfold xml_char. lia.
Qed.
Print Assumptions C183_char_refuted.
(** two registrations may carry the same identifier, which RFC 3680 does not allow *)
Theorem C182_twice_refuted : exists d a b, built d /\ i_regs d = [a; b] /\ r_aor a <> r_aor b /\ r_id a = r_id b.
Proof.
  exists (mkInfo 0 Full [mkReg (lit "sip:a@b") (lit "r") Init []; mkReg (lit "sip:c@d") (lit "r") Init []]). eexists. eexists. split; [|split; [reflexivity|split; [discriminate|reflexivity]]].
  apply (ib_add (mkInfo 0 Full [mkReg (lit "sip:a@b") (lit "r") Init []]) (mkReg (lit "sip:c@d") (lit "r") Init [])); [|apply (rb_new (lit "sip:c@d") (lit "r") Init); reflexivity|reflexivity].
  apply (ib_add (mkInfo 0 Full []) (mkReg (lit "sip:a@b") (lit "r") Init [])); [apply (ib_new 0 Full); unfold u32_max; lia|apply (rb_new (lit "sip:a@b") (lit "r") Init); reflexivity|reflexivity].
Qed.
Print Assumptions C182_twice_refuted.
