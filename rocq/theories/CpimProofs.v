(** Facts about CPIM texts. *)
From Coq Require Import Arith NArith Bool String List Lia ZifyBool ZifyN ZifyNat.
Import ListNotations.
From Verif Require Import Base BaseFacts NumFacts TypedFacts Text TextFacts Utf8Facts Dhcp DhcpProofs Cpim CpimSpec.
From Verif Require HepProofs.
Open Scope N_scope.
Open Scope list_scope.

(** ** Escapes *)
Definition blankb (c : N) : bool := is_ws c && negb (is_control c).
Lemma blankb_iff : forall c, blankb c = true <-> blank c.
Proof. intros c. unfold blankb, blank. now rewrite andb_true_iff, negb_true_iff. Qed.
Lemma hex_back : forall d, d < 16 -> hex_val (hex_digit d) = Some d.
Proof. intros d H. unfold hex_val, hex_digit, is_digit, in_range. destruct (d <? 10) eqn:E; repeat match goal with |- context [if ?b then _ else _] => destruct b eqn:? end; try (f_equal; lia); lia. Qed.
Lemma hex_plain : forall d, d < 16 -> 48 <= hex_digit d <= 102.
Proof. intros d H. unfold hex_digit. destruct (d <? 10) eqn:E; lia. Qed.
Lemma mod16 : forall n, n mod 16 < 16.
Proof. intros n. apply N.mod_lt. discriminate. Qed.
Lemma hex4_back : forall c, c < 65536 -> hex4 (hex_digit (c / 4096 mod 16)) (hex_digit (c / 256 mod 16)) (hex_digit (c / 16 mod 16)) (hex_digit (c mod 16)) = Some c.
Proof.
  intros c H. unfold hex4. pose proof (hex_plain _ (mod16 (c / 4096))) as P. replace (hex_digit (c / 4096 mod 16) =? 43) with false by lia. rewrite !hex_back by apply mod16. f_equal.
  assert (E1 : c = 16 * (c / 16) + c mod 16) by (apply N.div_mod; discriminate). assert (E2 : c / 16 = 16 * (c / 16 / 16) + (c / 16) mod 16) by (apply N.div_mod; discriminate). rewrite N.div_div in E2 by discriminate. change (16 * 16) with 256 in E2.
  assert (E3 : c / 256 = 16 * (c / 256 / 16) + (c / 256) mod 16) by (apply N.div_mod; discriminate). rewrite N.div_div in E3 by discriminate. change (256 * 16) with 4096 in E3.
  assert (c / 4096 < 16) by (apply N.div_lt_upper_bound; [discriminate|exact H]). rewrite (N.mod_small (c / 4096)) by assumption. lia.
Qed.
Lemma control_small : forall c, is_control c = true -> c < 160.
Proof. intros c H. unfold is_control, in_range in H. lia. Qed.
Lemma unescape_step : forall c r, unescape (escape_c c ++ r) = ocons c (unescape r).
Proof.
  intros c r. unfold escape_c.
  destruct (c =? 92) eqn:E1; [apply N.eqb_eq in E1; subst; reflexivity|]. destruct (c =? 34) eqn:E2; [apply N.eqb_eq in E2; subst; reflexivity|]. destruct (c =? 8) eqn:E3; [apply N.eqb_eq in E3; subst; reflexivity|]. destruct (c =? 9) eqn:E4; [apply N.eqb_eq in E4; subst; reflexivity|].
  destruct (c =? 10) eqn:E5; [apply N.eqb_eq in E5; subst; reflexivity|]. destruct (c =? 13) eqn:E6; [apply N.eqb_eq in E6; subst; reflexivity|]. destruct (is_control c) eqn:E7.
  - pose proof (control_small c E7) as S. unfold escape_u. cbn [app unescape]. change (92 =? 92) with true. change (117 =? 92) with false. change (117 =? 34) with false. change (117 =? 98) with false. change (117 =? 116) with false. change (117 =? 110) with false. change (117 =? 114) with false. change (117 =? 117) with true. cbv iota. rewrite hex4_back by lia. unfold is_scalar. replace (c <? 55296) with true by lia. reflexivity.
  - cbn [app unescape]. rewrite E1. reflexivity.
Qed.
Lemma unescape_escape : forall s, unescape (escape s) = Some s.
Proof. induction s as [|c s IH]; [reflexivity|]. unfold escape. cbn [flat_map]. fold (escape s). now rewrite unescape_step, IH. Qed.
Lemma escape_clean : forall s c, In c (escape s) -> is_control c = false.
Proof.
  intros s c H. unfold escape in H. apply in_flat_map in H as (x & _ & H). unfold escape_c in H.
  destruct (x =? 92); [destruct H as [<-|[<-|[]]]; reflexivity|]. destruct (x =? 34); [destruct H as [<-|[<-|[]]]; reflexivity|]. destruct (x =? 8); [destruct H as [<-|[<-|[]]]; reflexivity|]. destruct (x =? 9); [destruct H as [<-|[<-|[]]]; reflexivity|]. destruct (x =? 10); [destruct H as [<-|[<-|[]]]; reflexivity|]. destruct (x =? 13); [destruct H as [<-|[<-|[]]]; reflexivity|].
  destruct (is_control x) eqn:E.
  - assert (P : forall n, is_control (hex_digit (n mod 16)) = false) by (intros n; pose proof (hex_plain _ (mod16 n)); unfold is_control, in_range; lia). unfold escape_u in H. destruct H as [<-|[<-|[<-|[<-|[<-|[<-|[]]]]]]]; try reflexivity; apply P.
  - destruct H as [<-|[]]. exact E.
Qed.
Lemma escape_first : forall c, if blankb c then escape_c c = [c] else exists x r, escape_c c = x :: r /\ is_ws x = false /\ is_ws (last (escape_c c) 0) = false.
Proof.
  intros c. unfold escape_c, blankb.
  destruct (c =? 92) eqn:E1; [apply N.eqb_eq in E1; subst; do 2 eexists; split; [reflexivity|now split]|]. destruct (c =? 34) eqn:E2; [apply N.eqb_eq in E2; subst; do 2 eexists; split; [reflexivity|now split]|].
  destruct (c =? 8) eqn:E3; [apply N.eqb_eq in E3; subst; do 2 eexists; split; [reflexivity|now split]|]. destruct (c =? 9) eqn:E4; [apply N.eqb_eq in E4; subst; do 2 eexists; split; [reflexivity|now split]|].
  destruct (c =? 10) eqn:E5; [apply N.eqb_eq in E5; subst; do 2 eexists; split; [reflexivity|now split]|]. destruct (c =? 13) eqn:E6; [apply N.eqb_eq in E6; subst; do 2 eexists; split; [reflexivity|now split]|].
  destruct (is_control c) eqn:E7.
  - rewrite andb_false_r. unfold escape_u. do 2 eexists. split; [reflexivity|]. split; [reflexivity|]. cbn [last]. pose proof (hex_plain _ (mod16 c)). unfold is_ws, in_range. lia.
  - rewrite andb_true_r. destruct (is_ws c) eqn:W; [reflexivity|]. do 2 eexists. split; [reflexivity|]. now split.
Qed.
Lemma escape_cons : forall c s, escape (c :: s) = escape_c c ++ escape s.
Proof. reflexivity. Qed.
Lemma escape_start : forall s, trim_start_by is_ws (escape s) = escape (trim_start_by blankb s).
Proof.
  unfold trim_start_by. induction s as [|c s IH]; [reflexivity|]. rewrite escape_cons. cbn [drop_while]. pose proof (escape_first c) as E. destruct (blankb c) eqn:B.
  - rewrite E. cbn [app drop_while]. unfold blankb in B. apply andb_true_iff in B as (W & _). rewrite W. exact IH.
  - destruct E as (x & r & E & W & _). rewrite escape_cons, E. cbn [app drop_while]. now rewrite W.
Qed.
Lemma trim_end_last : forall p s d, s <> [] -> p (last s d) = false -> trim_end_by p s = s.
Proof.
  intros p s d NE H. destruct (exists_last NE) as (a & x & ->). rewrite last_last in H. rewrite HepProofs.trim_end_by_app. cbn [trim_end_by]. now rewrite H.
Qed.
Lemma escape_end : forall s, trim_end_by is_ws (escape s) = escape (trim_end_by blankb s).
Proof.
  induction s as [|c s IH]; [reflexivity|]. rewrite escape_cons, HepProofs.trim_end_by_app, IH. cbn [trim_end_by]. pose proof (escape_first c) as E. destruct (trim_end_by blankb s) as [|y t].
  - change (escape []) with (@nil N). destruct (blankb c) eqn:B.
    + rewrite E. cbn [trim_end_by]. unfold blankb in B. apply andb_true_iff in B as (W & _). now rewrite W.
    + destruct E as (x & r & E & _ & W). unfold escape. cbn [flat_map]. rewrite app_nil_r. apply (trim_end_last is_ws _ 0); [rewrite E; discriminate|exact W].
  - rewrite (escape_cons c). destruct (escape (y :: t)) as [|z u] eqn:K; [|reflexivity]. exfalso. rewrite escape_cons in K. pose proof (escape_first y) as F. destruct (blankb y); [rewrite F in K; discriminate|destruct F as (x & r & F & _); rewrite F in K; discriminate].
Qed.
(** the value without the blanks round it *)
Definition unblank (s : str) : str := trim_by blankb s.
Lemma trim_escape : forall s, trim (escape s) = escape (unblank s).
Proof. intros s. unfold trim, trim_by, unblank, trim_by. rewrite escape_start. apply escape_end. Qed.
Lemma blen_app : forall a b, blen (a ++ b) = blen a + blen b.
Proof. induction a as [|c a IH]; intros b; [reflexivity|]. cbn [app blen]. rewrite IH. lia. Qed.
Lemma escape_len : forall s, blen (escape s) <= 6 * blen s.
Proof.
  induction s as [|c s IH]; [cbn; lia|]. rewrite escape_cons, blen_app. cbn [blen]. assert (K : blen (escape_c c) <= 6 * len_utf8 c); [|lia]. pose proof (len_utf8_pos c) as P. unfold escape_c.
  destruct (c =? 92); [change (blen [92; 92]) with 2; lia|]. destruct (c =? 34); [change (blen [92; 34]) with 2; lia|]. destruct (c =? 8); [change (blen [92; 98]) with 2; lia|]. destruct (c =? 9); [change (blen [92; 116]) with 2; lia|]. destruct (c =? 10); [change (blen [92; 110]) with 2; lia|]. destruct (c =? 13); [change (blen [92; 114]) with 2; lia|].
  destruct (is_control c).
  - unfold escape_u. cbn [blen]. assert (H : forall n, len_utf8 (hex_digit (n mod 16)) = 1) by (intros n; pose proof (hex_plain _ (mod16 n)); unfold len_utf8; replace (hex_digit (n mod 16) <? 128) with true by lia; reflexivity). rewrite !H. change (len_utf8 92) with 1. change (len_utf8 117) with 1. lia.
  - cbn [blen]. lia.
Qed.
(** ** Blanks *)
Lemma drop_split : forall p s, exists a, s = a ++ drop_while p s /\ forallb p a = true.
Proof. intros p. induction s as [|c s (a & E & F)]; [now exists []|]. cbn [drop_while]. destruct (p c) eqn:P; [|now exists []]. exists (c :: a). split; [cbn [app]; now rewrite <- E|]. cbn [forallb]. now rewrite P. Qed.
Lemma end_split : forall p s, exists b, s = trim_end_by p s ++ b /\ forallb p b = true.
Proof.
  intros p. induction s as [|c s (b & E & F)]; [now exists []|]. cbn [trim_end_by]. destruct (trim_end_by p s) as [|y t].
  - destruct (p c) eqn:P; [|exists b; split; [cbn [app] in *; now rewrite E at 1|exact F]]. exists (c :: b). split; [cbn [app] in *; now rewrite E at 1|]. cbn [forallb]. now rewrite P.
  - exists b. split; [cbn [app] in *; now rewrite E at 1|exact F].
Qed.
Lemma drop_first : forall p s c r, drop_while p s = c :: r -> p c = false.
Proof. intros p. induction s as [|x s IH]; intros c r H; [discriminate|]. cbn [drop_while] in H. destruct (p x) eqn:P; [now apply (IH c r)|]. now injection H as -> ->. Qed.
Lemma end_last : forall p s a c, trim_end_by p s = a ++ [c] -> p c = false.
Proof.
  intros p. induction s as [|x s IH]; intros a c H; [destruct a; discriminate|]. cbn [trim_end_by] in H. destruct (trim_end_by p s) as [|y t] eqn:E.
  - destruct (p x) eqn:P; [destruct a; discriminate|]. destruct a as [|z a]; [now injection H as ->|]. injection H as _ H. destruct a; discriminate.
  - destruct a as [|z a]; [discriminate|]. injection H as _ H. exact (IH a c H).
Qed.
Lemma end_first : forall p s c r, trim_end_by p s = c :: r -> exists r', s = c :: r'.
Proof. intros p s c r H. destruct (end_split p s) as (b & E & _). rewrite H in E. cbn [app] in E. now exists (r ++ b). Qed.
Lemma trim_pared : forall (p : N -> bool) (P : N -> Prop) v, (forall c, p c = true <-> P c) -> pared P v (trim_by p v).
Proof.
  intros p P v X. unfold trim_by, trim_start_by. destruct (drop_split p v) as (a & E1 & F1). destruct (end_split p (drop_while p v)) as (b & E2 & F2). split.
  - intros x c y E [-> | ->] B; apply X in B.
    + cbn [app] in E. destruct (end_first _ _ _ _ E) as (r & K). apply drop_first in K. congruence.
    + apply end_last in E. congruence.
  - exists a, b. split; [now rewrite <- E2|]. rewrite forallb_forall in F1, F2. intros c Hc. apply X. apply in_app_or in Hc as [Hc|Hc]; [now apply F1|now apply F2].
Qed.
Lemma bare_trim : forall (p : N -> bool) (P : N -> Prop) v, (forall c, p c = true <-> P c) -> bare P v -> trim_by p v = v.
Proof.
  intros p P v X B. unfold trim_by, trim_start_by. assert (E : drop_while p v = v).
  { destruct v as [|c v]; [reflexivity|]. cbn [drop_while]. destruct (p c) eqn:K; [|reflexivity]. exfalso. apply (B [] c v eq_refl); [now left|now apply X]. }
  rewrite E. destruct v as [|c v] using rev_ind; [reflexivity|]. rewrite HepProofs.trim_end_by_app. cbn [trim_end_by]. destruct (p c) eqn:K; [|reflexivity]. exfalso. apply (B v c [] eq_refl); [now right|now apply X].
Qed.
Lemma white_iff : forall c, is_ws c = true <-> white c. Proof. reflexivity. Qed.
Lemma bare_name : forall n, bare white n -> trim n = n.
Proof. intros n. apply bare_trim, white_iff. Qed.
Lemma trim_len : forall p s, blen (trim_by p s) <= blen s.
Proof. intros p s. unfold trim_by, trim_start_by. destruct (drop_split p s) as (a & E1 & _). destruct (end_split p (drop_while p s)) as (b & E2 & _). rewrite E1 at 2. rewrite E2 at 2. rewrite !blen_app. lia. Qed.
Lemma trim_sub : forall p s c, In c (trim_by p s) -> In c s.
Proof. intros p s c H. unfold trim_by, trim_start_by in H. destruct (drop_split p s) as (a & E1 & _). destruct (end_split p (drop_while p s)) as (b & E2 & _). rewrite E1, E2. apply in_or_app. right. apply in_or_app. now left. Qed.
(** ** Checks *)
Lemma control_iff : forall c, is_ascii_control c = true <-> c < 32 \/ c = 127.
Proof. intros c. unfold is_ascii_control. lia. Qed.
Lemma clean_iff : forall k no f s, (forall c, f c = true <-> (c < 32 \/ c = 127) \/ In c no) -> ((blen s <=? k) && negb (existsb f s) = true <-> clean k no s).
Proof.
  intros k no f s X. unfold clean. rewrite andb_true_iff, negb_true_iff, <- not_true_iff_false, existsb_exists. split.
  - intros (A & B). split; [lia|]. intros c Hc. assert (K : ~ ((c < 32 \/ c = 127) \/ In c no)) by (intros K; apply B; exists c; split; [exact Hc|now apply X]). split; [destruct (N.lt_ge_cases c 32); [tauto|assumption]|]. split; [intros ->; tauto|tauto].
  - intros (A & B). split; [lia|]. intros (c & Hc & K). apply X in K. destruct (B c Hc) as (B1 & B2 & B3). destruct K as [K|K]; [lia|contradiction].
Qed.
Lemma nonempty_iff : forall s, negb (str_eqb s []) = true <-> s <> [].
Proof. intros s. rewrite negb_true_iff. split; [apply str_eqb_neq|]. intros H. destruct (str_eqb s []) eqn:E; [apply str_eqb_spec in E; contradiction|reflexivity]. Qed.
Lemma mem_iff : forall c l, mem c l = true <-> In c l.
Proof. intros c l. apply mem_In. Qed.
Lemma name_iff : forall n, name_ok n = true <-> good_name n.
Proof.
  intros n. unfold name_ok, good_name. rewrite <- !andb_assoc, andb_true_iff, nonempty_iff. apply and_iff_compat_l. rewrite <- (clean_iff 128 (lit ":;=\""") (fun c => is_ascii_control c || mem c [58; 59; 61; 92; 34]) n).
  - rewrite <- negb_orb. assert (E : existsb is_ascii_control n || existsb (fun c => mem c [58; 59; 61; 92; 34]) n = existsb (fun c => is_ascii_control c || mem c [58; 59; 61; 92; 34]) n); [|now rewrite E]. induction n as [|c n IH]; [reflexivity|]. cbn [existsb]. rewrite <- IH. destruct (is_ascii_control c), (existsb is_ascii_control n), (mem c [58; 59; 61; 92; 34]); reflexivity.
  - intros c. rewrite orb_true_iff, control_iff, mem_iff. reflexivity.
Qed.
Lemma pname_iff : forall n, pname_ok n = true <-> n <> [] /\ clean 64 (lit ";=\""") n.
Proof. intros n. unfold pname_ok. rewrite <- !andb_assoc, andb_true_iff, nonempty_iff. apply and_iff_compat_l. apply clean_iff. intros c. rewrite orb_true_iff, control_iff, mem_iff. reflexivity. Qed.
Lemma pvalue_iff : forall v, pvalue_ok v = true <-> clean 256 (lit ";\""") v.
Proof. intros n. unfold pvalue_ok. apply clean_iff. intros c. rewrite orb_true_iff, control_iff, mem_iff. reflexivity. Qed.
Lemma type_iff : forall v, type_ok v = true <-> v <> [] /\ clean 256 [] v.
Proof. intros n. unfold type_ok. rewrite <- !andb_assoc, andb_true_iff, nonempty_iff. apply and_iff_compat_l. apply clean_iff. intros c. rewrite control_iff. cbn. tauto. Qed.
Lemma cvalue_iff : forall v, cvalue_ok v = true <-> clean 1024 [] v.
Proof. intros n. unfold cvalue_ok. apply clean_iff. intros c. rewrite control_iff. cbn. tauto. Qed.
Lemma clean_trim : forall k no s, clean k no s -> clean k no (trim s).
Proof. intros k no s (A & B). split; [pose proof (trim_len is_ws s) as L; unfold trim; lia|]. intros c Hc. apply B. now apply (trim_sub is_ws). Qed.

(** ** The map of headers *)
Lemma total_app : forall a b, total (a ++ b) = total a + total b.
Proof. induction a as [|p a IH]; intros b; [reflexivity|]. change (llen (snd p) + total (a ++ b) = llen (snd p) + total a + total b). rewrite IH. apply N.add_assoc. Qed.
Lemma total_cons : forall k l a, total ((k, l) :: a) = llen l + total a.
Proof. reflexivity. Qed.
Lemma total_flat : forall hs, total hs = llen (flat_map snd hs).
Proof. induction hs as [|(k, l) hs IH]; [reflexivity|]. rewrite total_cons, IH. cbn [flat_map snd]. unfold llen. rewrite app_length. lia. Qed.
Lemma put_last : forall V k (v : V) acc, (forall k', In k' (keys acc) -> str_ltb k' k = true) -> bput k v acc = acc ++ [(k, v)].
Proof.
  intros V k v. induction acc as [|(k', w) acc IH]; intros H; [reflexivity|]. cbn [bput app]. assert (L : str_ltb k' k = true) by (apply H; now left). destruct (str_eqb k k') eqn:E; [apply str_eqb_spec in E; subst k'; rewrite str_ltb_irrefl in L; discriminate|].
  destruct (str_ltb k k') eqn:G; [pose proof (str_ltb_trans _ _ _ L G) as X; rewrite str_ltb_irrefl in X; discriminate|]. f_equal. apply IH. intros x Hx. apply H. now right.
Qed.
Lemma put_again : forall V k (v w : V) acc, (forall k', In k' (keys acc) -> str_ltb k' k = true) -> bput k v (acc ++ [(k, w)]) = acc ++ [(k, v)].
Proof.
  intros V k v w. induction acc as [|(k', u) acc IH]; intros H; [cbn; now rewrite str_eqb_refl|]. cbn [bput app]. assert (L : str_ltb k' k = true) by (apply H; now left). destruct (str_eqb k k') eqn:E; [apply str_eqb_spec in E; subst k'; rewrite str_ltb_irrefl in L; discriminate|].
  destruct (str_ltb k k') eqn:G; [pose proof (str_ltb_trans _ _ _ L G) as X; rewrite str_ltb_irrefl in X; discriminate|]. f_equal. apply IH. intros x Hx. apply H. now right.
Qed.
Lemma get_last : forall V k (w : V) acc, (forall k', In k' (keys acc) -> str_ltb k' k = true) -> bget k (acc ++ [(k, w)]) = Some w.
Proof.
  intros V k w. unfold bget. induction acc as [|(k', u) acc IH]; intros H; [cbn; now rewrite str_eqb_refl|]. cbn [lookup app]. assert (L : str_ltb k' k = true) by (apply H; now left). destruct (str_eqb k k') eqn:E; [apply str_eqb_spec in E; subst k'; rewrite str_ltb_irrefl in L; discriminate|]. apply IH. intros x Hx. apply H. now right.
Qed.
Lemma get_none : forall V k (acc : list (str * V)), (forall k', In k' (keys acc) -> str_ltb k' k = true) -> bget k acc = None.
Proof.
  intros V k. unfold bget. induction acc as [|(k', u) acc IH]; intros H; [reflexivity|]. cbn [lookup]. assert (L : str_ltb k' k = true) by (apply H; now left). destruct (str_eqb k k') eqn:E; [apply str_eqb_spec in E; subst k'; rewrite str_ltb_irrefl in L; discriminate|]. apply IH. intros x Hx. apply H. now right.
Qed.
(** ** Sections *)
Lemma find_clear : forall p a s, ~ In 13 a -> find_sub (13 :: p) (a ++ s) = match find_sub (13 :: p) s with Some (x, y) => Some (a ++ x, y) | None => None end.
Proof.
  intros p. induction a as [|c a IH]; intros s H; [cbn [app]; destruct (find_sub (13 :: p) s) as [(x, y)|]; reflexivity|]. cbn [app find_sub strip_prefix]. destruct (13 =? c) eqn:E; [apply N.eqb_eq in E; subst; exfalso; apply H; now left|].
  rewrite IH by (intros K; apply H; now right). destruct (find_sub (13 :: p) s) as [(x, y)|]; reflexivity.
Qed.
Definition fine (l : str) : Prop := l <> [] /\ ~ In 13 l /\ ~ In 10 l.
Lemma find_crlf : forall c X x y, 13 <> c -> find_sub BLANK (c :: X) = Some (x, y) -> find_sub BLANK (CRLF ++ c :: X) = Some (CRLF ++ x, y).
Proof.
  intros c X x y NC H. assert (E : (13 =? c) = false) by lia. unfold CRLF at 1. cbn [app]. cbn [find_sub BLANK strip_prefix] in H |- *. change (13 =? 13) with true. change (10 =? 10) with true. change (13 =? 10) with false. cbv iota. rewrite E in *. cbv iota in *. rewrite H. reflexivity.
Qed.
Lemma find_lines : forall ls rest, ls <> [] -> Forall fine ls -> find_sub BLANK (flat_map ended ls ++ CRLF ++ rest) = Some (join CRLF ls, rest).
Proof.
  induction ls as [|l ls IH]; intros rest NE F; [contradiction|]. inversion F as [|? ? (F1 & F2 & F3) F4]; subst. cbn [flat_map]. unfold ended at 1. unfold BLANK. rewrite <- !app_assoc, find_clear by exact F2. fold BLANK. destruct ls as [|l2 ls].
  - cbn [flat_map app join]. change (CRLF ++ CRLF ++ rest) with (BLANK ++ rest). destruct rest as [|c rest]; cbn [find_sub BLANK app strip_prefix]; cbn [N.eqb Pos.eqb]; rewrite ?app_nil_r; reflexivity.
  - specialize (IH rest ltac:(discriminate) F4). inversion F4 as [|? ? (G1 & G2 & _) _]; subst. destruct l2 as [|c l2]; [contradiction|].
    assert (NC : 13 <> c) by (intros <-; apply G2; now left). pose proof (find_crlf c _ _ _ NC IH) as K. match goal with |- match ?f with _ => _ end = _ => replace f with (Some (CRLF ++ join CRLF ((c :: l2) :: ls), rest)) by (symmetry; exact K) end. reflexivity.
Qed.
Lemma split_more : forall p s f f', p <> [] -> (List.length s < f)%nat -> (List.length s < f')%nat -> split_fuel f p s = split_fuel f' p s.
Proof.
  intros p s f. revert s. induction f as [|f IH]; intros s f' NE H H'; [lia|]. destruct f' as [|f']; [lia|]. cbn [split_fuel]. destruct (find_sub p s) as [(a, b)|] eqn:E; [|reflexivity]. f_equal. apply find_sub_some in E. assert (L : (List.length b < List.length s)%nat) by (rewrite E, !app_length; destruct p; [contradiction|cbn [List.length]; lia]). apply IH; [exact NE|lia|lia].
Qed.
Lemma split_step : forall p s a b, p <> [] -> find_sub p s = Some (a, b) -> split_str p s = a :: split_str p b.
Proof.
  intros p s a b NE E. unfold split_str at 1. cbn [split_fuel]. rewrite E. f_equal. unfold split_str. apply find_sub_some in E. assert (L : (List.length b < List.length s)%nat) by (rewrite E, !app_length; destruct p; [contradiction|cbn [List.length]; lia]). apply split_more; [exact NE|lia|lia].
Qed.
Lemma split_end : forall p s, find_sub p s = None -> split_str p s = [s].
Proof. intros p s E. unfold split_str. cbn [split_fuel]. now rewrite E. Qed.
Lemma join_split : forall p f s, join p (split_fuel f p s) = s /\ split_fuel f p s <> [].
Proof.
  intros p. induction f as [|f IH]; intros s; [now split|]. cbn [split_fuel]. destruct (find_sub p s) as [(a, b)|] eqn:E; [|now split]. split; [|discriminate]. destruct (IH b) as (I1 & I2). destruct (split_fuel f p b) as [|x l] eqn:K; [contradiction|]. cbn [join]. cbn [join] in I1. apply find_sub_some in E. rewrite E. now rewrite <- I1.
Qed.
Lemma split_crlf : forall ls, ls <> [] -> Forall fine ls -> split_str CRLF (join CRLF ls) = ls.
Proof.
  induction ls as [|l ls IH]; intros NE F; [contradiction|]. inversion F as [|? ? (F1 & F2 & F3) F4]; subst. destruct ls as [|l2 ls].
  - cbn [join]. apply split_end. apply find_sub_none. intros a b E. apply F2. rewrite E. apply in_or_app. right. now left.
  - assert (J : join CRLF (l :: l2 :: ls) = l ++ CRLF ++ join CRLF (l2 :: ls)) by reflexivity. rewrite J. rewrite (split_step CRLF _ l (join CRLF (l2 :: ls))); [|discriminate|].
    + f_equal. apply IH; [discriminate|exact F4].
    + unfold CRLF. rewrite find_clear by exact F2. destruct (join [13; 10] (l2 :: ls)); cbn [app find_sub strip_prefix]; cbn [N.eqb Pos.eqb]; rewrite ?app_nil_r; reflexivity.
Qed.
Lemma lines_back : forall ls, ls <> [] -> Forall fine ls -> section_lines (join CRLF ls) = ls.
Proof.
  intros ls NE F. unfold section_lines. assert (S : split_str (if has CRLF (join CRLF ls) then CRLF else [10]) (join CRLF ls) = ls).
  { destruct (has CRLF (join CRLF ls)) eqn:H; [now apply split_crlf|]. unfold has in H. destruct (find_sub CRLF (join CRLF ls)) as [?|] eqn:E; [discriminate|]. destruct ls as [|l [|l2 ls]]; [contradiction| |].
    - cbn [join]. apply split_end. inversion F as [|? ? (F1 & F2 & F3) F4]; subst. apply find_sub_none. intros a b K. apply F3. rewrite K. apply in_or_app. right. now left.
    - exfalso. apply (proj1 (find_sub_none _ _) E l (join CRLF (l2 :: ls))). reflexivity. }
  rewrite S. clear NE S. induction ls as [|l ls IH]; [reflexivity|]. inversion F as [|? ? (F1 & _) F4]; subst. cbn [filter]. apply nonempty_iff in F1. rewrite F1. f_equal. now apply IH.
Qed.
