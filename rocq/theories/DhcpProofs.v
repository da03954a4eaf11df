From Coq Require Import NArith Bool String List Lia ZifyBool ZifyN ZifyNat Arith.
Import ListNotations.
From Verif Require Import Base BaseFacts Text TextFacts AnyUri Msg Dhcp DhcpSpec.
Open Scope N_scope.
Open Scope list_scope.

(** * Names on the wire *)

Lemma wire_cons l ls : wire_name (l :: ls) = N.of_nat (length l) :: l ++ wire_name ls.
Proof. unfold wire_name. cbn [flat_map]. rewrite <- app_assoc. reflexivity. Qed.
Lemma skipn_skipn {A} a : forall b (d : list A), skipn a (skipn b d) = skipn (a + b) d.
Proof. intros b. induction b as [|b IH]; intros d; [now rewrite Nat.add_0_r|]. destruct d as [|x d]; [rewrite !skipn_nil; reflexivity|]. rewrite Nat.add_succ_r. cbn [skipn]. apply IH. Qed.
Lemma skipn_nth {A} n : forall (d : list A) x, nth_error d n = Some x -> skipn n d = x :: skipn (S n) d.
Proof. induction n as [|n IH]; intros [|y d] x H; cbn [nth_error] in H; try discriminate; [now injection H as ->|]. cbn [skipn] in *. now rewrite (IH d x H). Qed.
Lemma skipn_step {A} n (d : list A) x r : skipn n d = x :: r -> nth_error d n = Some x /\ skipn (S n) d = r /\ (n < length d)%nat.
Proof.
  revert d. induction n as [|n IH]; intros [|y d] H; cbn [skipn] in H; try discriminate.
  - injection H as -> ->. cbn. repeat split; lia.
  - destruct (IH d H) as (A1 & A2 & A3). cbn [nth_error length skipn]. repeat split; [exact A1|exact A2|lia].
Qed.
Lemma skipn_more {A} n (d : list A) a r : skipn n d = a ++ r -> skipn (n + length a) d = r.
Proof. intros H. replace (n + length a)%nat with (length a + n)%nat by lia. rewrite <- skipn_skipn, H. rewrite skipn_app, skipn_all, Nat.sub_diag. reflexivity. Qed.
(** a well-formed name is read *)
Lemma read_labels_wire d new : forall f pos acc rest, Forall label_ok new -> skipn pos d = wire_name new ++ rest -> (length d - pos < f)%nat ->
  read_labels f d pos acc = Ret (Some (acc ++ new, (pos + length (wire_name new))%nat)).
Proof.
  induction new as [|l new IH]; intros f pos acc rest Hok H Hf; (destruct f as [|f]; [lia|]); cbn [read_labels].
  - cbn [wire_name flat_map app] in H. apply skipn_step in H. destruct H as (N1 & _ & L). replace (length d <=? pos)%nat with false by lia. rewrite N1. cbv zeta. cbn [N.eqb].
    rewrite app_nil_r. cbn [wire_name flat_map app length]. do 2 f_equal. f_equal. lia.
  - inversion Hok as [|? ? L1 L2]; subst. unfold label_ok in L1. rewrite wire_cons in H. cbn [app] in H. rewrite <- app_assoc in H. pose proof (skipn_step _ _ _ _ H) as (N1 & S1 & L).
    replace (length d <=? pos)%nat with false by lia. rewrite N1. cbv zeta. replace (N.of_nat (length l) =? 0) with false by lia. replace (63 <? N.of_nat (length l)) with false by lia.
    rewrite Nat2N.id. assert (Ld : length (skipn (S pos) d) = (length d - S pos)%nat) by apply skipn_length. rewrite S1, app_length in Ld.
    replace (length d <? S pos + length l)%nat with false by lia. unfold slice. replace ((S pos <=? S pos + length l)%nat && (S pos + length l <=? length d)%nat) with true by lia.
    replace (S pos + length l - S pos)%nat with (length l) by lia. rewrite S1, firstn_app, firstn_all, Nat.sub_diag. cbn [firstn]. rewrite app_nil_r.
    rewrite (IH f _ _ rest L2); [|now apply skipn_more in S1|lia]. rewrite <- app_assoc. cbn [app]. do 2 f_equal. f_equal. rewrite wire_cons. cbn [length]. rewrite app_length. lia.
Qed.
(** what is read is a well-formed name, and nothing is read past the end *)
Lemma read_labels_inv d : forall f pos acc, (length d - pos < f)%nat -> exists o, read_labels f d pos acc = Ret o /\
  forall ls pos', o = Some (ls, pos') -> exists new, ls = acc ++ new /\ Forall label_ok new /\ skipn pos d = wire_name new ++ skipn pos' d /\ (pos < pos' <= length d)%nat.
Proof.
  induction f as [|f IH]; intros pos acc Hf; [lia|]. cbn [read_labels]. destruct (length d <=? pos)%nat eqn:E; [exists None; split; [reflexivity|discriminate]|].
  destruct (nth_error d pos) as [len|] eqn:N1; [|apply nth_error_None in N1; lia]. cbv zeta.
  pose proof (skipn_nth _ _ _ N1) as S0.
  destruct (len =? 0) eqn:Z.
  - eexists. split; [reflexivity|]. intros ls pos' H. injection H as <- <-. exists []. rewrite app_nil_r. split; [reflexivity|]. split; [constructor|].
    apply N.eqb_eq in Z. subst len. split; [exact S0|lia].
  - destruct (63 <? len) eqn:Z2; [exists None; split; [reflexivity|discriminate]|]. destruct (length d <? S pos + N.to_nat len)%nat eqn:Z3; [exists None; split; [reflexivity|discriminate]|].
    unfold slice. replace ((S pos <=? S pos + N.to_nat len)%nat && (S pos + N.to_nat len <=? length d)%nat) with true by lia.
    replace (S pos + N.to_nat len - S pos)%nat with (N.to_nat len) by lia. set (lab := firstn (N.to_nat len) (skipn (S pos) d)).
    assert (LL : length lab = N.to_nat len) by (unfold lab; rewrite firstn_length, skipn_length; lia).
    destruct (IH (S pos + N.to_nat len)%nat (acc ++ [lab])) as (o & R & HO); [lia|]. exists o. split; [exact R|]. intros ls pos' H.
    destruct (HO ls pos' H) as (new & -> & F & SK & B). exists (lab :: new). rewrite <- app_assoc. split; [reflexivity|]. split; [constructor; [unfold label_ok; lia|exact F]|]. split; [|lia].
    rewrite wire_cons. cbn [app]. rewrite LL, N2Nat.id, S0, <- app_assoc, <- SK. f_equal. rewrite <- (firstn_skipn (N.to_nat len) (skipn (S pos) d)) at 1. fold lab. f_equal.
    rewrite skipn_skipn. f_equal. lia.
Qed.
Definition named (g : list N -> str) (ls : list (list N)) : server := Domain (join (lit ".") (map (lossy g) ls)).
Lemma wire_len ls : (1 <= length (wire_name ls))%nat. Proof. unfold wire_name. rewrite app_length. cbn. lia. Qed.
Lemma read_names_wire g d names : forall f pos acc, Forall name_ok names -> skipn pos d = flat_map wire_name names -> (length d - pos < f)%nat -> (acc <> [] \/ names <> []) ->
  read_names g f d pos acc = Ret (Some (acc ++ map (named g) names)).
Proof.
  induction names as [|ls names IH]; intros f pos acc Hok H Hf Hn; (destruct f as [|f]; [lia|]); cbn [read_names].
  - cbn [flat_map] in H. assert (L : length (skipn pos d) = 0%nat) by now rewrite H. rewrite skipn_length in L. replace (pos <? length d)%nat with false by lia.
    cbn [map]. rewrite app_nil_r. destruct acc; [destruct Hn; congruence|reflexivity].
  - inversion Hok as [|? ? (O1 & O2) O3]; subst. cbn [flat_map] in H. pose proof (wire_len ls) as W.
    assert (L : length (skipn pos d) = (length d - pos)%nat) by apply skipn_length. rewrite H, app_length in L. replace (pos <? length d)%nat with true by lia.
    rewrite (read_labels_wire d ls (S (length d)) pos [] (flat_map wire_name names) O2 H) by lia. cbn [app]. destruct ls as [|l ls]; [congruence|].
    rewrite IH; [|exact O3|now apply skipn_more in H|lia|left; now destruct acc]. rewrite <- app_assoc. reflexivity.
Qed.
Lemma read_names_inv g d : forall f pos acc, (length d - pos < f)%nat -> exists o, read_names g f d pos acc = Ret o /\
  forall ss, o = Some ss -> ss <> [] /\ exists names, ss = acc ++ map (named g) names /\ Forall name_ok names /\ skipn pos d = flat_map wire_name names.
Proof.
  induction f as [|f IH]; intros pos acc Hf; [lia|]. cbn [read_names]. destruct (pos <? length d)%nat eqn:E.
  - destruct (read_labels_inv d (S (length d)) pos []) as (o & R & HO); [lia|]. rewrite R. destruct o as [[ls pos']|]; [|exists None; split; [reflexivity|discriminate]].
    destruct (HO ls pos' eq_refl) as (new & Hnew & F & SK & B). cbn [app] in Hnew. subst new. destruct ls as [|l ls]; [exists None; split; [reflexivity|discriminate]|].
    destruct (IH pos' (acc ++ [named g (l :: ls)])) as (o' & R' & HO'); [lia|]. exists o'. split; [exact R'|]. intros ss H. destruct (HO' ss H) as (Hss & names & -> & F' & SK').
    split; [exact Hss|]. exists ((l :: ls) :: names). rewrite <- app_assoc. split; [reflexivity|]. split; [constructor; [split; [discriminate|exact F]|exact F']|]. cbn [flat_map]. now rewrite SK, SK'.
  - destruct acc as [|a acc]; [exists None; split; [reflexivity|discriminate]|]. eexists. split; [reflexivity|]. intros ss H. injection H as <-. split; [discriminate|]. exists [].
    cbn [map]. rewrite app_nil_r. split; [reflexivity|]. split; [constructor|]. now rewrite skipn_all2 by lia.
Qed.
Lemma parse_names_iff g d ss : parse_names g d = Ret (Some ss) <->
  exists names, names <> [] /\ Forall name_ok names /\ d = flat_map wire_name names /\ ss = map (named g) names.
Proof.
  unfold parse_names. split.
  - intros H. destruct (read_names_inv g d (S (length d)) 0 []) as (o & R & HO); [lia|]. rewrite R in H. injection H as ->. destruct (HO ss eq_refl) as (Hss & names & -> & F & SK).
    exists names. split; [intros ->; now apply Hss|]. split; [exact F|]. split; [exact SK|reflexivity].
  - intros (names & Hn & F & -> & ->). rewrite (read_names_wire g _ names (S (length (flat_map wire_name names))) 0 [] F); [reflexivity|reflexivity|lia|now right].
Qed.
Lemma parse_names_ret g d : exists o, parse_names g d = Ret o.
Proof. unfold parse_names. destruct (read_names_inv g d (S (length d)) 0 []) as (o & R & _); [lia|]. now exists o. Qed.

(** * Addresses *)

Lemma chunks4_bytes l : chunks4 (flat_map address_bytes l) = l.
Proof. induction l as [|[[[a b] c] e] l IH]; [reflexivity|]. cbn [flat_map address_bytes app chunks4]. now rewrite IH. Qed.
Lemma chunks4_back d : llen d mod 4 = 0 -> flat_map address_bytes (chunks4 d) = d.
Proof.
  unfold llen. remember (length d) as n eqn:E. revert d E. induction n as [n IH] using (well_founded_induction lt_wf). intros d E H.
  destruct d as [|a [|b [|c [|e r]]]]; cbn [length] in E; subst n; try discriminate H; [reflexivity|]. cbn [chunks4 flat_map address_bytes app]. do 4 f_equal.
  apply (IH (length r)); [lia|reflexivity|]. replace (N.of_nat (S (S (S (S (length r)))))) with (N.of_nat (length r) + 1 * 4) in H by lia. now rewrite N.mod_add in H by lia.
Qed.
Lemma bytes_mod l : llen (flat_map address_bytes l) mod 4 = 0.
Proof.
  induction l as [|[[[a b] c] e] l IH]; [reflexivity|]. cbn [flat_map address_bytes app]. unfold llen in *. cbn [length].
  replace (N.of_nat (S (S (S (S (length (flat_map address_bytes l))))))) with (N.of_nat (length (flat_map address_bytes l)) + 1 * 4) by lia. now rewrite N.mod_add by lia.
Qed.
Lemma parse_addresses_iff d ss : parse_addresses d = Some ss <-> exists l, l <> [] /\ d = flat_map address_bytes l /\ ss = map ipv4_server l.
Proof.
  unfold parse_addresses. split.
  - destruct (llen d mod 4 =? 0) eqn:E; cbn [negb]; [|discriminate]. apply N.eqb_eq in E. intros H. exists (chunks4 d).
    rewrite (chunks4_back d E). split; [intros X; rewrite X in H; discriminate|]. split; [reflexivity|].
    destruct (chunks4 d) as [|x l]; [discriminate|]. cbn [map] in *. injection H as <-. reflexivity.
  - intros (l & Hl & -> & ->). rewrite bytes_mod, chunks4_bytes. cbn [N.eqb negb]. destruct l; [congruence|reflexivity].
Qed.
Lemma parse_150_iff d l : parse_option_150 d = Some l <-> l <> [] /\ d = flat_map address_bytes l.
Proof.
  unfold parse_option_150. split.
  - destruct d as [|x d]; [discriminate|]. destruct (llen (x :: d) mod 4 =? 0) eqn:E; cbn [negb]; [|discriminate]. apply N.eqb_eq in E. intros H.
    pose proof (chunks4_back _ E) as B. destruct (chunks4 (x :: d)) as [|y l'] eqn:C; [discriminate|]. injection H as <-. split; [discriminate|now symmetry].
  - intros (Hl & ->). destruct (flat_map address_bytes l) as [|x d] eqn:E.
    + destruct l as [|[[[a b] c] e] l]; [congruence|discriminate].
    + rewrite <- E, bytes_mod, chunks4_bytes. cbn [N.eqb negb]. destruct l; [congruence|reflexivity].
Qed.

(** * Names as text *)

Lemma split_on_forallb p c s : forallb p s = true -> Forall (fun x => forallb p x = true) (split_on c s).
Proof.
  intros H. apply Forall_forall. intros x Hx. apply forallb_forall. intros y Hy. rewrite forallb_forall in H. apply H.
  rewrite <- (join_split_on c s). revert Hx Hy. generalize (split_on c s) as l. clear. intros l. induction l as [|a l IH]; [intros []|]. destruct l as [|b l].
  - intros [->|[]] Hy. exact Hy.
  - change (join [c] (a :: b :: l)) with (a ++ c :: join [c] (b :: l)). intros [->|Hx] Hy; apply in_or_app; [now left|right; right; now apply IH].
Qed.
Lemma lossy_utf8 g s : is_str s = true -> lossy g (utf8 s) = s.
Proof. intros H. unfold lossy. now rewrite from_utf8_utf8. Qed.
Lemma named_labels g n : is_str n = true -> named g (labels_of n) = Domain n.
Proof.
  intros H. unfold named, labels_of. f_equal. rewrite map_map. pose proof (split_on_forallb _ 46 n H) as F. rewrite <- (join_split_on 46 n) at 2. f_equal.
  rewrite <- (map_id (split_on 46 n)) at 2. apply map_ext_in. intros x Hx. apply lossy_utf8. rewrite Forall_forall in F. exact (F x Hx).
Qed.
Lemma labels_nonempty n : labels_of n <> [].
Proof. unfold labels_of. intros H. apply map_eq_nil in H. now apply split_on_nonempty in H. Qed.

(** * ENUM *)

Lemma join_dots l : l <> [] -> join (lit ".") (map (fun c => [c]) l) ++ lit "." = flat_map (fun c => [c; 46]) l.
Proof.
  induction l as [|c l IH]; [congruence|]. intros _. destruct l as [|c' l]; [reflexivity|].
  change (join (lit ".") (map (fun c => [c]) (c :: c' :: l))) with ([c] ++ lit "." ++ join (lit ".") (map (fun c => [c]) (c' :: l))).
  rewrite <- !app_assoc. rewrite IH by discriminate. reflexivity.
Qed.
Lemma enum_iff n d : enum_to_domain n = Some d <->
  exists digits, digits <> [] /\ forallb is_digit digits = true /\ n = 43 :: digits /\ d = flat_map (fun c => [c; 46]) (rev digits) ++ lit "e164.arpa".
Proof.
  assert (J : forall ds, ds <> [] -> join (lit ".") (map (fun c => [c]) (rev ds)) ++ lit ".e164.arpa" = flat_map (fun c => [c; 46]) (rev ds) ++ lit "e164.arpa").
  { intros ds H. change (lit ".e164.arpa") with (lit "." ++ lit "e164.arpa"). rewrite app_assoc, join_dots; [reflexivity|]. intros E. apply H. rewrite <- (rev_involutive ds), E. reflexivity. }
  unfold enum_to_domain. split.
  - destruct (strip_prefix [43] n) as [ds|] eqn:E; [|discriminate]. apply strip_prefix_some in E. destruct ds as [|c ds]; [discriminate|].
    destruct (forallb is_digit (c :: ds)) eqn:F; [|discriminate]. intros H. injection H as <-. exists (c :: ds). split; [discriminate|]. split; [exact F|]. split; [exact E|]. apply (J (c :: ds)). discriminate.
  - intros (ds & H1 & H2 & -> & ->). change (43 :: ds) with ([43] ++ ds). rewrite strip_prefix_app. destruct ds as [|c ds]; [congruence|]. rewrite H2. f_equal. apply (J (c :: ds)). discriminate.
Qed.
Lemma pairs_inj l l' t : flat_map (fun c => [c; 46]) l ++ t = flat_map (fun c => [c; 46]) l' ++ t -> l = l'.
Proof.
  intros H. apply app_inv_tail in H. revert l' H. induction l as [|c l IH]; intros [|c' l'] H; cbn [flat_map app] in H; try discriminate; [reflexivity|]. injection H as -> H. f_equal. now apply IH.
Qed.

(** the best record *)
Lemma leb_good a b : enum_leb a b = true <-> as_good a b.
Proof. unfold enum_leb, as_good. destruct (en_order a =? en_order b) eqn:E; split; intros; lia. Qed.
Lemma leb_better a b : enum_leb a b = false <-> better b a.
Proof. unfold enum_leb, better. destruct (en_order a =? en_order b) eqn:E; split; intros; lia. Qed.
Lemma hd_ins x l : hd_error (ins_enum x l) = match hd_error l with Some y => if enum_leb x y then Some x else Some y | None => Some x end.
Proof. destruct l as [|y l]; [reflexivity|]. cbn [ins_enum hd_error]. destruct (enum_leb x y); reflexivity. Qed.
Lemma sort_best l : match hd_error (sort_enum l) with
  | Some r => exists l1 l2, l = l1 ++ r :: l2 /\ Forall (better r) l1 /\ Forall (as_good r) l2
  | None => l = [] end.
Proof.
  induction l as [|x l IH]; [reflexivity|]. cbn [sort_enum fold_right]. fold (sort_enum l). rewrite hd_ins. destruct (hd_error (sort_enum l)) as [y|].
  - destruct IH as (l1 & l2 & -> & F1 & F2). destruct (enum_leb x y) eqn:E.
    + apply leb_good in E. exists [], (l1 ++ y :: l2). split; [reflexivity|]. split; [constructor|]. apply Forall_app. split; [|constructor; [exact E|]].
      * eapply Forall_impl; [|exact F1]. unfold better, as_good in *. intros; lia.
      * eapply Forall_impl; [|exact F2]. unfold as_good in *. intros; lia.
    + apply leb_better in E. exists (x :: l1), l2. split; [reflexivity|]. split; [now constructor|exact F2].
  - subst l. exists [], []. split; [reflexivity|]. split; constructor.
Qed.

(** the parts of the expression *)
Lemma parts_unbroken_aux c n : c <> 92 -> forall s cur r, (length s <= n)%nat -> unbroken c s -> parts c false cur (s ++ c :: r) = (cur ++ s) :: parts c false [] r.
Proof.
  intros Hc. induction n as [|n IH]; intros s cur r Hn H.
  - destruct s; [|cbn in Hn; lia]. cbn [app parts]. replace (c =? 92) with false by lia. now rewrite N.eqb_refl, app_nil_r.
  - destruct s as [|x s]; cbn [app parts].
    + replace (c =? 92) with false by lia. now rewrite N.eqb_refl, app_nil_r.
    + cbn [unbroken] in H. destruct (x =? 92) eqn:E.
      * destruct s as [|y s]; [destruct H|]. cbn [app parts]. cbn [length] in Hn. rewrite IH; [|lia|exact H]. now rewrite <- !app_assoc.
      * destruct H as [Hx H]. replace (x =? c) with false by lia. cbn [length] in Hn. rewrite IH; [|lia|exact H]. now rewrite <- app_assoc.
Qed.
Lemma parts_unbroken c s cur r : c <> 92 -> unbroken c s -> parts c false cur (s ++ c :: r) = (cur ++ s) :: parts c false [] r.
Proof. intros Hc. now apply (parts_unbroken_aux c (length s) Hc s cur r). Qed.
