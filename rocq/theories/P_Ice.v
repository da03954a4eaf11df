(** ICE candidates (C184) and the DTLS setup of a media section (C185). *)
From Coq Require Import Arith NArith Bool String List Lia ZifyBool ZifyN ZifyNat.
Import ListNotations.
From Verif Require Import Base BaseFacts Text Sdp Ice IceSpec.
From Verif Require SdpProofs SdpCoreProofs.
Open Scope N_scope.
Open Scope list_scope.

(** ** Words *)
Lemma ws_blank : forall b s, blanks b -> split_ws (b ++ s) = split_ws s.
Proof. unfold split_ws. induction b as [|c b IH]; intros s B; [reflexivity|]. cbn [app split_ws_aux]. rewrite (B c (or_introl eq_refl)). apply IH. intros x X. apply B. now right. Qed.
Lemma word_free : forall w, word w -> forallb (fun c => negb (is_ws c)) w = true.
Proof. intros w [_ H]. apply forallb_forall. intros c Hc. now rewrite (H c Hc). Qed.
Lemma ws_word : forall w x s, word w -> is_ws x = true -> split_ws (w ++ x :: s) = w :: split_ws s.
Proof.
  intros w x s W X. unfold split_ws. rewrite SdpCoreProofs.ws_aux_word by now apply word_free. cbn [split_ws_aux]. rewrite X, app_nil_r. destruct (SdpCoreProofs.rev_full w (proj1 W)) as (c & l & E). now rewrite E, <- E, rev_involutive.
Qed.
Lemma ws_last : forall w, word w -> split_ws w = [w].
Proof. intros w W. pose proof (SdpCoreProofs.ws_spaced [] w W (fun x (f : In x []) => match f with end)) as H. cbn in H. now rewrite app_nil_r in H. Qed.
Lemma words_ws : forall s l, words s l -> split_ws s = l.
Proof.
  intros s l W. induction W as [s B|b w B W|b w x s l B W X _ IH]; [rewrite <- (app_nil_r s); now rewrite ws_blank|rewrite ws_blank by exact B; now apply ws_last|]. rewrite ws_blank, ws_word by assumption. now rewrite IH.
Qed.
Lemma cut_blank : forall s, exists b r, s = b ++ r /\ blanks b /\ (r = [] \/ exists c t, r = c :: t /\ is_ws c = false).
Proof.
  induction s as [|c s (b & r & -> & B & R)]; [exists [], []; repeat split; [intros c []|now left]|]. destruct (is_ws c) eqn:E.
  - exists (c :: b), r. repeat split; [|exact R]. intros x [<-|X]; [exact E|now apply B].
  - exists [], (c :: b ++ r). repeat split; [intros x []|]. right. now exists c, (b ++ r).
Qed.
Lemma cut_word : forall s, exists w r, s = w ++ r /\ (forall c, In c w -> is_ws c = false) /\ (r = [] \/ exists c t, r = c :: t /\ is_ws c = true).
Proof.
  induction s as [|c s (w & r & -> & W & R)]; [exists [], []; repeat split; [intros c []|now left]|]. destruct (is_ws c) eqn:E.
  - exists [], (c :: w ++ r). repeat split; [intros x []|]. right. now exists c, (w ++ r).
  - exists (c :: w), r. repeat split; [|exact R]. intros x [<-|X]; [exact E|now apply W].
Qed.
Lemma words_all : forall n s, (List.length s <= n)%nat -> words s (split_ws s).
Proof.
  induction n as [|n IH]; intros s L.
  - destruct s; [|cbn in L; lia]. apply w_none. intros c [].
  - destruct (cut_blank s) as (b & r & -> & B & [->|(c & t & -> & C)]); [rewrite ws_blank by exact B; rewrite app_nil_r; now apply w_none|]. rewrite ws_blank by exact B.
    destruct (cut_word (c :: t)) as (w & r & E & W & R). assert (Wd : word w). { split; [|exact W]. intros ->. destruct R as [->|(x & u & -> & X)]; [discriminate|]. injection E as -> _. congruence. }
    rewrite E in *. clear E. destruct R as [->|(x & u & -> & X)]; [rewrite app_nil_r, ws_last by exact Wd; now apply w_last|]. rewrite ws_word by assumption. apply w_more; try assumption. apply IH. rewrite !app_length in L. cbn [List.length] in L. lia.
Qed.
Lemma words_iff : forall s l, words s l <-> split_ws s = l.
Proof. intros s l. split; [apply words_ws|intros <-]. exact (words_all _ s (Nat.le_refl _)). Qed.
Lemma words_words : forall s l, words s l -> forall w, In w l -> word w.
Proof. intros s l W. induction W as [s B|b w B W|b w x s l B W X _ IH]; intros y Y; [destruct Y|destruct Y as [<-|[]]; exact W|destruct Y as [<-|Y]; [exact W|now apply IH]]. Qed.

(** ** Fields *)
Lemma transport_says : forall s t, says_transport s t <-> transport_of s = t.
Proof.
  intros s t. unfold says_transport, transport_of. destruct (str_eqb (lower s) (lit "udp")) eqn:U.
  - apply str_eqb_spec in U. rewrite U. split; [intros [(_ & ->)|[(K & _)|(K & _)]]; [reflexivity|discriminate|now elim K]|intros <-; now left].
  - apply str_eqb_neq in U. destruct (str_eqb (lower s) (lit "tcp")) eqn:T.
    + apply str_eqb_spec in T. rewrite T. split; [intros [(K & _)|[(_ & ->)|(_ & K & _)]]; [discriminate|reflexivity|now elim K]|intros <-; right; now left].
    + apply str_eqb_neq in T. split; [intros [(K & _)|[(K & _)|(_ & _ & ->)]]; [now elim U|now elim T|reflexivity]|intros <-; right; right; now repeat split].
Qed.
Lemma kind_says : forall s k, says_kind s k <-> kind_of s = k.
Proof.
  intros s k. unfold says_kind. assert (A : forall x, In x type_words -> kind_of (fst x) = snd x) by (intros x [<-|[<-|[<-|[<-|[]]]]]; reflexivity).
  assert (B : (exists k', In (s, k') type_words) \/ ((forall k', ~ In (s, k') type_words) /\ kind_of s = KOther s)).
  { unfold kind_of. destruct (str_eqb s (lit "host")) eqn:E1; [apply str_eqb_spec in E1; subst; left; exists Host; now left|]. destruct (str_eqb s (lit "srflx")) eqn:E2; [apply str_eqb_spec in E2; subst; left; exists ServerReflexive; right; now left|].
    destruct (str_eqb s (lit "prflx")) eqn:E3; [apply str_eqb_spec in E3; subst; left; exists PeerReflexive; do 2 right; now left|]. destruct (str_eqb s (lit "relay")) eqn:E4; [apply str_eqb_spec in E4; subst; left; exists Relay; do 3 right; now left|].
    right. split; [|reflexivity]. apply str_eqb_neq in E1, E2, E3, E4. intros k' [K|[K|[K|[K|[]]]]]; apply (f_equal fst) in K; cbn [fst] in K; congruence. }
  split.
  - intros [H|(H & ->)]; [exact (A _ H)|]. destruct B as [(k' & K)|(_ & K)]; [now elim (H k')|exact K].
  - intros <-. destruct B as [(k' & K)|(H & K)]; [left; pose proof (A _ K) as E; cbn [fst snd] in E; now rewrite E|right; split; [exact H|exact K]].
Qed.

(** ** Pairs *)
Definition joined (p : str * str) : list str := [fst p; snd p].
Lemma pairs_app : forall l m a p e a' p' e', says_pairs l a p e -> read_pairs m a p e = Some (a', p', e') -> says_pairs (l ++ m) a' p' e'.
Proof.
  intros l m. revert l. assert (K : forall n m l a p e a' p' e', (List.length m <= n)%nat -> says_pairs l a p e -> read_pairs m a p e = Some (a', p', e') -> says_pairs (l ++ m) a' p' e').
  { induction n as [|n IH]; intros [|k [|v r]] l a p e a' p' e' L S R; cbn [List.length] in L; try lia; cbn [read_pairs] in R; try discriminate; try (injection R as <- <- <-; now rewrite app_nil_r).
    change (k :: v :: r) with ([k; v] ++ r). rewrite app_assoc. destruct (str_eqb k (lit "raddr")) eqn:E; [apply str_eqb_spec in E; subst k; apply (IH r _ (Some v) p e); [lia|now apply sp_addr with a|exact R]|]. apply str_eqb_neq in E.
    destruct (str_eqb k (lit "rport")) eqn:E'; [apply str_eqb_spec in E'; subst k; destruct (parse_uint u16_max v) as [x|] eqn:P; [|discriminate]; apply (IH r _ a (Some x) e); [lia|now apply sp_port with p|exact R]|]. apply str_eqb_neq in E'. apply (IH r _ a p (e ++ [(k, v)])); [lia|now apply sp_ext|exact R]. }
  intros l a p e a' p' e'. exact (K (List.length m) m l a p e a' p' e' (Nat.le_refl _)).
Qed.
Lemma read_app : forall l a p x a' p' e' m, says_pairs l a' p' e' -> read_pairs (l ++ m) a p x = match read_pairs l a p x with Some (b, q, y) => read_pairs m b q y | None => None end.
Proof.
  assert (K : forall n l a p x m, (List.length l <= n)%nat -> Nat.Even (List.length l) -> read_pairs (l ++ m) a p x = match read_pairs l a p x with Some (b, q, y) => read_pairs m b q y | None => None end).
  { induction n as [|n IH]; intros [|k [|v r]] a p x m L E; cbn [List.length] in L; try lia; try reflexivity; [destruct E as (z & E); cbn in E; lia|]. cbn [app read_pairs]. assert (E' : Nat.Even (List.length r)) by (destruct E as (z & E); cbn [List.length] in E; exists (z - 1)%nat; lia).
    destruct (str_eqb k (lit "raddr")); [apply IH; [lia|exact E']|]. destruct (str_eqb k (lit "rport")); [destruct (parse_uint u16_max v); [apply IH; [lia|exact E']|reflexivity]|]. apply IH; [lia|exact E']. }
  intros l a p x a' p' e' m H. apply (K (List.length l)); [lia|]. clear K. induction H as [|l a0 p0 e0 v S IH|l a0 p0 e0 v n S IH N|l a0 p0 e0 k v S IH N1 N2]; [exists 0%nat; reflexivity|..]; rewrite app_length; destruct IH as (z & ->); exists (z + 1)%nat; cbn; lia.
Qed.
Lemma pairs_says : forall l a p e, says_pairs l a p e <-> read_pairs l None None [] = Some (a, p, e).
Proof.
  intros l a p e. split; [|intros R; exact (pairs_app [] l None None [] a p e sp_end R)].
  intros S. induction S as [|l a p e v S IH|l a p e v n S IH N|l a p e k v S IH N1 N2]; [reflexivity|..]; rewrite (read_app _ _ _ _ _ _ _ _ S), IH; cbn [read_pairs].
  - reflexivity.
  - change (str_eqb (lit "rport") (lit "raddr")) with false. change (str_eqb (lit "rport") (lit "rport")) with true. cbv iota. unfold says_number in N. now rewrite N.
  - apply str_eqb_neq in N1, N2. now rewrite N1, N2.
Qed.

(** ** C184 *)
(** a line is read as exactly the candidate it says *)
Theorem C184_read : forall v c, read_candidate v = Some c <-> says v c.
Proof.
  intros v c. unfold read_candidate, says. split.
  - destruct (split_ws v) as [|f [|co [|t [|p [|a [|o [|y [|k rest]]]]]]]] eqn:W; try discriminate. destruct (parse_uint u32_max co) as [co'|] eqn:E1; [|discriminate]. destruct (parse_uint u32_max p) as [p'|] eqn:E2; [|discriminate]. destruct (parse_uint u16_max o) as [o'|] eqn:E3; [|discriminate].
    destruct (str_eqb y (lit "typ")) eqn:Y; [|discriminate]. apply str_eqb_spec in Y. subst y. destruct (read_pairs rest None None []) as [((ra, rp), ext)|] eqn:R; [|discriminate]. intros H. injection H as <-. exists co, t, p, o, k, rest. cbn [k_foundation k_component k_transport k_priority k_address k_port k_kind k_raddr k_rport k_ext].
    refine (conj _ (conj E1 (conj _ (conj E2 (conj E3 (conj _ _)))))); [now apply words_iff|now apply transport_says|now apply kind_says|now apply pairs_says].
  - intros (co & t & p & o & k & rest & W & E1 & T & E2 & E3 & K & R). apply words_iff in W. apply transport_says in T. apply kind_says in K. apply pairs_says in R. unfold says_number in *. rewrite W, E1, E2, E3, R. change (str_eqb (lit "typ") (lit "typ")) with true. cbv iota. rewrite T, K. now destruct c.
Qed.
Print Assumptions C184_read.

(** everything that is read fits a line *)
Lemma number_le : forall mx s n, parse_uint mx s = Some n -> n <= mx.
Proof. intros mx s n H. unfold parse_uint in H. cbv zeta in H. repeat match type of H with match ?b with _ => _ end = _ => destruct b eqn:?; try discriminate end; try (injection H as <-); lia. Qed.
Lemma pairs_fit : forall l a p e, says_pairs l a p e -> (forall w, In w l -> word w) -> (forall x, a = Some x -> word x) /\ (forall n, p = Some n -> n <= u16_max) /\ forall k v, In (k, v) e -> word k /\ word v /\ k <> lit "raddr" /\ k <> lit "rport".
Proof.
  intros l a p e S. induction S as [|l a p e v S IH|l a p e v n S IH N|l a p e k v S IH N1 N2]; intros W; [refine (conj _ (conj _ _)); [discriminate|discriminate|intros k v []]|..];
    (destruct IH as (I1 & I2 & I3); [intros w Hw; apply W, in_or_app; now left|]).
  - refine (conj _ (conj I2 I3)). intros x X. injection X as <-. apply W, in_or_app. right. right. now left.
  - refine (conj I1 (conj _ I3)). intros x X. injection X as <-. exact (number_le _ _ _ N).
  - refine (conj I1 (conj I2 _)). intros k' v' H. apply in_app_or in H as [H|[H|[]]]; [now apply I3|]. apply pair_equal_spec in H as (<- & <-). refine (conj _ (conj _ (conj N1 N2))); apply W, in_or_app; right; [now left|right; now left].
Qed.
Theorem C184_fits : forall v c, read_candidate v = Some c -> fits c.
Proof.
  intros v c R. apply C184_read in R as (co & t & p & o & k & rest & W & E1 & T & E2 & E3 & K & P). pose proof (words_words _ _ W) as A. clear W. destruct (pairs_fit _ _ _ _ P) as (P1 & P2 & P3); [intros w Hw; apply A; do 8 right; exact Hw|].
  refine (conj (A _ _) (conj (A _ _) (conj (number_le _ _ _ E1) (conj (number_le _ _ _ E2) (conj (number_le _ _ _ E3) (conj _ (conj _ (conj P1 (conj P2 P3))))))))); [now left|do 4 right; now left|..].
  - destruct T as [(_ & ->)|[(_ & ->)|(T1 & T2 & ->)]]; [exact I|exact I|]. refine (conj (A _ _) (conj T1 T2)). do 2 right. now left.
  - destruct K as [[K|[K|[K|[K|[]]]]]|(K1 & ->)]; [apply (f_equal snd) in K; cbn [snd] in K; rewrite <- K; exact I..|]. refine (conj (A _ _) K1). do 7 right. now left.
Qed.
Print Assumptions C184_fits.

(** a candidate that fits a line is read back from its own line *)
Definition pair_words (c : candidate) : list str :=
  match k_raddr c with Some a => [lit "raddr"; a] | None => [] end ++ match k_rport c with Some p => [lit "rport"; print_N p] | None => [] end ++ flat_map joined (k_ext c).
Lemma write_words : forall c, write_candidate c = k_foundation c ++ SdpCore.spaced ([print_N (k_component c); transport_text (k_transport c); print_N (k_priority c); k_address c; print_N (k_port c); lit "typ"; kind_text (k_kind c)] ++ pair_words c).
Proof.
  intros c. assert (F : forall a b, SdpCore.spaced (a ++ b) = SdpCore.spaced a ++ SdpCore.spaced b) by (intros a b; unfold SdpCore.spaced; apply flat_map_app).
  assert (E : forall l, SdpCore.spaced (flat_map joined l) = flat_map pair_text l) by (induction l as [|(x, y) l IH]; [reflexivity|]; cbn [flat_map]; rewrite F, IH; unfold joined, pair_text, SdpCore.spaced; cbn [flat_map fst snd]; rewrite app_nil_r; reflexivity).
  assert (A : forall o : option str, SdpCore.spaced (match o with Some a => [lit "raddr"; a] | None => [] end) = match o with Some a => lit " raddr " ++ a | None => [] end) by (intros [a|]; [|reflexivity]; unfold SdpCore.spaced; cbn [flat_map]; rewrite app_nil_r; reflexivity).
  assert (B : forall o, SdpCore.spaced (match o with Some p => [lit "rport"; print_N p] | None => [] end) = match o with Some p => lit " rport " ++ print_N p | None => [] end) by (intros [a|]; [|reflexivity]; unfold SdpCore.spaced; cbn [flat_map]; rewrite app_nil_r; reflexivity).
  unfold pair_words. rewrite !F, E, A, B. unfold write_candidate. f_equal. unfold SdpCore.spaced at 1. cbn [flat_map]. rewrite app_nil_r. cbn [app]. repeat (rewrite <- app_assoc; cbn [app]). reflexivity.
Qed.
Lemma number_word : forall n, word (print_N n).
Proof. intros n. split; [apply print_N_spec|]. intros c H. apply print_N_digits in H. unfold is_ws, in_range. lia. Qed.
Lemma word_by : forall w, negb (str_eqb w []) && forallb (fun c => negb (is_ws c)) w = true -> word w.
Proof. intros w H. apply andb_true_iff in H as (H1 & H2). split; [intros ->; discriminate|]. intros c C. rewrite forallb_forall in H2. apply H2 in C. now apply negb_true_iff. Qed.
Lemma pairs_back : forall c, fits c -> says_pairs (pair_words c) (k_raddr c) (k_rport c) (k_ext c).
Proof.
  intros c (_ & _ & _ & _ & _ & _ & _ & _ & P & E).
  assert (K : forall l m a p e, says_pairs m a p e -> (forall k v, In (k, v) l -> k <> lit "raddr" /\ k <> lit "rport") -> says_pairs (m ++ flat_map joined l) a p (e ++ l)).
  { induction l as [|(x, y) l IH]; intros m a p e S N; [now rewrite !app_nil_r|]. destruct (N x y (or_introl eq_refl)) as (N1 & N2). cbn [flat_map]. change ((x, y) :: l) with ([(x, y)] ++ l). rewrite !app_assoc. apply IH; [|intros k v H; apply (N k v); now right]. now apply sp_ext. }
  unfold pair_words. rewrite app_assoc. apply (K (k_ext c) _ _ _ []); [|intros k v H; apply (E k v) in H; tauto].
  assert (S : says_pairs (match k_raddr c with Some a => [lit "raddr"; a] | None => [] end) (k_raddr c) None []) by (destruct (k_raddr c) as [a|]; [exact (sp_addr [] None None [] a sp_end)|exact sp_end]).
  destruct (k_rport c) as [p|]; [|rewrite app_nil_r; exact S]. apply sp_port with None; [exact S|]. apply parse_uint_print. now apply P.
Qed.
Theorem C184_roundtrip : forall c, fits c -> read_candidate (write_candidate c) = Some c.
Proof.
  intros c F. apply C184_read. pose proof (pairs_back c F) as P. destruct F as (F1 & F2 & F3 & F4 & F5 & F6 & F7 & F8 & F9 & F10).
  exists (print_N (k_component c)), (transport_text (k_transport c)), (print_N (k_priority c)), (print_N (k_port c)), (kind_text (k_kind c)), (pair_words c).
  refine (conj _ (conj _ (conj _ (conj _ (conj _ (conj _ P)))))); try (now apply parse_uint_print).
  - apply words_iff. rewrite write_words. apply SdpCoreProofs.ws_spaced; [exact F1|]. intros x X0. assert (X : In x ([print_N (k_component c); transport_text (k_transport c); print_N (k_priority c); k_address c; print_N (k_port c); lit "typ"; kind_text (k_kind c)] ++ pair_words c)) by exact X0. clear X0. apply in_app_or in X as [X|X].
    + destruct X as [<-|[<-|[<-|[<-|[<-|[<-|[<-|[]]]]]]]]; try apply number_word; [|exact F2|now apply word_by|]; [destruct (k_transport c); [now apply word_by|now apply word_by|exact (proj1 F6)]|destruct (k_kind c); [now apply word_by|now apply word_by|now apply word_by|now apply word_by|exact (proj1 F7)]].
    + unfold pair_words in X. apply in_app_or in X as [X|X]; [destruct (k_raddr c) as [a|]; [|destruct X]; destruct X as [<-|[<-|[]]]; [now apply word_by|now apply F8]|]. apply in_app_or in X as [X|X]; [destruct (k_rport c) as [a|]; [|destruct X]; destruct X as [<-|[<-|[]]]; [now apply word_by|apply number_word]|].
      apply in_flat_map in X as ((k, v) & X & Y). apply F10 in X as (X1 & X2 & _). destruct Y as [<-|[<-|[]]]; assumption.
  - destruct (k_transport c); [left; now split|right; left; now split|right; right]. destruct F6 as (_ & G1 & G2). now repeat split.
  - destruct (k_kind c); [left; now left|left; right; now left|left; do 2 right; now left|left; do 3 right; now left|right]. exact (conj (proj2 F7) eq_refl).
Qed.
Print Assumptions C184_roundtrip.
(** ... so reading, writing and reading again changes nothing *)
Theorem C184_again : forall v c, read_candidate v = Some c -> read_candidate (write_candidate c) = Some c.
Proof. intros v c R. apply C184_roundtrip. exact (C184_fits v c R). Qed.
Print Assumptions C184_again.
Definition relayed : candidate := mkCandidate (lit "842163049") 1 TUdp 1677729535 (lit "203.0.113.5") 55555 ServerReflexive (Some (lit "10.0.0.1")) (Some 5000) [(lit "generation", lit "0"); (lit "network-id", lit "1")].
Example C184_example : fits relayed /\ read_candidate (lit "842163049 1 UDP 1677729535 203.0.113.5 55555  typ srflx raddr 10.0.0.1 generation 0 rport 5000 network-id 1") = Some relayed.
Proof. assert (R : read_candidate (lit "842163049 1 UDP 1677729535 203.0.113.5 55555  typ srflx raddr 10.0.0.1 generation 0 rport 5000 network-id 1") = Some relayed) by (vm_compute; reflexivity). split; [exact (C184_fits _ _ R)|exact R]. Qed.

(** the candidates of a media section: one that fits is added behind the others, clearing
    removes them all, and neither touches any other attribute *)
Theorem C184_list : forall l c,
  (fits c -> candidates (add_candidate l c) = candidates l ++ [c]) /\ (exists a, add_candidate l c = l ++ [a])
  /\ candidates (clear_candidates l) = [] /\ (forall a, In a (clear_candidates l) <-> In a l /\ forall v, a <> AVal (lit "candidate") v)
  /\ (forall p q, l = p ++ q -> clear_candidates l = clear_candidates p ++ clear_candidates q).
Proof.
  intros l c. refine (conj _ (conj (ex_intro _ _ eq_refl) (conj _ (conj _ _)))).
  - intros F. unfold candidates, add_candidate. rewrite flat_map_app. f_equal. cbn [flat_map candidate_of]. change (str_eqb (lit "candidate") (lit "candidate")) with true. cbv iota. now rewrite C184_roundtrip.
  - unfold candidates, clear_candidates. induction l as [|a l IH]; [reflexivity|]. cbn [filter]. destruct (has_name (lit "candidate") a) eqn:H; cbn [negb]; [exact IH|]. cbn [flat_map]. rewrite IH, app_nil_r. unfold candidate_of. destruct a as [n|n v]; [reflexivity|]. cbn [has_name] in H. now rewrite H.
  - intros a. unfold clear_candidates. rewrite filter_In. apply and_iff_compat_l. destruct a as [n|n v]; cbn [has_name]; [split; [discriminate|reflexivity]|]. rewrite negb_true_iff, str_eqb_neq. split; [intros H w K; now injection K|intros H ->; now elim (H v)].
  - intros p q ->. apply filter_app.
Qed.
Print Assumptions C184_list.

(** the fields are public: a transport in capitals comes back as another value, an
    extension may pass for the related address, and a blank moves every field behind it *)
Theorem C184_fields_refuted :
  (exists c c', k_transport c = TOther (lit "UDP") /\ read_candidate (write_candidate c) = Some c' /\ k_transport c' = TUdp)
  /\ (exists c c', k_raddr c = None /\ k_ext c = [(lit "raddr", lit "10.0.0.1")] /\ read_candidate (write_candidate c) = Some c' /\ k_raddr c' = Some (lit "10.0.0.1") /\ k_ext c' = [])
  /\ exists c c', k_address c = lit "10.0.0.1 9 typ host x" /\ k_port c = 5060 /\ read_candidate (write_candidate c) = Some c' /\ k_address c' = lit "10.0.0.1" /\ k_port c' = 9.
Proof.
  refine (conj _ (conj _ _)).
  - exists (mkCandidate (lit "1") 1 (TOther (lit "UDP")) 1 (lit "a") 9 Host None None []). eexists. split; [reflexivity|]. split; [vm_compute; reflexivity|reflexivity].
  - exists (mkCandidate (lit "1") 1 TUdp 1 (lit "a") 9 Host None None [(lit "raddr", lit "10.0.0.1")]). eexists. split; [reflexivity|]. split; [reflexivity|]. split; [vm_compute; reflexivity|split; reflexivity].
  - exists (mkCandidate (lit "1") 1 TUdp 1 (lit "10.0.0.1 9 typ host x") 5060 Relay None None [(lit "x", lit "y")]). eexists. split; [reflexivity|]. split; [reflexivity|]. split; [vm_compute; reflexivity|split; reflexivity].
Qed.
Print Assumptions C184_fields_refuted.

(** ** C185 *)
Lemma find_value : forall n l, value_attr n l = match filter (has_name n) l with AVal _ v :: _ => Some v | _ => None end.
Proof.
  intros n. induction l as [|a l IH]; [reflexivity|]. unfold value_attr in *. cbn [find_map filter]. destruct a as [m|m v]; cbn [has_name]; [exact IH|]. destruct (str_eqb m n); [reflexivity|exact IH].
Qed.
(** what is set is what is read, alone, and everything else stays; each role has a word *)
Theorem C185_setup : forall l s,
  get_setup (set_setup l s) = Some s /\ (forall v, In (AVal (lit "setup") v) (set_setup l s) -> v = setup_text s)
  /\ (forall a, (forall v, a <> AVal (lit "setup") v) -> (In a (set_setup l s) <-> In a l))
  /\ forall t x, setup_of t = Some x <-> In (t, x) [(lit "active", SActive); (lit "passive", SPassive); (lit "actpass", SActPass); (lit "holdconn", SHoldConn)].
Proof.
  intros l s. assert (N : forall a, negb (has_name (lit "setup") a) = true <-> forall v, a <> AVal (lit "setup") v).
  { intros [n|n v]; cbn [has_name]; [split; [discriminate|reflexivity]|]. rewrite negb_true_iff, str_eqb_neq. split; [intros H w K; now injection K|intros H ->; now elim (H v)]. }
  refine (conj _ (conj _ (conj _ _))).
  - unfold get_setup, set_setup, set_value_attr. rewrite find_value, filter_app.
    assert (E : filter (has_name (lit "setup")) (filter (fun a => negb (has_name (lit "setup") a)) l) = []).
    { induction l as [|a l IH]; [reflexivity|]. cbn [filter]. destruct (has_name (lit "setup") a) eqn:H; cbn [negb filter]; [exact IH|]. now rewrite H. }
    rewrite E. now destruct s.
  - intros v H. unfold set_setup, set_value_attr in H. apply in_app_or in H as [H|[H|[]]]; [|now injection H]. apply filter_In in H as (_ & H). apply (proj1 (N _)) with (v := v) in H. now elim H.
  - intros a A. unfold set_setup, set_value_attr. rewrite in_app_iff, filter_In, N. split; [intros [(H & _)|[H|[]]]; [exact H|now elim (A (setup_text s))]|intros H; left; now split].
  - intros t x. unfold setup_of. split.
    + destruct (str_eqb t (lit "active")) eqn:E1; [apply str_eqb_spec in E1; intros H; injection H as <-; subst; now left|]. destruct (str_eqb t (lit "passive")) eqn:E2; [apply str_eqb_spec in E2; intros H; injection H as <-; subst; right; now left|].
      destruct (str_eqb t (lit "actpass")) eqn:E3; [apply str_eqb_spec in E3; intros H; injection H as <-; subst; do 2 right; now left|]. destruct (str_eqb t (lit "holdconn")) eqn:E4; [apply str_eqb_spec in E4; intros H; injection H as <-; subst; do 3 right; now left|discriminate].
    + intros [H|[H|[H|[H|[]]]]]; apply pair_equal_spec in H as (<- & <-); reflexivity.
Qed.
Print Assumptions C185_setup.
Example C185_example : get_setup (set_setup [AVal (lit "setup") (lit "actpass"); AVal (lit "mid") (lit "0")] SPassive) = Some SPassive. Proof. reflexivity. Qed.

(** ** C186 *)
Lemma rev_head : forall (x : str) c t, rev x = c :: t -> x = rev t ++ [c].
Proof. intros x c t E. rewrite <- (rev_involutive x), E. reflexivity. Qed.
Lemma drop_blanks : forall a x, blanks a -> (forall c t, x = c :: t -> is_ws c = false) -> drop_while is_ws (a ++ x) = x.
Proof.
  induction a as [|c a IH]; intros x B X; [destruct x as [|c x]; [reflexivity|]; cbn [app drop_while]; now rewrite (X c x eq_refl)|]. cbn [app drop_while]. rewrite (B c (or_introl eq_refl)). apply IH; [intros y Y; apply B; now right|exact X].
Qed.
Lemma bare_trim : forall s x, bare s x <-> trim s = x.
Proof.
  intros s x. split.
  - intros ((a & b & -> & A & B) & F & L). unfold trim, trim_by, trim_start_by. destruct x as [|c x].
    + cbn [app]. rewrite <- (app_nil_r (a ++ b)). rewrite drop_blanks; [reflexivity|intros c C; apply in_app_or in C as [C|C]; [now apply A|now apply B]|discriminate].
    + rewrite drop_blanks; [|exact A|intros d t E; injection E as <- _; exact (F c x eq_refl)]. rewrite trim_end_by_rev, rev_app_distr, drop_blanks; [apply rev_involutive|intros d D; apply B; now apply in_rev|]. intros d t E. exact (L d (rev t) (rev_head _ _ _ E)).
  - intros <-. pose proof (trim_by_no_edge is_ws s) as (E1 & E2). destruct (trim_by_sub is_ws s) as (a & b & E & A & B). fold (trim s) in *. refine (conj _ (conj _ _)).
    + exists a, b. rewrite forallb_forall in A, B. exact (conj E (conj A B)).
    + intros c t K. now rewrite K in E1.
    + intros c t K. rewrite K, rev_app_distr in E2. exact E2.
Qed.
Lemma number_no_blank : forall mx i n, parse_uint mx i = Some n -> ~ In 32 i.
Proof.
  intros mx i n H I. apply SdpProofs.parse_uint_word in H as (_ & H). rewrite forallb_forall in H. apply H in I. discriminate.
Qed.
(** a fingerprint and an ssrc line are read as what they say *)
Theorem C186_read : (forall v f, read_fingerprint v = Some f <-> says_print v f) /\ (forall v x, read_ssrc v = Some x <-> says_ssrc v x).
Proof.
  split.
  - intros v f. unfold read_fingerprint, says_print. split.
    + destruct (split_once 32 v) as [(h, r)|] eqn:S; [|discriminate]. apply split_once_some in S as (-> & S). intros E. injection E as <-. cbn [f_hash f_print]. exists r. refine (conj eq_refl (conj _ _)); [now apply mem_false|now apply bare_trim].
    + intros (r & -> & N & B). apply bare_trim in B. apply mem_false in N. change (f_hash f ++ [32] ++ r) with (f_hash f ++ 32 :: r). rewrite split_once_app by exact N. rewrite B. now destruct f.
  - intros v x. unfold read_ssrc, says_ssrc, says_number. split.
    + destruct (split_once 32 v) as [(i, r)|] eqn:S; [|discriminate]. apply split_once_some in S as (-> & S). destruct (parse_uint u32_max i) as [n|] eqn:P; [|discriminate]. intros E. injection E as <-. exists i, r, (trim r).
      destruct (split_once 58 (trim r)) as [(a, w)|] eqn:T; cbn [s_id s_attr s_value].
      * apply split_once_some in T as (T1 & T2). refine (conj eq_refl (conj P (conj _ (conj _ _)))); [now apply bare_trim|now apply mem_false|exact T1].
      * apply split_once_none in T. refine (conj eq_refl (conj P (conj _ (conj _ _)))); [now apply bare_trim|now apply mem_false|now rewrite app_nil_r].
    + intros (i & r & t & -> & P & B & N & T). apply bare_trim in B. pose proof (number_no_blank _ _ _ P) as M. apply mem_false in M. apply mem_false in N. change (i ++ [32] ++ r) with (i ++ 32 :: r). rewrite split_once_app by exact M. rewrite P, B, T. destruct x as [n a [w|]]; cbn [s_id s_attr s_value] in *.
      * change (a ++ [58] ++ w) with (a ++ 58 :: w). now rewrite split_once_app by exact N.
      * rewrite app_nil_r. apply split_once_none in N. now rewrite N.
Qed.
Print Assumptions C186_read.
Example C186_example : read_fingerprint (lit "sha-256  AB:CD ") = Some (mkFp (lit "sha-256") (lit "AB:CD")) /\ read_ssrc (lit "1234 msid:stream track") = Some (mkSsrc 1234 (lit "msid") (Some (lit "stream track"))) /\ read_ssrc (lit "12x cname:a") = None.
Proof. repeat split; vm_compute; reflexivity. Qed.
