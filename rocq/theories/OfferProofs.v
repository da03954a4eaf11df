(** The codecs of an offer, and the loop over its streams. *)
From Coq Require Import Arith NArith Bool String List Lia ZifyBool ZifyN ZifyNat Permutation.
Import ListNotations.
From Verif Require Import Base BaseFacts NumFacts TypedFacts Msg SdpCore SdpCoreSpec SdpCoreProofs SdpCoreWrite OfferAnswer OfferSpec.
Open Scope N_scope.
Open Scope list_scope.

(** ** Attributes *)
Section Reads.
  Context {A : Type} (name : str) (p : str -> option A).
  Lemma read_in : forall l x, In x (read_all name p l) <-> exists v, In (name, Some v) l /\ p v = Some x.
  Proof.
    induction l as [|(n, [v|]) l IH]; intros x; cbn [read_all].
    - split; [intros []|intros (v & [] & _)].
    - destruct (str_eqb n name) eqn:E.
      + apply str_eqb_spec in E. subst n. destruct (p v) as [y|] eqn:P; cbn [In]; rewrite IH; split.
        * intros [<-|(w & H1 & H2)]; [exists v; tauto|exists w; tauto].
        * intros (w & [H1|H1] & H2); [injection H1 as <-; left; congruence|right; now exists w].
        * intros (w & H1 & H2); exists w; tauto.
        * intros (w & [H1|H1] & H2); [injection H1 as <-; congruence|now exists w].
      + rewrite IH. apply str_eqb_neq in E. split; intros (w & H1 & H2); exists w; (split; [|exact H2]); [now right|]. destruct H1 as [H1|H1]; [|exact H1]. congruence.
    - rewrite IH. split; intros (w & H1 & H2); exists w; (split; [|exact H2]); [now right|]. destruct H1 as [H1|H1]; [discriminate|exact H1].
  Qed.
  Lemma read_app : forall a b, read_all name p (a ++ b) = read_all name p a ++ read_all name p b.
  Proof.
    induction a as [|(n, [v|]) a IH]; intros b; cbn [app read_all]; [reflexivity| |apply IH]. destruct (str_eqb n name); [|apply IH]. destruct (p v); [cbn [app]; f_equal|]; apply IH.
  Qed.
  Lemma read_cut : forall l a x b, read_all name p l = a ++ x :: b -> exists l1 v l2, l = l1 ++ (name, Some v) :: l2 /\ p v = Some x /\ read_all name p l2 = b.
  Proof.
    induction l as [|(n, [v|]) l IH]; intros a x b H; cbn [read_all] in H.
    - now destruct a.
    - destruct (str_eqb n name) eqn:E.
      + apply str_eqb_spec in E. subst n. destruct (p v) as [y|] eqn:P.
        * destruct a as [|z a]; cbn [app] in H; injection H as H1 H2.
          -- exists [], v, l. subst y. now repeat split.
          -- destruct (IH a x b H2) as (l1 & w & l2 & -> & Q1 & Q2). now exists ((name, Some v) :: l1), w, l2.
        * destruct (IH a x b H) as (l1 & w & l2 & -> & Q1 & Q2). now exists ((name, Some v) :: l1), w, l2.
      + destruct (IH a x b H) as (l1 & w & l2 & -> & Q1 & Q2). now exists ((n, Some v) :: l1), w, l2.
    - destruct (IH a x b H) as (l1 & w & l2 & -> & Q1 & Q2). now exists ((n, None) :: l1), w, l2.
  Qed.
  Lemma read_none : forall l, (forall a, In a l -> fst a <> name) -> read_all name p l = [].
  Proof.
    induction l as [|(n, [v|]) l IH]; intros H; cbn [read_all]; [reflexivity| |apply IH; intros; apply H; now right]. assert (E : str_eqb n name = false) by (apply str_eqb_neq; apply (H (n, Some v)); now left). rewrite E. apply IH. intros a Ha. apply H. now right.
  Qed.
End Reads.

(** ** The map of codecs *)
Definition key (r : rtpmap) : str := print_N (rt_pt r).
Lemma put_in : forall k r l f x, NoDup (map fst l) -> (In (f, x) (rm_put k r l) <-> (f = k /\ x = r) \/ (f <> k /\ In (f, x) l)).
Proof.
  intros k r. induction l as [|(k', r') l IH]; intros f x ND; cbn [rm_put].
  - cbn [In]. split; [intros [H|[]]; injection H as <- <-; now left|intros [(-> & ->)|(_ & [])]; now left].
  - cbn [map fst] in ND. inversion ND as [|? ? N1 N2]; subst. destruct (str_eqb k k') eqn:E.
    + apply str_eqb_spec in E. subst k'. cbn [In]. split.
      * intros [H|H]; [injection H as <- <-; now left|]. right. split; [|now right]. intros ->. apply N1. apply in_map_iff. now exists (k, x).
      * intros [(-> & ->)|(NE & [H|H])]; [now left|injection H as -> ->; now elim NE|now right].
    + apply str_eqb_neq in E. cbn [In]. rewrite (IH f x N2). split.
      * intros [H|[(-> & ->)|(NE & H)]]; [injection H as <- <-; right; split; [congruence|now left]|now left|right; split; [exact NE|now right]].
      * intros [(-> & ->)|(NE & [H|H])]; [right; now left|now left|right; right; now split].
Qed.
Lemma put_keys : forall k r l f, In f (map fst (rm_put k r l)) -> f = k \/ In f (map fst l).
Proof.
  intros k r. induction l as [|(k', r') l IH]; intros f H; cbn [rm_put] in H; [destruct H as [<-|[]]; now left|]. destruct (str_eqb k k') eqn:E.
  - cbn [map fst In] in *. destruct H as [<-|H]; [now left|right; now right].
  - cbn [map fst In] in *. destruct H as [<-|H]; [right; now left|]. destruct (IH f H) as [->|H']; [now left|right; now right].
Qed.
Lemma put_nodup : forall k r l, NoDup (map fst l) -> NoDup (map fst (rm_put k r l)).
Proof.
  intros k r. induction l as [|(k', r') l IH]; intros ND; cbn [rm_put].
  - cbn. constructor; [intros []|constructor].
  - cbn [map fst] in ND. inversion ND as [|? ? N1 N2]; subst. destruct (str_eqb k k') eqn:E.
    + apply str_eqb_spec in E. subst k'. cbn [map fst]. now constructor.
    + apply str_eqb_neq in E. cbn [map fst]. constructor; [|now apply IH]. intros H. apply put_keys in H as [->|H]; [now elim E|contradiction].
Qed.
Definition last_for (rs : list rtpmap) (f : str) (x : rtpmap) : Prop := exists a b, rs = a ++ x :: b /\ key x = f /\ forall y, In y b -> key y <> f.
Definition none_for (rs : list rtpmap) (f : str) : Prop := forall y, In y rs -> key y <> f.
Lemma puts_in : forall rs l f x, NoDup (map fst l) ->
  (In (f, x) (fold_left (fun l r => rm_put (key r) r l) rs l) <-> last_for rs f x \/ (none_for rs f /\ In (f, x) l)) /\ NoDup (map fst (fold_left (fun l r => rm_put (key r) r l) rs l)).
Proof.
  induction rs as [|r rs IH]; intros l f x ND; cbn [fold_left].
  - split; [|exact ND]. split; [intros H; right; split; [intros y []|exact H]|]. intros [(a & b & H & _)|(_ & H)]; [now destruct a|exact H].
  - destruct (IH (rm_put (key r) r l) f x (put_nodup _ r _ ND)) as (H1 & H2). split; [|exact H2]. rewrite H1, put_in by exact ND. split.
    + intros [(a & b & -> & K & L)|(N & [(-> & ->)|(NE & H)])].
      * left. exists (r :: a), b. now repeat split.
      * left. exists [], rs. repeat split. exact N.
      * right. split; [|exact H]. intros y [<-|Hy]; [congruence|now apply N].
    + intros [(a & b & E & K & L)|(N & H)].
      * destruct a as [|z a]; cbn [app] in E; injection E as -> ->; [right; split; [exact L|left; now split]|]. left. now exists a, b.
      * right. split; [intros y Hy; apply N; now right|]. right. split; [|exact H]. intros E. apply (N r); [now left|]. now rewrite E.
Qed.
Lemma has_spec : forall f l, rm_has f l = true <-> exists x, In (f, x) l.
Proof.
  intros f l. unfold rm_has. rewrite existsb_exists. split.
  - intros ((k, x) & H & E). cbn [fst] in E. apply str_eqb_spec in E. subst. now exists x.
  - intros (x & H). exists (f, x). split; [exact H|apply str_eqb_refl].
Qed.
Lemma statics_in : forall fs l f x, NoDup (map fst l) ->
  (In (f, x) (fold_left (fun l f => if rm_has f l then l else match static_map f with Some r => rm_put f r l | None => l end) fs l)
   <-> In (f, x) l \/ (rm_has f l = false /\ In f fs /\ static_map f = Some x))
  /\ NoDup (map fst (fold_left (fun l f => if rm_has f l then l else match static_map f with Some r => rm_put f r l | None => l end) fs l)).
Proof.
  induction fs as [|g fs IH]; intros l f x ND; cbn [fold_left].
  - split; [|exact ND]. cbn [In]. tauto.
  - destruct (rm_has g l) eqn:G; [|destruct (static_map g) as [r|] eqn:S].
    + destruct (IH l f x ND) as (H1 & H2). split; [|exact H2]. rewrite H1. cbn [In]. split; [tauto|]. intros [H|(H & [->|K] & L)]; [tauto|congruence|tauto].
    + destruct (IH (rm_put g r l) f x (put_nodup g r l ND)) as (H1 & H2). split; [|exact H2]. rewrite H1, put_in by exact ND. cbn [In].
      assert (HH : f <> g -> rm_has f (rm_put g r l) = rm_has f l).
      { intros NE. destruct (rm_has f l) eqn:E.
        - apply has_spec in E as (y & E). apply has_spec. exists y. apply put_in; [exact ND|]. now right.
        - destruct (rm_has f (rm_put g r l)) eqn:E2; [|reflexivity]. apply has_spec in E2 as (y & E2). apply put_in in E2 as [(-> & _)|(_ & E2)]; [congruence| |exact ND]. assert (X : rm_has f l = true) by (apply has_spec; now exists y). congruence. }
      split.
      * intros [[(-> & ->)|(NE & H)]|(H & K & L)]; [right; tauto|tauto|]. right. split; [|tauto]. destruct (list_eq_dec N.eq_dec f g) as [->|NE]; [exact G|now rewrite <- HH].
      * intros [H|(H & [<-|K] & L)].
        -- left. destruct (list_eq_dec N.eq_dec f g) as [->|NE]; [|tauto]. exfalso. assert (X : rm_has g l = true) by (apply has_spec; now exists x). congruence.
        -- left. left. split; [reflexivity|congruence].
        -- destruct (list_eq_dec N.eq_dec f g) as [->|NE]; [left; left; split; [reflexivity|congruence]|]. right. rewrite HH by exact NE. tauto.
    + destruct (IH l f x ND) as (H1 & H2). split; [|exact H2]. rewrite H1. cbn [In]. split; [tauto|]. intros [H|(H & [->|K] & L)]; [tauto|congruence|tauto].
Qed.
Lemma static_spec : forall f r, static_map f = Some r <-> exists n name, In (f, (n, name)) well_known /\ r = mkRtp n name 8000 None.
Proof.
  intros f r. split.
  - unfold static_map, well_known. intros H.
    destruct (str_eqb f (lit "0")) eqn:E0; [apply str_eqb_spec in E0; exists 0, (lit "PCMU"); split; [left; now rewrite E0|congruence]|].
    destruct (str_eqb f (lit "8")) eqn:E1; [apply str_eqb_spec in E1; exists 8, (lit "PCMA"); split; [do 3 right; left; now rewrite E1|congruence]|].
    destruct (str_eqb f (lit "3")) eqn:E2; [apply str_eqb_spec in E2; exists 3, (lit "GSM"); split; [right; left; now rewrite E2|congruence]|].
    destruct (str_eqb f (lit "4")) eqn:E3; [apply str_eqb_spec in E3; exists 4, (lit "G723"); split; [do 2 right; left; now rewrite E3|congruence]|].
    destruct (str_eqb f (lit "9")) eqn:E4; [apply str_eqb_spec in E4; exists 9, (lit "G722"); split; [do 4 right; left; now rewrite E4|congruence]|].
    destruct (str_eqb f (lit "18")) eqn:E5; [apply str_eqb_spec in E5; exists 18, (lit "G729"); split; [do 5 right; left; now rewrite E5|congruence]|].
    discriminate.
  - intros (n & name & H & ->). cbn [well_known In] in H. unfold well_known in H. cbn [In] in H. repeat destruct H as [H|H]; try contradiction; apply pair_equal_spec in H as (<- & H); apply pair_equal_spec in H as (<- & <-); reflexivity.
Qed.
Lemma mapped_iff : forall m f x, mapped m f x <-> last_for (read_all (lit "rtpmap") p_rtpmap (md_attrs m)) f x.
Proof.
  intros m f x. split.
  - intros (a & v & b & E & P & K & L). exists (read_all (lit "rtpmap") p_rtpmap a), (read_all (lit "rtpmap") p_rtpmap b). rewrite E, read_app. split; [cbn [read_all]; rewrite str_eqb_refl, P; reflexivity|]. split; [exact K|]. intros y Hy. apply read_in in Hy as (w & H1 & H2). now apply (L w).
  - intros (a & b & E & K & L). apply read_cut in E as (l1 & v & l2 & E1 & E2 & E3). exists l1, v, l2. split; [exact E1|]. split; [exact E2|]. split; [exact K|]. intros w q H1 H2. apply L. rewrite <- E3. apply read_in. now exists w.
Qed.
Lemma unmapped_iff : forall m f, unmapped m f <-> none_for (read_all (lit "rtpmap") p_rtpmap (md_attrs m)) f.
Proof.
  intros m f. split.
  - intros H y Hy. apply read_in in Hy as (w & H1 & H2). now apply (H w).
  - intros H w q H1 H2. apply H. apply read_in. now exists w.
Qed.
Lemma extract_iff : forall m f x, In (f, x) (extract m) <-> offers m f x.
Proof.
  intros m f x. unfold extract. cbv zeta. set (rs := read_all (lit "rtpmap") p_rtpmap (md_attrs m)). change (fun l r => rm_put (print_N (rt_pt r)) r l) with (fun l r => rm_put (key r) r l).
  assert (E : forall y, In (f, y) (fold_left (fun l r => rm_put (key r) r l) rs []) <-> last_for rs f y).
  { intros y. rewrite (proj1 (puts_in rs [] f y (NoDup_nil _))). cbn [In]. tauto. }
  rewrite (proj1 (statics_in (md_fmt m) _ f x (proj2 (puts_in rs [] f x (NoDup_nil _))))), E. unfold offers. rewrite <- (static_spec f x), unmapped_iff, mapped_iff. fold rs.
  assert (H : rm_has f (fold_left (fun l r => rm_put (key r) r l) rs []) = false <-> none_for rs f).
  { rewrite <- not_true_iff_false, has_spec. split.
    - intros H y Hy K. apply H. clear H E. assert (L : exists z, last_for rs f z).
      { clear x. induction rs as [|r rs IH]; [destruct Hy|]. destruct (in_dec (list_eq_dec N.eq_dec) f (map key rs)) as [I|NI].
        - apply in_map_iff in I as (z & K1 & K2). destruct Hy as [->|Hy].
          + assert (X : exists z, last_for rs f z).
            { clear y K IH. revert z K1 K2. induction rs as [|q rs IH]; intros z K1 K2; [destruct K2|]. destruct (in_dec (list_eq_dec N.eq_dec) f (map key rs)) as [I|NI].
              - apply in_map_iff in I as (u & U1 & U2). destruct (IH u U1 U2) as (w & a & b & -> & W). exists w, (q :: a), b. now split.
              - destruct K2 as [->|K2]; [|exfalso; apply NI; apply in_map_iff; now exists z]. exists z, [], rs. split; [reflexivity|]. split; [exact K1|]. intros u Hu Q. apply NI. apply in_map_iff. now exists u. }
            destruct X as (w & a & b & -> & W). exists w, (y :: a), b. now split.
          + destruct (IH Hy) as (w & a & b & -> & W). exists w, (r :: a), b. now split.
        - destruct Hy as [->|Hy]; [|exfalso; apply NI; apply in_map_iff; now exists y]. exists y, [], rs. split; [reflexivity|]. split; [exact K|]. intros u Hu Q. apply NI. apply in_map_iff. now exists u. }
      destruct L as (z & L). exists z. apply (proj1 (puts_in rs [] f z (NoDup_nil _))). now left.
    - intros H (y & Hy). apply E in Hy as (a & b & -> & K & _). apply (H y); [apply in_or_app; right; now left|exact K]. }
  rewrite H. reflexivity.
Qed.
Lemma extract_nodup : forall m, NoDup (map fst (extract m)).
Proof. intros m. unfold extract. cbv zeta. apply (proj2 (statics_in (md_fmt m) _ [] (mkRtp 0 [] 0 None) (proj2 (puts_in _ [] [] (mkRtp 0 [] 0 None) (NoDup_nil _))))). Qed.
Lemma fits_iff : forall c r, codec_matches c r = true <-> fits c r.
Proof.
  intros c r. unfold codec_matches, fits. rewrite !andb_true_iff, N.eqb_eq. rewrite eq_ic_spec. split.
  - intros ((A & B) & C). split; [exact A|]. split; [exact B|]. destruct (co_channels c) as [n|], (rt_params r) as [p|]; try discriminate; [|right; apply N.eqb_eq in C; now subst|now left]. destruct (parse_uint u16_max p) as [k|]; [|discriminate]. apply N.eqb_eq in C. subst. now exists n.
  - intros (A & B & C). split; [now split|]. destruct (rt_params r) as [p|].
    + destruct C as (n & -> & ->). apply N.eqb_refl.
    + destruct C as [-> | ->]; reflexivity.
Qed.
Lemma supported_iff : forall o m c, (exists cs, supported o m = Some cs /\ In c cs) <-> codecs_for o m c.
Proof.
  intros o m c. unfold supported, codecs_for. destruct (str_eqb (md_type m) (lit "audio")) eqn:A; [|destruct (str_eqb (md_type m) (lit "video")) eqn:V].
  - apply str_eqb_spec in A. rewrite A. split; [intros (cs & [= <-] & H); now left|]. intros [(_ & H)|(K & _)]; [now exists (ao_audio o)|discriminate].
  - apply str_eqb_spec in V. rewrite V. split; [intros (cs & [= <-] & H); now right|]. intros [(K & _)|(_ & H)]; [discriminate|now exists (ao_video o)].
  - apply str_eqb_neq in A, V. split; [intros (cs & K & _); discriminate|]. intros [(K & _)|(K & _)]; congruence.
Qed.

(** ** One stream *)
Definition chosen (ord : order) (cs : list codec) (m : media) : list (str * rtpmap) := filter (fun p => existsb (fun c => codec_matches c (snd p)) cs) (ord (extract m)).
Lemma chosen_iff : forall ords k o m cs, any_order ords -> supported o m = Some cs -> forall f r, In (f, r) (chosen (ords k) cs m) <-> common o m f r.
Proof.
  intros ords k o m cs O S f r. unfold chosen. rewrite filter_In, (O k _ (extract_nodup m)), extract_iff, existsb_exists. unfold common. cbn [snd]. split.
  - intros (A & c & H & M). split; [exact A|]. exists c. split; [apply supported_iff; now exists cs|now apply fits_iff].
  - intros (A & c & H & M). split; [exact A|]. apply supported_iff in H as (cs' & S' & H). exists c. split; [congruence|now apply fits_iff].
Qed.
Lemma chosen_nodup : forall ords k cs m, keeps_unique ords -> NoDup (map fst (chosen (ords k) cs m)).
Proof.
  intros ords k cs m K. unfold chosen. specialize (K k _ (extract_nodup m)). revert K. generalize (ords k (extract m)). intros l. induction l as [|p l IH]; intros H; [constructor|]. cbn [filter]. cbn [map] in H. inversion H as [|? ? H1 H2]; subst.
  destruct (existsb _ cs); [|now apply IH]. cbn [map]. constructor; [|now apply IH]. intros X. apply H1. apply in_map_iff in X as (q & Q1 & Q2). apply filter_In in Q2 as (Q2 & _). apply in_map_iff. now exists q.
Qed.
Definition accept (o : answer_options) (m : media) (port : N) (com : list (str * rtpmap)) : media :=
  mkMedia (md_type m) port None (md_proto m) (map fst com) None None [] None
    (codec_attrs m com ++ (dir_text (match ao_override o with Some d => d | None => mirror (media_dir m) end), None) :: preconditions o m) (md_mid m) (md_rtcp m) (md_caps m).
Lemma negotiate_spec : forall ords k o m port, any_order ords ->
  match negotiate (ords k) o m port with
  | Some x => (exists f r, common o m f r) /\ exists cs, supported o m = Some cs /\ x = accept o m port (chosen (ords k) cs m)
  | None => forall f r, ~ common o m f r
  end.
Proof.
  intros ords k o m port O. unfold negotiate. destruct (supported o m) as [cs|] eqn:S; cbn [bindo].
  - fold (chosen (ords k) cs m). destruct (chosen (ords k) cs m) as [|(f, r) l] eqn:C.
    + cbn. intros f r H. apply (chosen_iff ords k o m cs O S) in H. rewrite C in H. destruct H.
    + cbn [llen List.length]. rewrite guard_true by (unfold llen; cbn [List.length]; lia). cbn [bindo]. split.
      * exists f, r. apply (chosen_iff ords k o m cs O S). rewrite C. now left.
      * exists cs. split; [reflexivity|]. rewrite C. reflexivity.
  - intros f r (_ & c & H & _). apply supported_iff in H as (cs & K & _). congruence.
Qed.
(** ** The loop *)
Definition flag (ords : nat -> order) (o : answer_options) (k : nat) (m : media) : bool := negb (existsb (Nat.eqb k) (ao_reject o)) && is_some (negotiate (ords k) o m 0).
Lemma rejects_iff : forall k l, existsb (Nat.eqb k) l = true <-> In k l.
Proof. intros k l. rewrite existsb_exists. split; [intros (x & H & E); apply Nat.eqb_eq in E; now subst|intros H; exists k; split; [exact H|apply Nat.eqb_refl]]. Qed.
Lemma negotiate_port : forall ord o m p q, is_some (negotiate ord o m p) = is_some (negotiate ord o m q).
Proof. intros ord o m p q. unfold negotiate. destruct (supported o m); cbn [bindo]; [|reflexivity]. destruct (guard _); reflexivity. Qed.
Lemma flag_taken : forall ords o k m, any_order ords -> flag ords o k m = true <-> taken o k m.
Proof.
  intros ords o k m O. unfold flag, taken. rewrite andb_true_iff, negb_true_iff, <- not_true_iff_false, rejects_iff. pose proof (negotiate_spec ords k o m 0 O) as N. destruct (negotiate (ords k) o m 0) as [x|]; cbn [is_some].
  - destruct N as (N & _). tauto.
  - split; [intros (_ & K); discriminate|]. intros (_ & f & r & H). now apply N in H.
Qed.
Fixpoint flags (ords : nat -> order) (o : answer_options) (k : nat) (ms : list media) : list bool := match ms with [] => [] | m :: r => flag ords o k m :: flags ords o (S k) r end.
Lemma trues_cons : forall b l, trues (b :: l) = (if b then 1 else 0) + trues l.
Proof. intros [] l; unfold trues; cbn [filter]; cbn [List.length]; lia. Qed.
Lemma loop_spec : forall ords o ms k port l, answer_loop ords o k port ms = Ret l ->
  List.length l = List.length ms /\ forall i m, nth_error ms i = Some m -> exists x, nth_error l i = Some x /\
    (if flag ords o (k + i) m then negotiate (ords (k + i)%nat) o m (port + 2 * trues (firstn i (flags ords o k ms))) = Some x else x = rejected m).
Proof.
  intros ords o. induction ms as [|m ms IH]; intros k port l H; cbn [answer_loop] in H.
  - injection H as <-. split; [reflexivity|]. intros [|i] m H; discriminate.
  - assert (STEP : forall l' port' x, answer_loop ords o (S k) port' ms = Ret l' -> port' = port + (if flag ords o k m then 2 else 0) -> l = x :: l' -> (if flag ords o k m then negotiate (ords k) o m port = Some x else x = rejected m) ->
      List.length l = List.length (m :: ms) /\ forall i m0, nth_error (m :: ms) i = Some m0 -> exists x, nth_error l i = Some x /\
      (if flag ords o (k + i) m0 then negotiate (ords (k + i)%nat) o m0 (port + 2 * trues (firstn i (flags ords o k (m :: ms)))) = Some x else x = rejected m0)).
    { intros l' port' x E P -> X. destruct (IH _ _ _ E) as (A & B). split; [cbn [List.length]; now rewrite A|]. intros [|i] m0 Hm.
      - injection Hm as <-. exists x. split; [reflexivity|]. rewrite Nat.add_0_r. cbn [firstn flags]. change (trues []) with 0. rewrite N.mul_0_r, N.add_0_r. exact X.
      - cbn [nth_error] in Hm. destruct (B i m0 Hm) as (y & Y1 & Y2). exists y. split; [exact Y1|]. replace (k + S i)%nat with (S k + i)%nat by lia. destruct (flag ords o (S k + i) m0); [|exact Y2]. rewrite <- Y2. f_equal. cbn [flags firstn]. rewrite trues_cons, P. destruct (flag ords o k m); lia. }
    unfold flag in STEP at 1 2. destruct (existsb (Nat.eqb k) (ao_reject o)) eqn:R.
    + destruct (answer_loop ords o (S k) port ms) as [l'|] eqn:E; [|discriminate]. injection H as <-. apply (STEP l' port (rejected m)); [exact E|cbn; lia|reflexivity|reflexivity].
    + rewrite (negotiate_port (ords k) o m 0 port) in STEP. destruct (negotiate (ords k) o m port) as [a|] eqn:NG.
      * destruct (u16_max <? port + 2); [discriminate|]. destruct (answer_loop ords o (S k) (port + 2) ms) as [l'|] eqn:E; [|discriminate]. injection H as <-. apply (STEP l' (port + 2) a); [exact E|cbn; lia|reflexivity|reflexivity].
      * destruct (answer_loop ords o (S k) port ms) as [l'|] eqn:E; [|discriminate]. injection H as <-. apply (STEP l' port (rejected m)); [exact E|cbn; lia|reflexivity|reflexivity].
Qed.
Lemma loop_panics : forall ords o ms k port, answer_loop ords o k port ms = Panics <-> u16_max < port + 2 * trues (flags ords o k ms) /\ trues (flags ords o k ms) <> 0.
Proof.
  intros ords o. induction ms as [|m ms IH]; intros k port; cbn [answer_loop flags].
  - split; [discriminate|]. intros (_ & H). now elim H.
  - rewrite trues_cons. unfold flag. destruct (existsb (Nat.eqb k) (ao_reject o)) eqn:R; cbn [negb andb].
    + rewrite N.add_0_l, <- (IH (S k) port). destruct (answer_loop ords o (S k) port ms); [split; discriminate|tauto].
    + rewrite (negotiate_port (ords k) o m 0 port). destruct (negotiate (ords k) o m port) as [a|]; cbn [is_some].
      * destruct (u16_max <? port + 2) eqn:P; [split; [lia|reflexivity]|]. specialize (IH (S k) (port + 2)). destruct (answer_loop ords o (S k) (port + 2) ms); [|split; [|reflexivity]; intros _; destruct (proj1 IH eq_refl); lia].
        split; [discriminate|]. intros (A & _). destruct (N.eq_dec (trues (flags ords o (S k) ms)) 0) as [Z|Z]; [rewrite Z in A; lia|]. assert (X : Ret a0 = Panics) by (apply IH; split; [lia|exact Z]). discriminate.
      * rewrite N.add_0_l, <- (IH (S k) port). destruct (answer_loop ords o (S k) port ms); [split; discriminate|tauto].
Qed.
