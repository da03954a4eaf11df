From Coq Require Import Arith NArith Bool String List Lia ZifyBool ZifyN ZifyNat.
Import ListNotations.
From Verif Require Import Base BaseFacts Text TextFacts NumFacts Sdp SdpSpec.
Open Scope N_scope.
Open Scope list_scope.

Lemma media_type_eqb_spec a b : media_type_eqb a b = true <-> a = b.
Proof. destruct a, b; cbn; split; intro H; try reflexivity; try discriminate; [apply str_eqb_spec in H; congruence|injection H as ->; apply str_eqb_refl]. Qed.
Lemma media_type_eqb_refl a : media_type_eqb a a = true.
Proof. now apply media_type_eqb_spec. Qed.
Lemma protocol_eqb_spec a b : protocol_eqb a b = true <-> a = b.
Proof. destruct a, b; cbn; split; intro H; try reflexivity; try discriminate; [apply str_eqb_spec in H; congruence|injection H as ->; apply str_eqb_refl]. Qed.
Lemma opt_str_eqb_spec a b : opt_str_eqb a b = true <-> a = b.
Proof. destruct a, b; cbn; split; intro H; try reflexivity; try discriminate; [apply str_eqb_spec in H; congruence|injection H as ->; apply str_eqb_refl]. Qed.

Lemma has_pt_spec m pt : has_pt m pt = true <-> lists_pt m pt.
Proof.
  unfold has_pt, lists_pt. rewrite existsb_exists. split; intros (f & Hf & E); exists f; (split; [exact Hf|]).
  - destruct (payload_type f); [|discriminate]. apply N.eqb_eq in E. now subst.
  - rewrite E. apply N.eqb_refl.
Qed.
Lemma matching_some lm o l : matching_rtpmap lm o = Some l ->
  In l (map snd (md_maps lm)) /\ lists_pt lm (rm_pt l) /\ same_codec o l.
Proof.
  intro H. apply find_some in H. destruct H as [I E]. apply andb_prop in E. destruct E as [E E4]. apply andb_prop in E. destruct E as [E E3].
  apply andb_prop in E. destruct E as [E1 E2]. split; [exact I|]. split; [now apply has_pt_spec|]. unfold eq_ic in E2. apply str_eqb_spec in E2.
  apply N.eqb_eq in E3. apply opt_str_eqb_spec in E4. repeat split; auto.
Qed.
Lemma matching_none lm o : matching_rtpmap lm o = None -> forall l, In l (map snd (md_maps lm)) -> lists_pt lm (rm_pt l) -> ~ same_codec o l.
Proof.
  intros H l I P (A & B & C). pose proof (find_none _ _ H l I) as F. cbv beta in F. apply has_pt_spec in P. rewrite P in F. unfold eq_ic in F.
  rewrite A, B, C, str_eqb_refl, N.eqb_refl in F. assert (opt_str_eqb (rm_params l) (rm_params l) = true) as X by now apply opt_str_eqb_spec.
  rewrite X in F. discriminate.
Qed.
Lemma common_spec om lm f : common_format om lm f <> None <-> is_common om lm f.
Proof.
  unfold common_format, is_common. destruct (is_rtp (md_proto om)).
  - destruct (payload_type f) as [pt|]; [|split; [congruence|intros (p & E & _); discriminate]].
    destruct (pt <? 96) eqn:L.
    + destruct (has_pt lm pt) eqn:P.
      * split; [|discriminate]. intros _. exists pt. split; [reflexivity|]. left. split; [lia|now apply has_pt_spec].
      * split; [congruence|]. intros (p & E & [[_ K]|[K _]]); injection E as <-; [apply has_pt_spec in K; congruence|lia].
    + destruct (lookup N.eqb pt (md_maps om)) as [o|] eqn:O.
      * destruct (matching_rtpmap lm o) as [l|] eqn:M.
        -- split; [|discriminate]. intros _. exists pt. split; [reflexivity|]. right. split; [lia|]. exists o, l. split; [exact O|]. now apply matching_some.
        -- split; [congruence|]. intros (p & E & [[K _]|[_ (o' & l & O' & I & P & S)]]); injection E as <-; [lia|].
           rewrite O in O'. injection O' as <-. contradiction (matching_none _ _ M l I P).
      * split; [congruence|]. intros (p & E & [[K _]|[_ (o' & l & O' & _)]]); injection E as <-; [lia|congruence].
  - destruct (existsb (str_eqb f) (md_formats lm)) eqn:E.
    + split; [|discriminate]. intros _. apply existsb_exists in E. destruct E as (x & I & Q). apply str_eqb_spec in Q. now subst.
    + split; [congruence|]. intro I. assert (existsb (str_eqb f) (md_formats lm) = true); [|congruence]. apply existsb_exists. exists f. split; [exact I|apply str_eqb_refl].
Qed.
Lemma common_fst om lm f x : common_format om lm f = Some x -> fst x = f.
Proof.
  unfold common_format. destruct (is_rtp _).
  - destruct (payload_type f); [|discriminate]. destruct (_ <? 96).
    + destruct (has_pt _ _); intro H; [|discriminate]. now injection H as <-.
    + destruct (lookup _ _ _); [|discriminate]. destruct (matching_rtpmap _ _); intro H; [|discriminate]. now injection H as <-.
  - destruct (existsb _ _); intro H; [|discriminate]. now injection H as <-.
Qed.
Lemma filter_map_in {A B} (f : A -> option B) l y : In y (filter_map f l) <-> exists x, In x l /\ f x = Some y.
Proof.
  induction l as [|x r IH]; cbn; [split; [intros []|intros (x & [] & _)]|]. destruct (f x) eqn:E; cbn; rewrite ?IH; split.
  - intros [<-|(z & I & Z)]; [exists x; auto|exists z; auto].
  - intros (z & [<-|I] & Z); [left; congruence|right; exists z; auto].
  - intros (z & I & Z). exists z; auto.
  - intros (z & [<-|I] & Z); [congruence|exists z; auto].
Qed.
Lemma common_picked om lm l : picked (is_common om lm) l (map fst (filter_map (common_format om lm) l)).
Proof.
  induction l as [|f r IH]; cbn; [constructor|]. destruct (common_format om lm f) as [x|] eqn:E.
  - cbn. rewrite (common_fst _ _ _ _ E). apply picked_keep; [apply common_spec; congruence|exact IH].
  - apply picked_skip; [|exact IH]. intro C. apply common_spec in C. congruence.
Qed.
Lemma find_local caps t lm : find_media t (sd_media caps) = Some lm <-> local_line caps t lm.
Proof.
  unfold find_media, local_line. generalize (sd_media caps). intro l. split.
  - induction l as [|m r IH]; cbn; [discriminate|]. destruct (media_type_eqb (md_type m) t) eqn:E.
    + intro H. injection H as <-. exists [], r. apply media_type_eqb_spec in E. split; [reflexivity|]. split; [exact E|intros ? []].
    + intro H. destruct (IH H) as (b & a & -> & T & F). exists (m :: b), a. split; [reflexivity|]. split; [exact T|].
      intros m' [<-|I]; [|auto]. intro Q. apply media_type_eqb_spec in Q. congruence.
  - intros (b & a & -> & T & F). induction b as [|m r IH]; cbn.
    + apply media_type_eqb_spec in T. now rewrite T.
    + destruct (media_type_eqb (md_type m) t) eqn:E; [apply media_type_eqb_spec in E; contradiction (F m (or_introl eq_refl))|].
      apply IH. intros m' I. apply F. now right.
Qed.
Lemma acceptable_iff caps om : acceptable caps om <->
  exists lm, find_media (md_type om) (sd_media caps) = Some lm /\ protocol_eqb (md_proto om) (md_proto lm) = true /\ find_common_formats om lm <> [].
Proof.
  unfold acceptable. split.
  - intros (lm & L & P & f & I & C). exists lm. split; [now apply find_local|]. split; [now apply protocol_eqb_spec|].
    apply common_spec in C. destruct (common_format om lm f) as [x|] eqn:E; [|congruence]. intro N.
    assert (In x (find_common_formats om lm)) as J by (apply filter_map_in; exists f; auto). rewrite N in J. destruct J.
  - intros (lm & L & P & C). exists lm. split; [now apply find_local|]. split; [now apply protocol_eqb_spec|].
    destruct (find_common_formats om lm) as [|x r] eqn:E; [congruence|]. assert (In x (find_common_formats om lm)) as J by (rewrite E; now left).
    apply filter_map_in in J. destruct J as (f & I & X). exists f. split; [exact I|]. apply common_spec. congruence.
Qed.

(** what an accepted line is made of *)
Definition expected_fmtp (om lm : media) (pt : N) : option str :=
  match fmtp_for pt (md_attrs lm) with Some x => Some x | None => fmtp_for pt (md_attrs om) end.
Definition expected_ptime (om lm : media) : option N := match ptime lm with Some x => Some x | None => ptime om end.
Definition answered (om lm am : media) : Prop :=
  exists d m, dir_negotiate (dir_reverse (dir_of om)) (dir_of lm) = Some d
  /\ add_formats (find_common_formats om lm) (base_answer om (md_port lm)) = Some m
  /\ exists m', add_property (dir_token d) (carry_ptime om lm (fold_left (carry_fmtp om lm) (find_common_formats om lm) m)) = Some m'
  /\ am = with_conn m' (md_conn lm).
Lemma negotiate_media_ok om caps am : negotiate_media om caps = Ok am ->
  acceptable caps om /\ exists lm, find_media (md_type om) (sd_media caps) = Some lm /\ answered om lm am.
Proof.
  unfold negotiate_media. destruct (find_media (md_type om) (sd_media caps)) as [lm|] eqn:L; [|discriminate].
  destruct (protocol_eqb (md_proto om) (md_proto lm)) eqn:P; cbn [negb]; [|discriminate].
  destruct (find_common_formats om lm) as [|x r] eqn:C; [discriminate|]. change (match extract_direction (md_attrs om) with Some d => d | None => DSendRecv end) with (dir_of om).
  change (match extract_direction (md_attrs lm) with Some d => d | None => DSendRecv end) with (dir_of lm). cbv zeta.
  destruct (dir_negotiate _ _) as [d|] eqn:D; [|discriminate]. destruct (add_formats _ _) as [m|] eqn:F; [|discriminate].
  destruct (add_property _ _) as [m'|] eqn:A; [|discriminate]. intro H. injection H as <-. split.
  - apply acceptable_iff. exists lm. split; [exact L|]. split; [exact P|]. congruence.
  - exists lm. split; [reflexivity|]. exists d, m. split; [exact D|]. rewrite C. split; [exact F|]. exists m'. split; [exact A|reflexivity].
Qed.
Lemma negotiate_media_refused om caps e : negotiate_media om caps = Err e -> (e = NoCommonCodec \/ e = MissingMediaStream) <-> ~ acceptable caps om.
Proof.
  unfold negotiate_media. intro H. rewrite acceptable_iff. destruct (find_media (md_type om) (sd_media caps)) as [lm|] eqn:L.
  2:{ injection H as <-. split; [intros _ (lm & Q & _); discriminate|auto]. }
  destruct (protocol_eqb (md_proto om) (md_proto lm)) eqn:P; cbn [negb] in H.
  2:{ injection H as <-. split; [intros _ (x & Q & R & _); injection Q as <-; congruence|auto]. }
  destruct (find_common_formats om lm) as [|x r] eqn:C.
  { injection H as <-. split; [intros _ (y & Q & R & S); injection Q as <-; congruence|auto]. }
  cbv zeta in H. split.
  - destruct (dir_negotiate _ _); [|injection H as <-; intros [?|?]; discriminate].
    destruct (add_formats _ _); [|injection H as <-; intros [?|?]; discriminate].
    destruct (add_property _ _); [discriminate|injection H as <-; intros [?|?]; discriminate].
  - intros N. contradiction N. exists lm. split; [reflexivity|]. split; [exact P|]. congruence.
Qed.

(** ** line by line *)
Definition line_ok (caps : sdp) (l : list media) (i : nat) (om am : media) : Prop :=
  (first_acceptable caps l i /\ exists lm, find_media (md_type om) (sd_media caps) = Some lm /\ answered om lm am)
  \/ (~ first_acceptable caps l i /\ am = rejected_media om).
Lemma first_acceptable_prefix caps l r i : (i < length l)%nat -> first_acceptable caps (l ++ r) i <-> first_acceptable caps l i.
Proof.
  intro L. unfold first_acceptable. split; intros (om & N & A & F); exists om.
  - rewrite nth_error_app1 in N by lia. split; [exact N|]. split; [exact A|]. intros j oj J Nj T. apply (F j); auto. rewrite nth_error_app1 by lia. exact Nj.
  - split; [rewrite nth_error_app1 by lia; exact N|]. split; [exact A|]. intros j oj J Nj T. rewrite nth_error_app1 in Nj by lia. eapply F; eauto.
Qed.
Definition lines_inv (caps : sdp) (pre : list media) (types : list media_type) (acc : list media) : Prop :=
  length acc = length pre
  /\ (forall i om am, nth_error pre i = Some om -> nth_error acc i = Some am -> line_ok caps pre i om am)
  /\ (forall t, In t types <-> exists om, In om pre /\ md_type om = t /\ acceptable caps om).
Lemma lines_inv_step caps pre types acc om am types' :
  lines_inv caps pre types acc ->
  line_ok caps (pre ++ [om]) (length pre) om am ->
  (forall t, In t types' <-> In t types \/ (t = md_type om /\ acceptable caps om)) ->
  lines_inv caps (pre ++ [om]) types' (acc ++ [am]).
Proof.
  intros (L & I & T) K T'. split; [|split].
  - rewrite !app_length, L. reflexivity.
  - intros i o a Ho Ha. destruct (Nat.lt_ge_cases i (length pre)) as [J|J].
    + rewrite nth_error_app1 in Ho by lia. rewrite nth_error_app1 in Ha by lia. specialize (I i o a Ho Ha).
      unfold line_ok in *. rewrite first_acceptable_prefix by lia. exact I.
    + rewrite nth_error_app2 in Ho by lia. rewrite nth_error_app2 in Ha by lia.
      destruct (i - length pre)%nat as [|n] eqn:E; [|destruct n; discriminate]. rewrite L in Ha. rewrite E in Ha. cbn in Ho, Ha.
      injection Ho as <-. injection Ha as <-. replace i with (length pre) by lia. exact K.
  - intro t. rewrite T', T. split.
    + intros [(o & Io & To & Ao)|[-> A]]; [exists o; split; [apply in_or_app; now left|auto]|exists om; split; [apply in_or_app; right; now left|auto]].
    + intros (o & Io & To & Ao). apply in_app_or in Io. destruct Io as [Io|[<-|[]]]; [left; exists o; auto|right; auto].
Qed.
Lemma types_first caps pre types acc om : lines_inv caps pre types acc ->
  first_acceptable caps (pre ++ [om]) (length pre) <-> acceptable caps om /\ ~ In (md_type om) types.
Proof.
  intros (L & I & T). unfold first_acceptable. split.
  - intros (o & N & A & F). rewrite nth_error_app2, Nat.sub_diag in N by lia. cbn in N. injection N as <-. split; [exact A|].
    intro J. apply T in J. destruct J as (o & Io & To & Ao). apply In_nth_error in Io. destruct Io as (j & Nj).
    assert (j < length pre)%nat as Lj by (apply nth_error_Some; congruence). apply (F j o); auto. rewrite nth_error_app1 by lia. exact Nj.
  - intros (A & N). exists om. split; [rewrite nth_error_app2, Nat.sub_diag by lia; reflexivity|]. split; [exact A|].
    intros j oj J Nj Tj Aj. apply N. apply T. rewrite nth_error_app1 in Nj by lia. exists oj. split; [eapply nth_error_In; exact Nj|auto].
Qed.
Lemma existsb_types t types : existsb (media_type_eqb t) types = true <-> In t types.
Proof.
  rewrite existsb_exists. split; [intros (x & I & E); apply media_type_eqb_spec in E; now subst|intro I; exists t; split; [exact I|apply media_type_eqb_refl]].
Qed.
Lemma negotiate_lines_inv caps l : forall pre types acc ms, lines_inv caps pre types acc ->
  negotiate_lines caps types acc l = Ok ms -> exists types', lines_inv caps (pre ++ l) types' ms.
Proof.
  induction l as [|om r IH]; intros pre types acc ms I H; cbn [negotiate_lines] in H.
  - injection H as <-. rewrite app_nil_r. exists types. exact I.
  - replace (pre ++ om :: r) with ((pre ++ [om]) ++ r) by (rewrite <- app_assoc; reflexivity).
    pose proof (types_first _ _ _ _ om I) as TF.
    destruct (existsb (media_type_eqb (md_type om)) types) eqn:X.
    + destruct (llen acc <? MAX_MEDIA_DESCRIPTIONS); [|discriminate]. apply existsb_types in X. eapply IH; [|exact H].
      eapply lines_inv_step; [exact I|right; split; [rewrite TF; tauto|reflexivity]|]. intro t. split; [auto|intros [J|[-> _]]; auto].
    + assert (~ In (md_type om) types) as NX by (intro J; apply existsb_types in J; congruence).
      destruct (negotiate_media om caps) as [am|e] eqn:M.
      * destruct (llen acc <? MAX_MEDIA_DESCRIPTIONS); [|discriminate]. apply negotiate_media_ok in M. destruct M as [A Q]. eapply IH; [|exact H].
        eapply lines_inv_step; [exact I|left; split; [rewrite TF; auto|exact Q]|]. intro t. rewrite in_app_iff. cbn. intuition.
      * pose proof (negotiate_media_refused _ _ _ M) as R.
        assert (e = NoCommonCodec \/ e = MissingMediaStream -> exists types', lines_inv caps ((pre ++ [om]) ++ r) types' ms) as G.
        { intro E. assert (~ acceptable caps om) as NA by tauto.
          assert (negotiate_lines caps types (acc ++ [rejected_media om]) r = Ok ms) as H'.
          { destruct E as [-> | ->]; destruct (llen acc <? MAX_MEDIA_DESCRIPTIONS); congruence. }
          eapply IH; [|exact H']. eapply lines_inv_step; [exact I|right; split; [rewrite TF; tauto|reflexivity]|]. intro t. intuition. }
        destruct e; try discriminate; apply G; auto.
Qed.
Lemma negotiate_answer_lines sid offer addr caps ans : negotiate_answer sid offer addr caps = Ok ans ->
  length (sd_media ans) = length (sd_media offer)
  /\ forall i om am, nth_error (sd_media offer) i = Some om -> nth_error (sd_media ans) i = Some am -> line_ok caps (sd_media offer) i om am.
Proof.
  unfold negotiate_answer. destruct (origin_new _ _ _); [|discriminate]. destruct (valid_field _ _); [|discriminate]. destruct (connection_new _); [|discriminate].
  destruct (negotiate_lines caps [] [] (sd_media offer)) as [ms|] eqn:E; [|discriminate]. intro H. injection H as <-. cbn [sd_media].
  destruct (negotiate_lines_inv caps (sd_media offer) [] [] [] ms) as (ty & L & I & _); [|exact E|].
  - split; [reflexivity|]. split; [intros [|i] ? ? Q; discriminate|]. intro t. split; [intros []|intros (x & [] & _)].
  - cbn in L, I. split; [exact L|exact I].
Qed.

(** ** the inside of an accepted line *)
Lemma ws_word w : forall cur r, forallb (fun c => negb (is_ws c)) w = true ->
  split_ws_aux cur (w ++ r) = split_ws_aux (rev w ++ cur) r.
Proof.
  induction w as [|c w IH]; intros cur r H; cbn; [reflexivity|]. cbn in H. apply andb_prop in H. destruct H as [H1 H2]. apply negb_true_iff in H1.
  rewrite H1, IH by exact H2. rewrite <- app_assoc. reflexivity.
Qed.
Lemma ws_lead w c r : w <> [] -> forallb (fun c => negb (is_ws c)) w = true -> is_ws c = true ->
  exists t, split_ws (w ++ c :: r) = w :: t.
Proof.
  intros Nw W C. unfold split_ws. rewrite ws_word by exact W. rewrite app_nil_r. cbn [split_ws_aux]. rewrite C.
  destruct (rev w) as [|x y] eqn:E; [apply (f_equal (@rev N)) in E; rewrite rev_involutive in E; cbn in E; congruence|].
  rewrite <- E, rev_involutive. eauto.
Qed.
Lemma leading_print pt r : pt <= 255 -> leading_pt (print_N pt ++ 32 :: r) = Some pt.
Proof.
  intro L. unfold leading_pt. destruct (ws_lead (print_N pt) 32 r) as (t & ->); [apply print_N_nonempty|apply print_N_word|reflexivity|].
  now apply parse_uint_print.
Qed.
Lemma parse_uint_word mx p n : parse_uint mx p = Some n -> p <> [] /\ forallb (fun c => negb (is_ws c)) p = true.
Proof.
  unfold parse_uint. destruct p as [|c r]; [discriminate|]. intro H. split; [discriminate|].
  assert (forall l, all_digits l = true -> forallb (fun c => negb (is_ws c)) l = true) as D.
  { intros l A. unfold all_digits in A. rewrite forallb_forall in *. intros x I. specialize (A x I). unfold is_digit, in_range in A. unfold is_ws, in_range. lia. }
  destruct (c =? 43) eqn:E.
  - destruct r as [|d r]; [discriminate|]. destruct (all_digits (d :: r)) eqn:A; [|discriminate]. cbn [forallb]. apply N.eqb_eq in E. subst c.
    change (negb (is_ws 43)) with true. cbn [andb]. exact (D _ A).
  - destruct (all_digits (c :: r)) eqn:A; [|discriminate]. exact (D _ A).
Qed.
Lemma parse_uint_max mx p n : parse_uint mx p = Some n -> n <= mx.
Proof.
  unfold parse_uint. destruct (match p with c :: r => if c =? 43 then r else p | [] => p end) as [|c r]; [discriminate|].
  destruct (all_digits (c :: r)); [|discriminate]. cbv zeta. destruct (_ <=? mx) eqn:E; [|discriminate]. intro H. injection H as <-. lia.
Qed.
Lemma fmtp_leading v pt x : parse_fmtp v = Some (pt, x) -> leading_pt v = Some pt.
Proof.
  unfold parse_fmtp. destruct (split_once 32 v) as [[p rest]|] eqn:S; [|discriminate]. destruct (parse_uint u8_max p) as [n|] eqn:P; [|discriminate].
  intro H. injection H as <- <-. apply split_once_some in S. destruct S as [-> _]. destruct (parse_uint_word _ _ _ P) as [A B]. unfold leading_pt.
  destruct (ws_lead p 32 rest) as (t & ->); auto.
Qed.
Lemma parse_fmtp_print pt x : pt <= 255 -> parse_fmtp (print_N pt ++ 32 :: trim x) = Some (pt, trim x).
Proof.
  intro L. unfold parse_fmtp. rewrite split_once_app.
  - rewrite parse_uint_print by exact L. unfold trim. now rewrite trim_by_idem.
  - destruct (mem 32 (print_N pt)) eqn:M; [|reflexivity]. apply mem_In in M. apply print_N_digits in M. lia.
Qed.
Lemma filter_sub {A} (P Q : A -> bool) l : (forall x, P x = true -> Q x = true) -> filter P (filter Q l) = filter P l.
Proof.
  intro H. induction l as [|x r IH]; cbn; [reflexivity|]. destruct (Q x) eqn:E; cbn; [destruct (P x); now rewrite IH|].
  destruct (P x) eqn:F; [rewrite (H x F) in E; discriminate|exact IH].
Qed.
Lemma filter_neg {A} (P : A -> bool) l : filter P (filter (fun x => negb (P x)) l) = [].
Proof. induction l as [|x r IH]; cbn; [reflexivity|]. destruct (P x) eqn:E; cbn; [exact IH|rewrite E; exact IH]. Qed.
Lemma filter_nil {A} (P : A -> bool) l : (forall x, In x l -> P x = false) -> filter P l = [].
Proof. induction l as [|x r IH]; cbn; intro H; [reflexivity|]. rewrite (H x) by now left. apply IH. intros y I. apply H. now right. Qed.
Lemma pt_attr_other k p q a : p <> q -> pt_attr k p a = true -> pt_attr k q a = false.
Proof.
  intros N. destruct a as [n|n v]; cbn; [discriminate|]. intro H. apply andb_prop in H. destruct H as [H1 H2]. rewrite H1. cbn.
  destruct (leading_pt v) as [x|]; [|discriminate]. apply N.eqb_eq in H2. subst x. apply N.eqb_neq. exact N.
Qed.
Lemma pt_attr_key k k' p q a : str_eqb k k' = false -> pt_attr k p a = true -> pt_attr k' q a = false.
Proof.
  intros N. destruct a as [n|n v]; cbn; [discriminate|]. intro H. apply andb_prop in H. destruct H as [H1 _]. apply str_eqb_spec in H1. subst n. now rewrite N.
Qed.

Definition all_rtpmap (l : list attribute) : Prop := forall a, In a l -> has_name (lit "rtpmap") a = true.
Definition minv (m : media) : Prop :=
  all_rtpmap (md_attrs m)
  /\ forall pt, match lookup N.eqb pt (md_maps m) with
                | Some x => rm_pt x = pt /\ rtpmap_lines pt m = [AVal (lit "rtpmap") (rtpmap_text pt (rm_name x) (rm_rate x) (rm_params x))]
                | None => rtpmap_lines pt m = []
                end.
Lemma add_rtpmap_inv pt name rate params m m' : minv m -> add_rtpmap pt name rate params m = Some m' ->
  minv m' /\ (forall q, lookup N.eqb q (md_maps m') = if q =? pt then Some (mkRtpMap pt name rate params) else lookup N.eqb q (md_maps m))
  /\ md_formats m' = md_formats m /\ md_type m' = md_type m /\ md_port m' = md_port m /\ md_ports m' = md_ports m /\ md_proto m' = md_proto m
  /\ md_title m' = md_title m /\ md_conn m' = md_conn m /\ md_bw m' = md_bw m /\ md_key m' = md_key m.
Proof.
  intros [A I] H. unfold add_rtpmap in H.
  destruct (valid_pt pt && valid_field name MAX_ENCODING_NAME_LENGTH && valid_rate rate) eqn:V; [|discriminate].
  assert (pt <= 127) as Lp by (apply andb_prop in V; destruct V as [V _]; apply andb_prop in V; destruct V as [V _]; unfold valid_pt in V; lia).
  set (b := is_some (lookup N.eqb pt (md_maps m))) in *.
  set (al := if b then filter (fun a => negb (pt_attr (lit "rtpmap") pt a)) (md_attrs m) else md_attrs m).
  set (ml := if b then remove_key N.eqb pt (md_maps m) else md_maps m).
  assert ((if b then (filter (fun a => negb (pt_attr (lit "rtpmap") pt a)) (md_attrs m), remove_key N.eqb pt (md_maps m)) else (md_attrs m, md_maps m)) = (al, ml)) as E
    by (unfold al, ml; destruct b; reflexivity). rewrite E in H. clear E.
  destruct ((llen ml <? MAX_RTPMAPS) && (llen al <? MAX_ATTRIBUTES)); [|discriminate]. injection H as <-.
  assert (forall q, lookup N.eqb q (insert N.eqb pt (mkRtpMap pt name rate params) ml) = if q =? pt then Some (mkRtpMap pt name rate params) else lookup N.eqb q (md_maps m)) as L.
  { intro q. destruct (q =? pt) eqn:Q.
    - apply N.eqb_eq in Q. subst q. apply lookup_insert_same. apply N.eqb_eq.
    - apply N.eqb_neq in Q. rewrite (lookup_insert_other _ N.eqb_eq) by congruence. unfold ml. destruct b; [|reflexivity]. apply (lookup_remove_other _ N.eqb_eq). congruence. }
  assert (forall q, filter (pt_attr (lit "rtpmap") q) al = if q =? pt then [] else filter (pt_attr (lit "rtpmap") q) (md_attrs m)) as F.
  { intro q. destruct (q =? pt) eqn:Q.
    - apply N.eqb_eq in Q. subst q. unfold al. destruct b eqn:B; [apply filter_neg|]. unfold b in B. specialize (I pt).
      destruct (lookup N.eqb pt (md_maps m)); [discriminate|exact I].
    - apply N.eqb_neq in Q. unfold al. destruct b; [|reflexivity]. apply filter_sub. intros x X. now rewrite (pt_attr_other _ _ _ _ Q X). }
  split; [split|].
  - cbn [md_attrs]. intros a Ia. apply in_app_or in Ia. destruct Ia as [Ia|[<-|[]]]; [|reflexivity]. apply A. unfold al in Ia. destruct b; [|exact Ia].
    apply filter_In in Ia. apply Ia.
  - intro q. cbn [md_maps]. rewrite L. unfold rtpmap_lines. cbn [md_attrs]. rewrite filter_app, F.
    assert (pt_attr (lit "rtpmap") q (AVal (lit "rtpmap") (rtpmap_text pt name rate params)) = (q =? pt)) as P.
    { unfold pt_attr. rewrite str_eqb_refl. unfold rtpmap_text. rewrite leading_print by lia. cbn [andb]. apply N.eqb_sym. }
    cbn [filter]. rewrite P. destruct (q =? pt) eqn:Q.
    + apply N.eqb_eq in Q. subst q. cbn. auto.
    + cbn [app]. rewrite app_nil_r. exact (I q).
  - split; [exact L|]. repeat split.
Qed.
Lemma add_format_inv t m m' : minv m -> add_format_token t m = Some m' ->
  minv m' /\ md_maps m' = md_maps m /\ md_formats m' = md_formats m ++ [t] /\ md_type m' = md_type m /\ md_port m' = md_port m /\ md_ports m' = md_ports m /\ md_proto m' = md_proto m
  /\ md_title m' = md_title m /\ md_conn m' = md_conn m /\ md_bw m' = md_bw m /\ md_key m' = md_key m.
Proof. intros I H. unfold add_format_token in H. destruct (_ && _); [|discriminate]. injection H as <-. split; [exact I|]. repeat split. Qed.
Lemma add_formats_inv l : forall m m', minv m ->
  (forall f g x y, In (f, Some x) l -> In (g, Some y) l -> rm_pt x = rm_pt y -> x = y) ->
  add_formats l m = Some m' ->
  minv m' /\ md_formats m' = md_formats m ++ map fst l
  /\ (forall f x, In (f, Some x) l -> lookup N.eqb (rm_pt x) (md_maps m') = Some x)
  /\ (forall q x, lookup N.eqb q (md_maps m') = Some x -> lookup N.eqb q (md_maps m) = Some x \/ exists f, In (f, Some x) l /\ rm_pt x = q)
  /\ md_type m' = md_type m /\ md_port m' = md_port m /\ md_ports m' = md_ports m /\ md_proto m' = md_proto m
  /\ md_title m' = md_title m /\ md_conn m' = md_conn m /\ md_bw m' = md_bw m /\ md_key m' = md_key m.
Proof.
  induction l as [|[f rm] r IH]; intros m m' I U H; cbn [add_formats] in H.
  - injection H as <-. rewrite app_nil_r. split; [exact I|]. split; [reflexivity|]. split; [intros ? ? []|]. split; [auto|]. repeat split.
  - destruct (add_format_token f m) as [m1|] eqn:F; [|discriminate]. destruct (add_format_inv _ _ _ I F) as (I1 & M1 & F1 & T1 & P1 & Q1 & R1 & S1 & C1 & B1 & K1).
    assert (forall f g x y, In (f, Some x) r -> In (g, Some y) r -> rm_pt x = rm_pt y -> x = y) as U' by (intros; eapply U; try right; eauto).
    destruct rm as [x|].
    + destruct (add_rtpmap _ _ _ _ m1) as [m2|] eqn:A; [|discriminate].
      destruct (add_rtpmap_inv _ _ _ _ _ _ I1 A) as (I2 & L2 & F2 & T2 & P2 & Q2 & R2 & S2 & C2 & B2 & K2).
      replace (mkRtpMap (rm_pt x) (rm_name x) (rm_rate x) (rm_params x)) with x in L2 by (destruct x; reflexivity).
      destruct (IH m2 m' I2 U' H) as (I3 & F3 & L3 & G3 & T3 & P3 & Q3 & R3 & S3 & C3 & B3 & K3).
      split; [exact I3|]. split; [rewrite F3, F2, F1; cbn; rewrite <- app_assoc; reflexivity|]. split; [|split].
      * intros g y [J|J]; [injection J as <- <-|now apply (L3 g)]. destruct (lookup N.eqb (rm_pt x) (md_maps m')) as [z|] eqn:Z.
        -- destruct (G3 _ _ Z) as [V|(h & V & W)]; [rewrite L2, N.eqb_refl in V; congruence|].
           f_equal. eapply U; [right; exact V|left; reflexivity|exact W].
        -- exfalso. assert (forall l m m', minv m -> add_formats l m = Some m' -> forall q, lookup N.eqb q (md_maps m) <> None -> lookup N.eqb q (md_maps m') <> None) as Mono.
           { clear. induction l as [|[f rm] r IH]; intros m m' I H q Q; cbn [add_formats] in H; [congruence|].
             destruct (add_format_token f m) as [m1|] eqn:F; [|discriminate]. destruct (add_format_inv _ _ _ I F) as (I1 & M1 & _).
             destruct rm as [x|].
             - destruct (add_rtpmap _ _ _ _ m1) as [m2|] eqn:A; [|discriminate]. destruct (add_rtpmap_inv _ _ _ _ _ _ I1 A) as (I2 & L2 & _).
               eapply IH; [exact I2|exact H|]. rewrite L2, M1. destruct (q =? rm_pt x); [discriminate|exact Q].
             - eapply IH; [exact I1|exact H|]. now rewrite M1. }
           apply (Mono r m2 m' I2 H (rm_pt x)); [rewrite L2, N.eqb_refl; discriminate|exact Z].
      * intros q y Z. destruct (G3 q y Z) as [V|(h & V & W)]; [|right; exists h; split; [now right|exact W]].
        rewrite L2 in V. destruct (q =? rm_pt x) eqn:Q; [|left; congruence]. apply N.eqb_eq in Q. injection V as <-. right. exists f. split; [now left|now symmetry].
      * repeat split; congruence.
    + destruct (IH m1 m' I1 U' H) as (I3 & F3 & L3 & G3 & T3 & P3 & Q3 & R3 & S3 & C3 & B3 & K3).
      split; [exact I3|]. split; [rewrite F3, F1; cbn; rewrite <- app_assoc; reflexivity|]. split; [|split].
      * intros g y [J|J]; [discriminate|now apply (L3 g)].
      * intros q y Z. destruct (G3 q y Z) as [V|(h & V & W)]; [left; congruence|right; exists h; split; [now right|exact W]].
      * repeat split; congruence.
Qed.

Lemma find_map_app {A B} (f : A -> option B) a b : find_map f (a ++ b) = match find_map f a with Some y => Some y | None => find_map f b end.
Proof. induction a as [|x r IH]; cbn; [reflexivity|]. destruct (f x); [reflexivity|exact IH]. Qed.
Lemma find_map_filter {A B} (f : A -> option B) (P : A -> bool) l : (forall x, P x = false -> f x = None) -> find_map f (filter P l) = find_map f l.
Proof.
  intro H. induction l as [|x r IH]; cbn; [reflexivity|]. destruct (P x) eqn:E; cbn; [now rewrite IH|]. now rewrite (H x E).
Qed.
Lemma find_map_none {A B} (f : A -> option B) l : (forall x, In x l -> f x = None) -> find_map f l = None.
Proof. induction l as [|x r IH]; cbn; intro H; [reflexivity|]. rewrite (H x) by now left. apply IH. intros y I. apply H. now right. Qed.

(** [set_fmtp] *)
Lemma fmtp_set q pt x m : pt <= 255 -> fmtp_for q (md_attrs (set_fmtp pt x m)) = if q =? pt then Some (trim x) else fmtp_for q (md_attrs m).
Proof.
  intro L. cbn [set_fmtp md_attrs]. unfold fmtp_for at 1. rewrite find_map_app.
  set (g := fun a => match a with AVal n v => if str_eqb n (lit "fmtp") then match parse_fmtp v with Some (p, x) => if p =? q then Some x else None | None => None end else None | AProp _ => None end).
  assert (find_map g [AVal (lit "fmtp") (print_N pt ++ 32 :: trim x)] = if pt =? q then Some (trim x) else None) as E.
  { cbn [find_map]. unfold g. rewrite str_eqb_refl, parse_fmtp_print by exact L. destruct (pt =? q); reflexivity. }
  rewrite E. destruct (q =? pt) eqn:Q.
  - apply N.eqb_eq in Q. subst q. rewrite N.eqb_refl. rewrite find_map_none; [reflexivity|]. intros a Ia. apply filter_In in Ia. destruct Ia as [_ N].
    destruct a as [n|n v]; [reflexivity|]. unfold g. destruct (str_eqb n (lit "fmtp")) eqn:S; [|reflexivity].
    destruct (parse_fmtp v) as [[p y]|] eqn:F; [|reflexivity]. destruct (p =? pt) eqn:W; [|reflexivity]. exfalso.
    apply fmtp_leading in F. cbn [pt_attr] in N. rewrite S, F, W in N. discriminate.
  - rewrite find_map_filter.
    + rewrite N.eqb_sym, Q. fold (fmtp_for q (md_attrs m)). change (find_map g (md_attrs m)) with (fmtp_for q (md_attrs m)). destruct (fmtp_for q (md_attrs m)); reflexivity.
    + intros a Na. apply negb_false_iff in Na. destruct a as [n|n v]; [reflexivity|]. unfold g. cbn [pt_attr] in Na. apply andb_prop in Na. destruct Na as [N1 N2]. rewrite N1.
      destruct (parse_fmtp v) as [[p y]|] eqn:F; [|reflexivity]. apply fmtp_leading in F. rewrite F in N2. apply N.eqb_eq in N2. subst p. rewrite N.eqb_sym, Q. reflexivity.
Qed.
Lemma find_map_some {A B} (f : A -> option B) l y : find_map f l = Some y -> exists x, In x l /\ f x = Some y.
Proof. induction l as [|a r IH]; cbn; [discriminate|]. destruct (f a) eqn:E; intro H; [injection H as <-; eauto|]. destruct (IH H) as (x & I & X). eauto. Qed.
Lemma fmtp_trimmed pt l x : fmtp_for pt l = Some x -> trim x = x.
Proof.
  unfold fmtp_for. intro H. apply find_map_some in H. destruct H as (a & _ & H). destruct a as [n|n v]; [discriminate|].
  destruct (str_eqb n (lit "fmtp")); [|discriminate]. unfold parse_fmtp in H. destruct (split_once 32 v) as [[p rest]|]; [|discriminate].
  destruct (parse_uint u8_max p); [|discriminate]. destruct (_ =? pt); [|discriminate]. injection H as <-. unfold trim. apply trim_by_idem.
Qed.
(** the attributes that are neither a=fmtp nor a=ptime are left alone by the later steps *)
Definition kept (a : attribute) : bool := negb (has_name (lit "fmtp") a) && negb (has_name (lit "ptime") a).
Definition same_but (m m' : media) : Prop :=
  md_type m' = md_type m /\ md_port m' = md_port m /\ md_ports m' = md_ports m /\ md_proto m' = md_proto m /\ md_formats m' = md_formats m
  /\ md_title m' = md_title m /\ md_conn m' = md_conn m /\ md_bw m' = md_bw m /\ md_key m' = md_key m /\ md_maps m' = md_maps m
  /\ filter kept (md_attrs m') = filter kept (md_attrs m).
Lemma same_but_refl m : same_but m m. Proof. repeat split. Qed.
Lemma same_but_trans a b c : same_but a b -> same_but b c -> same_but a c.
Proof. unfold same_but. intuition congruence. Qed.
Lemma set_fmtp_same pt x m : same_but m (set_fmtp pt x m).
Proof.
  unfold same_but. repeat split. cbn [set_fmtp md_attrs]. rewrite filter_app. cbn [filter]. change (kept (AVal (lit "fmtp") (print_N pt ++ 32 :: trim x))) with false. rewrite app_nil_r.
  apply filter_sub. intros a K. unfold kept in K. destruct a as [n|n v]; [reflexivity|]. unfold has_name in K. unfold pt_attr.
  apply andb_prop in K. destruct K as [K _]. apply negb_true_iff in K. rewrite K. reflexivity.
Qed.
Lemma set_ptime_same ms m : same_but m (set_ptime ms m).
Proof.
  unfold same_but. repeat split. cbn [set_ptime with_attrs md_attrs]. unfold set_value_attr. rewrite filter_app. cbn [filter]. change (kept (AVal (lit "ptime") (print_N ms))) with false. rewrite app_nil_r.
  apply filter_sub. intros a K. unfold kept in K. apply andb_prop in K. apply K.
Qed.
Lemma carry_fmtp_fold om lm l : forall m,
  same_but m (fold_left (carry_fmtp om lm) l m)
  /\ value_attr (lit "ptime") (md_attrs (fold_left (carry_fmtp om lm) l m)) = value_attr (lit "ptime") (md_attrs m)
  /\ (forall q, fmtp_for q (md_attrs (fold_left (carry_fmtp om lm) l m)) =
       if existsb (fun f => match payload_type (fst f) with Some p => p =? q | None => false end) l
       then match expected_fmtp om lm q with Some x => Some x | None => fmtp_for q (md_attrs m) end
       else fmtp_for q (md_attrs m)).
Proof.
  assert (forall pt x m, value_attr (lit "ptime") (md_attrs (set_fmtp pt x m)) = value_attr (lit "ptime") (md_attrs m)) as VP.
  { intros pt x m. cbn [set_fmtp md_attrs]. unfold value_attr. rewrite find_map_app, find_map_filter.
    - cbn [find_map]. change (str_eqb (lit "fmtp") (lit "ptime")) with false. destruct (find_map _ (md_attrs m)); reflexivity.
    - intros [n|n v] H; [reflexivity|]. apply negb_false_iff in H. cbn [pt_attr] in H. apply andb_prop in H. destruct H as [H _]. apply str_eqb_spec in H. subst n. reflexivity. }
  induction l as [|f r IH]; intro m; cbn [fold_left existsb].
  - split; [apply same_but_refl|]. split; [reflexivity|]. reflexivity.
  - destruct (IH (carry_fmtp om lm m f)) as (S & V & F). unfold carry_fmtp in *. destruct (payload_type (fst f)) as [pt|] eqn:P.
    + assert (pt <= 127) as Lp. { unfold payload_type in P. destruct (parse_uint u16_max (fst f)) as [v|]; [|discriminate]. destruct (127 <? v) eqn:E; [discriminate|]. injection P as <-. lia. }
      set (m1 := match fmtp_for pt (md_attrs lm) with Some x => set_fmtp pt x m | None => match fmtp_for pt (md_attrs om) with Some x => set_fmtp pt x m | None => m end end) in *.
      assert (same_but m m1 /\ value_attr (lit "ptime") (md_attrs m1) = value_attr (lit "ptime") (md_attrs m)
              /\ forall q, fmtp_for q (md_attrs m1) = if q =? pt then match expected_fmtp om lm q with Some x => Some x | None => fmtp_for q (md_attrs m) end else fmtp_for q (md_attrs m)) as (S1 & V1 & F1).
      { unfold m1, expected_fmtp. destruct (fmtp_for pt (md_attrs lm)) as [x|] eqn:A; [|destruct (fmtp_for pt (md_attrs om)) as [x|] eqn:B].
        - split; [apply set_fmtp_same|]. split; [apply VP|]. intro q. rewrite fmtp_set by lia. destruct (q =? pt) eqn:Q; [|reflexivity]. apply N.eqb_eq in Q. subst q. rewrite A.
          now rewrite (fmtp_trimmed _ _ _ A).
        - split; [apply set_fmtp_same|]. split; [apply VP|]. intro q. rewrite fmtp_set by lia. destruct (q =? pt) eqn:Q; [|reflexivity]. apply N.eqb_eq in Q. subst q. rewrite A, B.
          now rewrite (fmtp_trimmed _ _ _ B).
        - split; [apply same_but_refl|]. split; [reflexivity|]. intro q. destruct (q =? pt) eqn:Q; [|reflexivity]. apply N.eqb_eq in Q. subst q. now rewrite A, B. }
      split; [eapply same_but_trans; eauto|]. split; [congruence|]. intro q. rewrite F, F1, (N.eqb_sym pt q). destruct (q =? pt); cbn [orb]; [|reflexivity].
      destruct (existsb _ r), (expected_fmtp om lm q); reflexivity.
    + split; [exact S|]. split; [exact V|]. exact F.
Qed.
Lemma ptime_set ms m : ms <= u32_max -> ptime (set_ptime ms m) = Some ms.
Proof.
  intro L. unfold ptime. cbn [set_ptime with_attrs md_attrs]. unfold set_value_attr, value_attr. rewrite find_map_app, find_map_none.
  - cbn [find_map]. rewrite str_eqb_refl. now apply parse_uint_print.
  - intros [n|n v] I; [reflexivity|]. apply filter_In in I. destruct I as [_ I]. cbn [has_name] in I. apply negb_true_iff in I. now rewrite I.
Qed.
Lemma fmtp_set_ptime q ms m : fmtp_for q (md_attrs (set_ptime ms m)) = fmtp_for q (md_attrs m).
Proof.
  cbn [set_ptime with_attrs md_attrs]. unfold set_value_attr, fmtp_for. rewrite find_map_app, find_map_filter.
  - cbn [find_map]. change (str_eqb (lit "ptime") (lit "fmtp")) with false. destruct (find_map _ (md_attrs m)); reflexivity.
  - intros [n|n v] H; [reflexivity|]. apply negb_false_iff in H. cbn [has_name] in H. apply str_eqb_spec in H. subst n. reflexivity.
Qed.
Lemma ptime_max m p : ptime m = Some p -> p <= u32_max.
Proof. unfold ptime. destruct (value_attr _ _); [|discriminate]. apply parse_uint_max. Qed.
Lemma carry_ptime_spec om lm m : same_but m (carry_ptime om lm m)
  /\ (forall q, fmtp_for q (md_attrs (carry_ptime om lm m)) = fmtp_for q (md_attrs m))
  /\ (value_attr (lit "ptime") (md_attrs m) = None -> ptime (carry_ptime om lm m) = expected_ptime om lm).
Proof.
  unfold carry_ptime, expected_ptime. destruct (ptime lm) as [p|] eqn:A; [|destruct (ptime om) as [p|] eqn:B].
  - split; [apply set_ptime_same|]. split; [intro; apply fmtp_set_ptime|]. intros _. apply ptime_set. eapply ptime_max; eauto.
  - split; [apply set_ptime_same|]. split; [intro; apply fmtp_set_ptime|]. intros _. apply ptime_set. eapply ptime_max; eauto.
  - split; [apply same_but_refl|]. split; [reflexivity|]. intro V. unfold ptime. now rewrite V.
Qed.

(** the rtpmap an accepted payload type gets *)
Definition chosen_map (om lm : media) (pt : N) : option rtpmap :=
  if pt <? 96 then lookup N.eqb pt (md_maps lm)
  else match lookup N.eqb pt (md_maps om) with
       | None => None
       | Some o => match matching_rtpmap lm o with Some l => Some (mkRtpMap pt (rm_name l) (rm_rate l) (rm_params l)) | None => None end
       end.
Lemma common_chosen om lm f g rm : common_format om lm f = Some (g, rm) ->
  g = f /\ (is_rtp (md_proto om) = true -> exists pt, payload_type f = Some pt /\ rm = chosen_map om lm pt)
  /\ (is_rtp (md_proto om) = false -> rm = None).
Proof.
  intro H. split; [apply (common_fst om lm f (g, rm) H)|]. unfold common_format in H. destruct (is_rtp (md_proto om)); (split; intro Q; try discriminate).
  - destruct (payload_type f) as [pt|]; [|discriminate]. exists pt. split; [reflexivity|]. unfold chosen_map. destruct (pt <? 96).
    + destruct (has_pt lm pt); [|discriminate]. congruence.
    + destruct (lookup N.eqb pt (md_maps om)); [|discriminate]. destruct (matching_rtpmap _ _); [|discriminate]. congruence.
  - destruct (existsb _ _); [|discriminate]. congruence.
Qed.
Lemma chosen_pt om lm pt x : maps_ok lm -> chosen_map om lm pt = Some x -> rm_pt x = pt.
Proof.
  intros K H. unfold chosen_map in H. destruct (pt <? 96); [now apply K|]. destruct (lookup _ _ _); [|discriminate]. destruct (matching_rtpmap _ _); [|discriminate].
  now injection H as <-.
Qed.
Lemma dir_of_print d : dir_of_token (dir_token d) = Some d.
Proof. destruct d; reflexivity. Qed.
Lemma find_map_app_some {A B} (f : A -> option B) l x y : (forall a, In a l -> f a = None) -> f x = Some y -> find_map f (l ++ [x]) = Some y.
Proof. intros H E. rewrite find_map_app, find_map_none by exact H. cbn. now rewrite E. Qed.
Lemma sub_filter {A} (P K : A -> bool) l l' : (forall a, P a = true -> K a = true) -> filter K l = filter K l' -> filter P l = filter P l'.
Proof. intros H E. rewrite <- (filter_sub P K l H), <- (filter_sub P K l' H). now rewrite E. Qed.
Lemma lists_common om lm q : is_rtp (md_proto om) = true \/ True ->
  existsb (fun f : str * option rtpmap => match payload_type (fst f) with Some p => p =? q | None => false end) (find_common_formats om lm) = true
  <-> exists f, In f (map fst (find_common_formats om lm)) /\ payload_type f = Some q.
Proof.
  intros _. rewrite existsb_exists. split.
  - intros (x & I & E). exists (fst x). split; [now apply in_map|]. destruct (payload_type (fst x)); [|discriminate]. apply N.eqb_eq in E. now subst.
  - intros (f & I & E). apply in_map_iff in I. destruct I as (x & <- & I). exists x. split; [exact I|]. rewrite E. apply N.eqb_refl.
Qed.

Record answer_facts (om lm am : media) : Prop := {
  af_type : md_type am = md_type om;
  af_port : md_port am = md_port lm;
  af_ports : md_ports am = md_ports om;
  af_proto : md_proto am = md_proto om;
  af_conn : md_conn am = md_conn lm;
  af_formats : picked (is_common om lm) (md_formats om) (md_formats am);
  af_nonempty : md_formats am = map fst (find_common_formats om lm);
  af_dir : dir_negotiate (dir_reverse (dir_of om)) (dir_of lm) = Some (dir_of am);
  af_maps : maps_ok lm -> is_rtp (md_proto om) = true -> forall pt, lists_pt am pt -> lookup N.eqb pt (md_maps am) = chosen_map om lm pt;
  af_others : forall pt, ~ lists_pt am pt -> lookup N.eqb pt (md_maps am) = None \/ ~ maps_ok lm;
  af_nomaps : is_rtp (md_proto om) = false -> md_maps am = [];
  af_lines : maps_ok lm -> forall pt, rtpmap_lines pt am =
     match lookup N.eqb pt (md_maps am) with
     | Some x => [AVal (lit "rtpmap") (rtpmap_text pt (rm_name x) (rm_rate x) (rm_params x))]
     | None => [] end;
  af_fmtp : forall pt, lists_pt am pt -> fmtp_for pt (md_attrs am) = expected_fmtp om lm pt;
  af_nofmtp : forall pt, ~ lists_pt am pt -> fmtp_for pt (md_attrs am) = None;
  af_ptime : ptime am = expected_ptime om lm
}.
Lemma add_formats_plain l : forall m m', (forall f rm, In (f, rm) l -> rm = None) -> add_formats l m = Some m' -> md_maps m' = md_maps m.
Proof.
  induction l as [|[f rm] r IH]; intros m m' H E; cbn [add_formats] in E; [injection E as <-; reflexivity|].
  destruct (add_format_token f m) as [m1|] eqn:A; [|discriminate]. rewrite (H f rm) in E by now left. rewrite (IH m1 m'); [|intros; eapply H; right; eauto|exact E].
  unfold add_format_token in A. destruct (_ && _); [|discriminate]. now injection A as <-.
Qed.
(** without any assumption on the local maps: the attributes, formats and plain fields *)
Lemma add_formats_weak l : forall m m', all_rtpmap (md_attrs m) -> add_formats l m = Some m' ->
  all_rtpmap (md_attrs m') /\ md_formats m' = md_formats m ++ map fst l
  /\ md_type m' = md_type m /\ md_port m' = md_port m /\ md_ports m' = md_ports m /\ md_proto m' = md_proto m
  /\ md_title m' = md_title m /\ md_conn m' = md_conn m /\ md_bw m' = md_bw m /\ md_key m' = md_key m.
Proof.
  induction l as [|[f rm] r IH]; intros m m' I H; cbn [add_formats] in H.
  - injection H as <-. rewrite app_nil_r. split; [exact I|]. repeat split.
  - destruct (add_format_token f m) as [m1|] eqn:F; [|discriminate]. unfold add_format_token in F. destruct (_ && _); [|discriminate]. injection F as <-.
    destruct rm as [x|].
    + destruct (add_rtpmap _ _ _ _ _) as [m2|] eqn:A; [|discriminate]. unfold add_rtpmap in A. destruct (_ && _ && _); [|discriminate].
      cbn [md_attrs md_maps] in A.
      set (b := is_some (lookup N.eqb (rm_pt x) (md_maps m))) in *.
      set (al := if b then filter (fun a => negb (pt_attr (lit "rtpmap") (rm_pt x) a)) (md_attrs m) else md_attrs m).
      set (ml := if b then remove_key N.eqb (rm_pt x) (md_maps m) else md_maps m).
      assert ((if b then (filter (fun a => negb (pt_attr (lit "rtpmap") (rm_pt x) a)) (md_attrs m), remove_key N.eqb (rm_pt x) (md_maps m)) else (md_attrs m, md_maps m)) = (al, ml)) as E
        by (unfold al, ml; destruct b; reflexivity). rewrite E in A. clear E.
      destruct (_ && _); [|discriminate]. injection A as <-. eapply IH in H.
      2:{ cbn [md_attrs]. intros a Ia. apply in_app_or in Ia. destruct Ia as [Ia|[<-|[]]]; [|reflexivity]. apply I. unfold al in Ia. destruct b; [|exact Ia].
        apply filter_In in Ia. apply Ia. }
      destruct H as (J & FF & R). split; [exact J|]. cbn [md_formats] in FF. split; [rewrite FF; cbn; rewrite <- app_assoc; reflexivity|exact R].
    + eapply IH in H; [|exact I]. destruct H as (J & FF & R). split; [exact J|]. cbn [md_formats] in FF. split; [rewrite FF; cbn; rewrite <- app_assoc; reflexivity|exact R].
Qed.
Lemma answered_facts om lm am : answered om lm am -> answer_facts om lm am.
Proof.
  intros (d & m & D & F & m' & P & ->).
  assert (all_rtpmap []) as Z by (intros ? []).
  destruct (add_formats_weak _ (base_answer om (md_port lm)) _ Z F) as (A0 & FF & T & Po & Ps & Pr & Ti & C & B & K). cbn [base_answer md_formats md_type md_port md_ports md_proto md_title md_conn md_bw md_key app] in *.
  set (common := find_common_formats om lm) in *.
  destruct (carry_fmtp_fold om lm common m) as (S1 & V1 & F1). set (m1 := fold_left (carry_fmtp om lm) common m) in *.
  destruct (carry_ptime_spec om lm m1) as (S2 & F2 & V2). set (m2 := carry_ptime om lm m1) in *.
  pose proof (same_but_trans _ _ _ S1 S2) as (T' & Po' & Ps' & Pr' & FF' & Ti' & C' & B' & K' & M' & A').
  unfold add_property in P. destruct (_ && _); [|discriminate]. injection P as <-.
  assert (value_attr (lit "ptime") (md_attrs m) = None) as NV.
  { unfold value_attr. apply find_map_none. intros a Ia. specialize (A0 a Ia). destruct a as [n|n v]; [discriminate|]. unfold has_name in A0. apply str_eqb_spec in A0. subst n. reflexivity. }
  assert (forall q, fmtp_for q (md_attrs m) = None) as NF.
  { intro q. unfold fmtp_for. apply find_map_none. intros a Ia. specialize (A0 a Ia). destruct a as [n|n v]; [discriminate|]. unfold has_name in A0. apply str_eqb_spec in A0. subst n. reflexivity. }
  set (am := with_conn (with_attrs m2 (md_attrs m2 ++ [AProp (dir_token d)])) (md_conn lm)).
  assert (md_attrs am = md_attrs m2 ++ [AProp (dir_token d)]) as EA by (unfold am; destruct (md_conn lm); reflexivity).
  assert (md_formats am = map fst common) as EF by (unfold am; destruct (md_conn lm); cbn; congruence).
  assert (md_maps am = md_maps m) as EM by (unfold am; destruct (md_conn lm); cbn; congruence).
  assert (forall q, fmtp_for q (md_attrs am) = fmtp_for q (md_attrs m2)) as EFm.
  { intro q. rewrite EA. unfold fmtp_for. rewrite find_map_app. cbn [find_map]. destruct (find_map _ (md_attrs m2)); reflexivity. }
  assert (forall q, rtpmap_lines q am = rtpmap_lines q m) as EL.
  { intro q. unfold rtpmap_lines. rewrite EA, filter_app. cbn [filter pt_attr]. rewrite app_nil_r. apply (sub_filter _ kept); [|exact A'].
    intros a H. destruct a as [n|n v]; [discriminate|]. unfold pt_attr in H. apply andb_prop in H. destruct H as [H _]. apply str_eqb_spec in H. subst n. reflexivity. }
  assert (forall q, lists_pt am q <-> existsb (fun f : str * option rtpmap => match payload_type (fst f) with Some p => p =? q | None => false end) common = true) as EP.
  { intro q. unfold lists_pt. rewrite EF. symmetry. apply lists_common. now right. }
  assert (maps_ok lm -> minv m /\ (forall f x, In (f, Some x) common -> lookup N.eqb (rm_pt x) (md_maps m) = Some x)
    /\ (forall q x, lookup N.eqb q (md_maps m) = Some x -> exists f, In (f, Some x) common /\ rm_pt x = q)) as MI.
  { intro OK. destruct (add_formats_inv common (base_answer om (md_port lm)) m) as (I & _ & L & G & _); [|  |exact F|].
    - split; [exact Z|]. intro pt. reflexivity.
    - intros f g x y Ix Iy E. apply filter_map_in in Ix. destruct Ix as (f' & _ & Cx). apply filter_map_in in Iy. destruct Iy as (g' & _ & Cy).
      destruct (is_rtp (md_proto om)) eqn:R.
      + apply common_chosen in Cx. destruct Cx as (_ & Cx & _). destruct (Cx R) as (p & _ & Ex). apply common_chosen in Cy. destruct Cy as (_ & Cy & _). destruct (Cy R) as (q & _ & Ey).
        symmetry in Ex, Ey. pose proof (chosen_pt _ _ _ _ OK Ex). pose proof (chosen_pt _ _ _ _ OK Ey). congruence.
      + apply common_chosen in Cx. destruct Cx as (_ & _ & Cx). specialize (Cx R). discriminate.
    - split; [exact I|]. split; [exact L|]. intros q x H. destruct (G q x H) as [Q|Q]; [discriminate|exact Q]. }
  constructor.
  - unfold am; destruct (md_conn lm); cbn; congruence.
  - unfold am; destruct (md_conn lm); cbn; congruence.
  - unfold am; destruct (md_conn lm); cbn; congruence.
  - unfold am; destruct (md_conn lm); cbn; congruence.
  - unfold am; destruct (md_conn lm); cbn; congruence.
  - rewrite EF. apply common_picked.
  - exact EF.
  - assert (dir_of am = d) as ->; [|exact D]. unfold dir_of, extract_direction. rewrite EA. erewrite find_map_app_some; [reflexivity| |apply dir_of_print].
    intros a Ia. destruct a as [n|n v]; [|reflexivity]. exfalso. assert (In (AProp n) (filter kept (md_attrs m2))) as J by (apply filter_In; auto).
    rewrite A' in J. apply filter_In in J. destruct J as [J _]. apply A0 in J. discriminate.
  - intros OK R pt Lp. destruct (MI OK) as (I & L & G). rewrite EM. destruct Lp as (f & If & Pf). rewrite EF in If. apply in_map_iff in If. destruct If as ([f' rm] & <- & If). cbn in Pf.
    pose proof If as If'. apply filter_map_in in If'. destruct If' as (g & _ & Cg). apply common_chosen in Cg. destruct Cg as (-> & Cg & _). destruct (Cg R) as (p & Pp & ->).
    rewrite Pf in Pp. injection Pp as <-. destruct (chosen_map om lm pt) as [x|] eqn:X.
    + pose proof (chosen_pt _ _ _ _ OK X) as Ex. rewrite <- Ex at 1. eapply L. exact If.
    + destruct (lookup N.eqb pt (md_maps m)) as [x|] eqn:Y; [|reflexivity]. exfalso. destruct (G _ _ Y) as (h & Ih & Eh). apply filter_map_in in Ih. destruct Ih as (h' & _ & Ch).
      apply common_chosen in Ch. destruct Ch as (_ & Ch & _). destruct (Ch R) as (q & _ & Q). symmetry in Q. pose proof (chosen_pt _ _ _ _ OK Q). congruence.
  - intros pt N. destruct (lookup N.eqb pt (md_maps am)) as [x|] eqn:Y; [|now left]. right. intro OK. destruct (MI OK) as (I & L & G). rewrite EM in Y.
    destruct (G _ _ Y) as (h & Ih & Eh). apply N. exists h. split; [rewrite EF; apply in_map_iff; exists (h, Some x); auto|].
    apply filter_map_in in Ih. destruct Ih as (h' & _ & Ch). destruct (is_rtp (md_proto om)) eqn:R.
    + apply common_chosen in Ch. destruct Ch as (-> & Ch & _). destruct (Ch R) as (q & Pq & Q). symmetry in Q. pose proof (chosen_pt _ _ _ _ OK Q). congruence.
    + apply common_chosen in Ch. destruct Ch as (_ & _ & Ch). specialize (Ch R). discriminate.
  - intro R. rewrite EM. enough (md_maps m = md_maps (base_answer om (md_port lm))) as -> by reflexivity. eapply add_formats_plain; [|exact F]. intros f rm I. apply filter_map_in in I. destruct I as (h' & _ & Ch).
    apply common_chosen in Ch. destruct Ch as (_ & _ & Ch). now apply Ch.
  - intros OK pt. destruct (MI OK) as ((_ & I) & _). rewrite EL, EM. specialize (I pt). destruct (lookup N.eqb pt (md_maps m)); [apply I|exact I].
  - intros pt Lp. apply EP in Lp. rewrite EFm. rewrite F2, F1, Lp, NF. destruct (expected_fmtp om lm pt); reflexivity.
  - intros pt N. rewrite EFm, F2, F1, NF. destruct (existsb _ common) eqn:E; [|reflexivity]. contradiction N. now apply EP.
  - assert (ptime am = ptime m2) as ->.
    { unfold ptime. rewrite EA. unfold value_attr. rewrite find_map_app. cbn [find_map]. destruct (find_map _ (md_attrs m2)); reflexivity. }
    apply V2. congruence.
Qed.

Lemma accepted_line sid offer addr caps ans i om am lm : negotiate_answer sid offer addr caps = Ok ans ->
  nth_error (sd_media offer) i = Some om -> nth_error (sd_media ans) i = Some am ->
  first_acceptable caps (sd_media offer) i -> local_line caps (md_type om) lm -> answer_facts om lm am.
Proof.
  intros H O A F L. destruct (negotiate_answer_lines _ _ _ _ _ H) as [_ K]. destruct (K i om am O A) as [[_ (lm' & L' & N)]|[N _]]; [|contradiction].
  apply find_local in L. rewrite L in L'. injection L' as <-. now apply answered_facts.
Qed.

(** ** when negotiation succeeds *)
Lemma llen_app' {A} (a b : list A) : llen (a ++ b) = llen a + llen b.
Proof. unfold llen. rewrite app_length. lia. Qed.
Lemma llen_filter {A} (P : A -> bool) l : llen (filter P l) <= llen l.
Proof. unfold llen. induction l as [|x r IH]; cbn [filter length]; [lia|]. destruct (P x); cbn [length]; lia. Qed.
Lemma llen_remove {V} k (l : list (N * V)) : llen (remove_key N.eqb k l) <= llen l.
Proof. unfold remove_key. apply llen_filter. Qed.
Lemma llen_insert {V} k v (l : list (N * V)) : llen (insert N.eqb k v l) <= llen l + 1.
Proof. unfold insert. unfold llen at 1. cbn [length]. pose proof (llen_remove k l). unfold llen in *. lia. Qed.
Definition ok_map (x : rtpmap) : Prop := rm_pt x <= 127 /\ valid_field (rm_name x) 64 = true /\ valid_rate (rm_rate x) = true.
Lemma add_formats_some l : forall m,
  (forall f rm, In (f, rm) l -> valid_field f 64 = true /\ match rm with Some x => ok_map x | None => True end) ->
  llen (md_formats m) + llen l <= 50 -> llen (md_attrs m) + llen l <= 50 -> llen (md_maps m) + llen l <= 50 ->
  exists m', add_formats l m = Some m' /\ llen (md_attrs m') <= llen (md_attrs m) + llen l.
Proof.
  induction l as [|[f rm] r IH]; intros m H LF LA LM; [exists m; split; [reflexivity|lia]|].
  assert (llen ((f, rm) :: r) = llen r + 1) as E by (unfold llen; cbn [length]; lia). rewrite E in *.
  destruct (H f rm (or_introl eq_refl)) as [V M]. cbn [add_formats].
  assert (add_format_token f m = Some (mkMedia (md_type m) (md_port m) (md_ports m) (md_proto m) (md_formats m ++ [f]) (md_title m) (md_conn m) (md_bw m)
               (md_key m) (md_attrs m) (md_maps m))) as ->.
  { unfold add_format_token. change MAX_ENCODING_NAME_LENGTH with 64. rewrite V. cbn [andb]. replace (llen (md_formats m) <? MAX_FORMATS) with true; [reflexivity|]. unfold MAX_FORMATS. lia. }
  set (m1 := mkMedia _ _ _ _ _ _ _ _ _ _ _).
  assert (forall x, llen (md_formats m ++ [x]) = llen (md_formats m) + 1) as E1 by (intro x; rewrite llen_app'; reflexivity).
  destruct rm as [x|].
  - destruct M as (M1 & M2 & M3). unfold add_rtpmap. change MAX_ENCODING_NAME_LENGTH with 64. rewrite M2, M3. unfold valid_pt. replace (rm_pt x <=? 127) with true by lia. cbn [andb].
    set (b := is_some (lookup N.eqb (rm_pt x) (md_maps m1))) in *.
    set (al := if b then filter (fun a => negb (pt_attr (lit "rtpmap") (rm_pt x) a)) (md_attrs m1) else md_attrs m1).
    set (ml := if b then remove_key N.eqb (rm_pt x) (md_maps m1) else md_maps m1).
    assert ((if b then (filter (fun a => negb (pt_attr (lit "rtpmap") (rm_pt x) a)) (md_attrs m1), remove_key N.eqb (rm_pt x) (md_maps m1)) else (md_attrs m1, md_maps m1)) = (al, ml)) as ->
        by (unfold al, ml; destruct b; reflexivity).
    assert (llen al <= llen (md_attrs m)) as La by (unfold al; destruct b; [apply llen_filter|cbn; lia]).
    assert (llen ml <= llen (md_maps m)) as Lm by (unfold ml; destruct b; [apply llen_remove|cbn; lia]).
    replace ((llen ml <? MAX_RTPMAPS) && (llen al <? MAX_ATTRIBUTES)) with true by (unfold MAX_RTPMAPS, MAX_ATTRIBUTES; lia).
    cbn [md_formats md_type md_port md_ports md_proto md_title md_conn md_bw md_key].
    match goal with |- context [add_formats r ?q] => destruct (IH q) as (m' & Q & L) end; cbn [md_attrs md_maps md_formats] in *.
    + intros g rm I. apply H. now right.
    + unfold m1. cbn [md_formats]. rewrite E1. lia.
    + rewrite llen_app'. change (llen [AVal (lit "rtpmap") (rtpmap_text (rm_pt x) (rm_name x) (rm_rate x) (rm_params x))]) with 1. lia.
    + pose proof (llen_insert (rm_pt x) (mkRtpMap (rm_pt x) (rm_name x) (rm_rate x) (rm_params x)) ml). lia.
    + exists m'. split; [exact Q|]. rewrite llen_app' in L. change (llen [AVal (lit "rtpmap") (rtpmap_text (rm_pt x) (rm_name x) (rm_rate x) (rm_params x))]) with 1 in L. lia.
  - destruct (IH m1) as (m' & Q & L); cbn [m1 md_attrs md_maps md_formats] in *; [intros g rm I; apply H; now right|rewrite E1; lia|lia|lia|].
    exists m'. split; [exact Q|lia].
Qed.
Lemma carry_len om lm l : forall m, llen (md_attrs (fold_left (carry_fmtp om lm) l m)) <= llen (md_attrs m) + llen l.
Proof.
  assert (forall pt x m, llen (md_attrs (set_fmtp pt x m)) <= llen (md_attrs m) + 1) as S.
  { intros pt x m. unfold set_fmtp. cbn [md_attrs]. rewrite llen_app'. pose proof (llen_filter (fun a => negb (pt_attr (lit "fmtp") pt a)) (md_attrs m)).
    change (llen [AVal (lit "fmtp") (print_N pt ++ 32 :: trim x)]) with 1. lia. }
  induction l as [|f r IH]; intro m; cbn [fold_left]; [change (llen (@nil (str * option rtpmap))) with 0; lia|].
  assert (llen (f :: r) = llen r + 1) as -> by (unfold llen; cbn [length]; lia). specialize (IH (carry_fmtp om lm m f)).
  assert (llen (md_attrs (carry_fmtp om lm m f)) <= llen (md_attrs m) + 1); [|lia]. unfold carry_fmtp. destruct (payload_type (fst f)); [|lia].
  destruct (fmtp_for _ _); [apply S|]. destruct (fmtp_for _ _); [apply S|lia].
Qed.
Lemma ptime_len om lm m : llen (md_attrs (carry_ptime om lm m)) <= llen (md_attrs m) + 1.
Proof.
  assert (forall ms, llen (md_attrs (set_ptime ms m)) <= llen (md_attrs m) + 1) as S.
  { intro ms. unfold set_ptime, with_attrs, set_value_attr. cbn [md_attrs]. rewrite llen_app'. pose proof (llen_filter (fun a => negb (has_name (lit "ptime") a)) (md_attrs m)).
    change (llen [AVal (lit "ptime") (print_N ms)]) with 1. lia. }
  unfold carry_ptime. destruct (ptime lm); [apply S|]. destruct (ptime om); [apply S|lia].
Qed.
Lemma filter_map_len {A B} (f : A -> option B) l : llen (filter_map f l) <= llen l.
Proof. unfold llen. induction l as [|x r IH]; cbn [filter_map length]; [lia|]. destruct (f x); cbn [length]; lia. Qed.
Lemma payload_le f pt : payload_type f = Some pt -> pt <= 127.
Proof. unfold payload_type. destruct (parse_uint u16_max f) as [v|]; [|discriminate]. destruct (127 <? v) eqn:E; [discriminate|]. intro H. injection H as <-. lia. Qed.
Lemma negotiate_media_some om caps lm : acceptable caps om -> local_line caps (md_type om) lm ->
  llen (md_formats om) <= 24 -> (forall f, In f (md_formats om) -> valid_field f 64 = true) ->
  maps_ok lm -> (forall x, In x (map snd (md_maps lm)) -> valid_field (rm_name x) 64 = true /\ valid_rate (rm_rate x) = true) ->
  dir_negotiate (dir_reverse (dir_of om)) (dir_of lm) <> None ->
  exists am, negotiate_media om caps = Ok am.
Proof.
  intros A L Nf V OK VM D. apply acceptable_iff in A. destruct A as (lm' & L' & P & C). apply find_local in L. rewrite L in L'. injection L' as <-.
  unfold negotiate_media. rewrite L, P. cbn [negb]. destruct (find_common_formats om lm) as [|x r] eqn:E; [congruence|]. rewrite <- E in *. clear C. cbv zeta.
  change (match extract_direction (md_attrs om) with Some d => d | None => DSendRecv end) with (dir_of om).
  change (match extract_direction (md_attrs lm) with Some d => d | None => DSendRecv end) with (dir_of lm).
  destruct (dir_negotiate (dir_reverse (dir_of om)) (dir_of lm)) as [d|]; [|congruence].
  assert (llen (find_common_formats om lm) <= 24) as LC by (unfold find_common_formats; pose proof (filter_map_len (common_format om lm) (md_formats om)); lia).
  destruct (add_formats_some (find_common_formats om lm) (base_answer om (md_port lm))) as (m & Q & LA).
  - intros f rm I. apply filter_map_in in I. destruct I as (f' & If & Cf). pose proof (common_chosen _ _ _ _ _ Cf) as (-> & R1 & R2). split; [now apply V|].
    destruct rm as [y|]; [|exact Logic.I]. destruct (is_rtp (md_proto om)); [|specialize (R2 eq_refl); discriminate]. destruct (R1 eq_refl) as (pt & Pp & Ey). symmetry in Ey.
    split; [rewrite (chosen_pt _ _ _ _ OK Ey); eapply payload_le; eauto|]. unfold chosen_map in Ey. destruct (pt <? 96).
    + apply VM. apply in_map_iff. exists (pt, y). split; [reflexivity|]. eapply lookup_in in Ey; [exact Ey|]. apply N.eqb_eq.
    + destruct (lookup N.eqb pt (md_maps om)); [|discriminate]. destruct (matching_rtpmap lm r0) eqn:M; [|discriminate]. injection Ey as <-. cbn. apply matching_some in M. apply VM, M.
  - cbn [base_answer md_formats]. change (llen (@nil str)) with 0. lia.
  - cbn [base_answer md_attrs]. change (llen (@nil attribute)) with 0. lia.
  - cbn [base_answer md_maps]. change (llen (@nil (N * rtpmap))) with 0. lia.
  - rewrite Q. cbn [base_answer md_attrs] in LA. change (llen (@nil attribute)) with 0 in LA.
    set (m2 := carry_ptime om lm (fold_left (carry_fmtp om lm) (find_common_formats om lm) m)).
    assert (llen (md_attrs m2) <= 49) as L2. { unfold m2. pose proof (ptime_len om lm (fold_left (carry_fmtp om lm) (find_common_formats om lm) m)). pose proof (carry_len om lm (find_common_formats om lm) m). lia. }
    unfold add_property. replace (llen (md_attrs m2) <? MAX_ATTRIBUTES) with true by (unfold MAX_ATTRIBUTES; lia).
    replace (valid_field (dir_token d) MAX_ATTRIBUTE_NAME_LENGTH) with true by (destruct d; reflexivity). cbn [andb]. eauto.
Qed.
Lemma negotiate_lines_ok caps l : forall types acc,
  (forall om, In om l -> acceptable caps om -> exists am, negotiate_media om caps = Ok am) ->
  llen acc + llen l <= 20 -> exists ms, negotiate_lines caps types acc l = Ok ms.
Proof.
  induction l as [|om r IH]; intros types acc H L; cbn [negotiate_lines]; [eauto|].
  assert (llen (om :: r) = llen r + 1) as E by (unfold llen; cbn [length]; lia). rewrite E in L.
  assert (forall x : media, llen (acc ++ [x]) = llen acc + 1) as E1 by (intro x; rewrite llen_app'; reflexivity).
  replace (llen acc <? MAX_MEDIA_DESCRIPTIONS) with true by (unfold MAX_MEDIA_DESCRIPTIONS; lia).
  assert (forall o, In o r -> acceptable caps o -> exists am, negotiate_media o caps = Ok am) as H' by (intros; apply H; [now right|assumption]).
  destruct (existsb (media_type_eqb (md_type om)) types); [apply IH; [exact H'|rewrite E1; lia]|].
  destruct (negotiate_media om caps) as [am|e] eqn:M; [apply IH; [exact H'|rewrite E1; lia]|].
  pose proof (negotiate_media_refused _ _ _ M) as R.
  destruct e; try (apply IH; [exact H'|rewrite E1; lia]); exfalso.
  - assert (~ ~ acceptable caps om) as N by (intro N; apply R in N; destruct N; discriminate). apply N. intro A. destruct (H om (or_introl eq_refl) A) as (am & Q). congruence.
  - assert (~ ~ acceptable caps om) as N by (intro N; apply R in N; destruct N; discriminate). apply N. intro A. destruct (H om (or_introl eq_refl) A) as (am & Q). congruence.
Qed.

(** ** the direction table *)
Lemma sends_b d : sends d <-> match d with DSendRecv | DSendOnly => True | _ => False end.
Proof. unfold sends. destruct d; split; try tauto; intros [?|?]; discriminate. Qed.
Lemma receives_b d : receives d <-> match d with DSendRecv | DRecvOnly => True | _ => False end.
Proof. unfold receives. destruct d; split; try tauto; intros [?|?]; discriminate. Qed.
Lemma agreed_table o l d : dir_negotiate (dir_reverse o) l = Some d -> agreed o l d <-> ~ same_way o l.
Proof.
  intro D. unfold agreed. rewrite !sends_b, !receives_b.
  assert (same_way o l \/ ~ same_way o l) as S.
  { unfold same_way. destruct o, l; try (right; intros [? _]; discriminate); try (left; split; [reflexivity|tauto]); right; intros [_ [?|?]]; discriminate. }
  destruct S as [[<- S]|S].
  - split; intro X; [exfalso|contradiction X; split; auto]. destruct S as [-> | ->]; cbn in D; injection D as <-; tauto.
  - split; [auto|]. intros _. unfold same_way in S. destruct o, l; cbn in D; try discriminate; try (injection D as <-; tauto); contradiction S; split; auto.
Qed.
Lemma offerer_table o l d : dir_negotiate (dir_reverse o) l = Some d -> (sends d -> receives o) /\ (receives d -> sends o).
Proof. rewrite !sends_b, !receives_b. destruct o, l; cbn; intro D; try discriminate; injection D as <-; tauto. Qed.
Lemma given_up_table o l : given_up o l <-> dir_negotiate (dir_reverse o) l = None.
Proof.
  unfold given_up. destruct o, l; cbn; split; intro H; try reflexivity; try discriminate;
    try (destruct H as [[? ?]|[[? ?]|[[? ?]|[? ?]]]]; congruence);
    try (left; split; congruence); try (right; left; split; congruence); try (right; right; left; split; congruence); try (right; right; right; split; congruence).
Qed.
