(** The Date header: exactly which texts are accepted, and what is said of past and future. *)
From Coq Require Import Arith NArith ZArith Bool String List Lia ZifyBool ZifyN ZifyNat.
Import ListNotations.
From Verif Require Import Base BaseFacts Text TextFacts DateHdr DateSpec.
Open Scope N_scope.
Open Scope list_scope.

Lemma ascii_len : forall s, (forall c, In c s -> c < 128) -> blen s = N.of_nat (List.length s).
Proof.
  induction s as [|c s IH]; intros H; [reflexivity|]. cbn [blen List.length]. rewrite IH by (intros; apply H; now right). pose proof (H c (or_introl eq_refl)).
  unfold len_utf8. destruct (c <? 128) eqn:E; [lia|]. apply N.ltb_ge in E. lia.
Qed.
Lemma digits_len : forall s, forallb is_digit s = true -> blen s = N.of_nat (List.length s).
Proof. intros s H. apply ascii_len. intros c Hc. rewrite forallb_forall in H. apply H in Hc. unfold is_digit, in_range in Hc. lia. Qed.
Lemma uint_digits : forall mx s, s <> [] -> forallb is_digit s = true -> parse_uint mx s = if digits_value s <=? mx then Some (digits_value s) else None.
Proof.
  intros mx s Na Ha. unfold parse_uint. destruct s as [|c r]; [congruence|]. assert (c <> 43) by (cbn [forallb] in Ha; apply andb_prop in Ha as [Ha _]; unfold is_digit, in_range in Ha; lia).
  destruct (c =? 43) eqn:E; [lia|]. unfold all_digits. now rewrite Ha.
Qed.
Lemma two_iff : forall lo hi s, hi <= 99 -> number_ok 2 u8_max lo hi s = true <-> exists v, two s v /\ lo <= v <= hi.
Proof.
  intros lo hi s Hh. unfold number_ok, two. split.
  - intros H. apply andb_prop in H as [H V]. apply andb_prop in H as [L D]. rewrite (digits_len s D) in L. destruct s as [|x [|y [|]]]; cbn [List.length] in L; try lia.
    rewrite uint_digits in V by (discriminate || exact D). cbn [forallb] in D. unfold is_digit, in_range in D.
    exists (10 * (x - 48) + (y - 48)). split.
    + exists (x - 48), (y - 48). refine (conj _ (conj _ (conj _ eq_refl))); [f_equal; [lia|f_equal; lia]|lia|lia].
    + unfold digits_value in V. cbn [fold_left] in V. destruct (_ <=? u8_max); [|discriminate]. lia.
  - intros (v & (a & b & -> & A & B & ->) & V). assert (D : forallb is_digit [48 + a; 48 + b] = true) by (cbn [forallb]; unfold is_digit, in_range; lia).
    rewrite D, (digits_len _ D), (uint_digits _ [48 + a; 48 + b] ltac:(discriminate) D). cbn [List.length]. unfold digits_value. cbn [fold_left]. replace ((0 * 10 + (48 + a - 48)) * 10 + (48 + b - 48)) with (10 * a + b) by lia. unfold u8_max. destruct (10 * a + b <=? 255) eqn:E; lia.
Qed.
Lemma four_iff : forall s, number_ok 4 u16_max 1970 2100 s = true <-> exists v, four s v /\ 1970 <= v <= 2100.
Proof.
  intros s. unfold number_ok, four. split.
  - intros H. apply andb_prop in H as [H V]. apply andb_prop in H as [L D]. rewrite (digits_len s D) in L. destruct s as [|x [|y [|z [|w [|]]]]]; cbn [List.length] in L; try lia.
    rewrite uint_digits in V by (discriminate || exact D). cbn [forallb] in D. unfold is_digit, in_range in D.
    exists (1000 * (x - 48) + 100 * (y - 48) + 10 * (z - 48) + (w - 48)). split.
    + exists (x - 48), (y - 48), (z - 48), (w - 48). refine (conj _ (conj _ (conj _ (conj _ (conj _ eq_refl))))); [|lia..]. repeat (f_equal; [lia|]). f_equal. lia.
    + unfold digits_value in V. cbn [fold_left] in V. destruct (_ <=? u16_max); [|discriminate]. lia.
  - intros (v & (a & b & c & d & -> & A & B & C & E & ->) & V). assert (D : forallb is_digit [48 + a; 48 + b; 48 + c; 48 + d] = true) by (cbn [forallb]; unfold is_digit, in_range; lia).
    rewrite D, (digits_len _ D), (uint_digits _ [48 + a; 48 + b; 48 + c; 48 + d] ltac:(discriminate) D). cbn [List.length]. unfold digits_value. cbn [fold_left].
    replace ((((0 * 10 + (48 + a - 48)) * 10 + (48 + b - 48)) * 10 + (48 + c - 48)) * 10 + (48 + d - 48)) with (1000 * a + 100 * b + 10 * c + d) by lia. unfold u16_max. destruct (_ <=? 65535) eqn:F; lia.
Qed.
Lemma one_iff : forall l s, one_of l s = true <-> In s l.
Proof. intros l s. unfold one_of. rewrite existsb_exists. split; [intros (x & A & B); apply str_eqb_spec in B; now subst|intros H; exists s; split; [exact H|apply str_eqb_refl]]. Qed.
Lemma time_iff : forall s, time_ok s = true <-> exists h m c a b d, s = h ++ 58 :: m ++ 58 :: c /\ two h a /\ two m b /\ two c d /\ a <= 23 /\ b <= 59 /\ d <= 59.
Proof.
  intros s. unfold time_ok. split.
  - destruct (split_on 58 s) as [|h [|m [|c [|]]]] eqn:E; try discriminate. intros H. apply andb_prop in H as [H C]. apply andb_prop in H as [H M].
    apply two_iff in H as (a & A & A'), M as (b & B & B'), C as (d & D & D'); [|lia..]. exists h, m, c, a, b, d. split; [|repeat split; auto; lia]. rewrite <- (join_split_on 58 s), E. cbn [join]. reflexivity.
  - intros (h & m & c & a & b & d & -> & A & B & D & A' & B' & D'). assert (T : forall x v, two x v -> mem 58 x = false). { intros x v (p & q & -> & P & Q & _). apply mem_false. cbn [In]. lia. }
    rewrite split_on_app by (eapply T; eauto). rewrite split_on_app by (eapply T; eauto). rewrite split_on_nomem by (eapply T; eauto).
    rewrite !andb_true_iff. repeat split; apply two_iff; try lia; [exists a|exists b|exists d]; (split; [assumption|lia]).
Qed.
Lemma comma_iff : forall d, ends_with [44] d && one_of DAYS (trim_end_by (N.eqb 44) d) = true <-> exists day commas, d = day ++ commas /\ In day DAYS /\ commas <> [] /\ forall x, In x commas -> x = 44.
Proof.
  intros d. split.
  - intros H. apply andb_prop in H as [E O]. apply one_iff in O. destruct (trim_end_by_prefix (N.eqb 44) d) as (b & D & B). exists (trim_end_by (N.eqb 44) d), b. refine (conj D (conj O (conj _ _))).
    + intros ->. rewrite app_nil_r in D. unfold ends_with in E. apply starts_with_spec in E as [r E]. rewrite D in E. revert E. change (rev [44]) with [44]. unfold DAYS in O. cbn [map In] in O. intros E. decompose [or] O; try contradiction; match goal with H : _ = trim_end_by _ _ |- _ => rewrite <- H in E end; discriminate E.
    + intros x Hx. rewrite forallb_forall in B. apply B in Hx. lia.
  - intros (day & commas & -> & O & Nc & C). apply andb_true_intro. split.
    + unfold ends_with. apply starts_with_spec. rewrite rev_app_distr. destruct (rev commas) as [|x r] eqn:E; [apply (f_equal (@rev N)) in E; rewrite rev_involutive in E; now subst|].
      assert (x = 44) as -> by (apply C; apply in_rev; rewrite E; now left). exists (r ++ rev day). reflexivity.
    + apply one_iff. replace (trim_end_by (N.eqb 44) (day ++ commas)) with day; [exact O|]. rewrite trim_end_by_rev, rev_app_distr.
      assert (D : forall u v, (forall x, In x u -> x = 44) -> drop_while (N.eqb 44) (u ++ v) = drop_while (N.eqb 44) v).
      { induction u as [|x u IH]; intros v H; [reflexivity|]. cbn [app drop_while]. rewrite (H x (or_introl eq_refl)). cbn [N.eqb Pos.eqb]. apply IH. intros y Hy. apply H. now right. }
      rewrite D by (intros x Hx; apply C; now apply in_rev). unfold DAYS in O. cbn [map In] in O. decompose [or] O; try contradiction; subst day; reflexivity.
Qed.
(** C168: a date is accepted iff it has at most 128 bytes, no control characters, and begins
    like a date *)
Theorem C168_accepts : forall ops s d, date_new ops s = Some d <->
  d = mkDate s (http_parse ops s) /\ blen s <= 128 /\ (forall c, In c s -> 32 <= c /\ c <> 127) /\ shape s.
Proof.
  assert (Z2 : forall z, (2 <=? blen z) && forallb is_alpha z = true <-> (2 <= List.length z)%nat /\ forall x, In x z -> 65 <= x <= 90 \/ 97 <= x <= 122).
  { intros z. split.
    - intros H. apply andb_prop in H as [H1 H2]. rewrite forallb_forall in H2. assert (A : forall x, In x z -> 65 <= x <= 90 \/ 97 <= x <= 122) by (intros x Hx; apply H2 in Hx; unfold is_alpha, is_upper, is_lower, in_range in Hx; lia).
      rewrite ascii_len in H1 by (intros x Hx; apply A in Hx; lia). split; [lia|exact A].
    - intros [L A]. rewrite ascii_len by (intros x Hx; apply A in Hx; lia). apply andb_true_intro. split; [lia|]. rewrite forallb_forall. intros x Hx. apply A in Hx. unfold is_alpha, is_upper, is_lower, in_range. lia. }
  assert (S : forall s, date_ok s = true <-> shape s).
  { intros s. unfold date_ok, shape. split.
    - destruct (split_ws s) as [|d [|dd [|mon [|y [|t [|z rest]]]]]]; try discriminate. intros H.
      rewrite <- (andb_assoc _ (2 <=? blen z)) in H. apply andb_prop in H as [H HZ]. apply andb_prop in H as [H HT]. apply andb_prop in H as [H HY]. apply andb_prop in H as [H HM]. apply andb_prop in H as [HD HN].
      apply comma_iff in HD as (day & commas & -> & D1 & D2 & D3). apply two_iff in HN as (v & V & V'); [|lia]. apply one_iff in HM. apply four_iff in HY as (w & W & W'). apply time_iff in HT as (h & m & c & a & b & e & -> & T1 & T2 & T3 & T4 & T5 & T6).
      apply Z2 in HZ as [Z3 Z4]. exists day, commas, dd, mon, y, (h ++ 58 :: m ++ 58 :: c), z, rest, h, m, c, v, w, a, b, e. repeat (split; [solve [auto]|]). exact Z4.
    - intros (day & commas & dd & mon & y & t & z & rest & h & m & c & v & w & a & b & e & -> & D1 & [D2 D3] & V & V' & HM & W & W' & -> & T1 & T2 & T3 & T4 & T5 & T6 & Z3 & Z4).
      rewrite <- (andb_assoc _ (2 <=? blen z)).  rewrite !andb_true_iff. assert (HD := proj2 (comma_iff (day ++ commas)) (ex_intro _ day (ex_intro _ commas (conj eq_refl (conj D1 (conj D2 D3)))))). apply andb_prop in HD as [HD1 HD2].
      repeat split; auto; [apply two_iff; eauto; lia|now apply one_iff|apply four_iff; eauto|apply time_iff; do 6 eexists; eauto 8|..]; pose proof (proj2 (Z2 z) (conj Z3 Z4)) as K; now apply andb_prop in K. }
  intros ops s d. unfold date_new. assert (C : negb (existsb is_ascii_control s) = true <-> forall c, In c s -> 32 <= c /\ c <> 127).
  { rewrite negb_true_iff. split.
    - intros H c Hc. destruct (is_ascii_control c) eqn:E; [|unfold is_ascii_control in E; lia]. assert (existsb is_ascii_control s = true) by (apply existsb_exists; eauto). congruence.
    - intros H. destruct (existsb is_ascii_control s) eqn:E; [|reflexivity]. apply existsb_exists in E as (c & Hc & E). apply H in Hc. unfold is_ascii_control in E. lia. }
  destruct ((blen s <=? 128) && negb (existsb is_ascii_control s) && date_ok s) eqn:E.
  - apply andb_prop in E as [E E3]. apply andb_prop in E as [E1 E2]. apply S in E3. pose proof (proj1 C E2) as E4. apply N.leb_le in E1. split; [intros [= <-]; auto|intros [-> _]; reflexivity].
  - split; [discriminate|]. intros (_ & H1 & H2 & H3). apply S in H3. pose proof (proj2 C H2) as H4. apply N.leb_le in H1. rewrite H1, H4, H3 in E. discriminate.
Qed.
Print Assumptions C168_accepts.
Example C168_ex : exists s, shape s /\ s = lit "Mon, 01 Jan 2024 00:30:59 GMT".
Proof.
  exists (lit "Mon, 01 Jan 2024 00:30:59 GMT"). split; [|reflexivity]. apply (C168_accepts (mkHttp (fun _ => None) (fun _ => [])) _ (mkDate (lit "Mon, 01 Jan 2024 00:30:59 GMT") None)). vm_compute. reflexivity.
Qed.
(** C168 fails as a check of dates: a day that no month has, the wrong day of the week, and
    any text behind the date are accepted *)
Theorem C168_calendar_refuted : forall ops, exists a b,
  date_new ops (lit "Mon, 31 Feb 2024 00:00:00 GMT") = Some a /\ date_new ops (lit "Sun,, 01 Jan 2024 00:00:00 GMT <sip:x>") = Some b.
Proof. intros ops. do 2 eexists. split; vm_compute; reflexivity. Qed.
Print Assumptions C168_calendar_refuted.
(** C168: a date made from a time holds that time; whether it is past or future is said only
    when it is so, and always in that case *)
Theorem C168_past : forall d now,
  (is_past d now = Some true <-> exists t, d_time d = Some t /\ (t <= now)%Z)
  /\ (is_future d now = Some true <-> exists t, d_time d = Some t /\ (now <= t)%Z)
  /\ (forall ops t, d = date_at ops t -> d_time d = Some t /\ d_raw d = http_fmt ops t).
Proof.
  intros d now. unfold is_past, is_future. refine (conj _ (conj _ _)); [| |intros ops t ->; now split]; destruct (d_time d) as [t|].
  - destruct (t <=? now)%Z eqn:E; split; try discriminate; [exists t; split; [reflexivity|lia]|reflexivity|]. intros (u & [= <-] & H). lia.
  - split; [discriminate|]. intros (u & H & _). discriminate.
  - destruct (now <=? t)%Z eqn:E; split; try discriminate; [exists t; split; [reflexivity|lia]|reflexivity|]. intros (u & [= <-] & H). lia.
  - split; [discriminate|]. intros (u & H & _). discriminate.
Qed.
Print Assumptions C168_past.
(** C168 fails in that "no" is never said: of a known future date [is_past] says nothing *)
Theorem C168_no_refuted : (forall d now, is_past d now <> Some false /\ is_future d now <> Some false)
  /\ exists d t now, d_time d = Some t /\ (now < t)%Z /\ is_past d now = None.
Proof.
  split.
  - intros d now. unfold is_past, is_future. destruct (d_time d) as [t|]; [|now split]. destruct (t <=? now)%Z, (now <=? t)%Z; split; discriminate.
  - exists (mkDate [] (Some 5%Z)), 5%Z, 3%Z. repeat split.
Qed.
Print Assumptions C168_no_refuted.
(** C168 fails in that text and time are kept in step: the text has whole seconds, so that a
    date made from another time is not the date that is read from its text *)
Theorem C168_seconds_refuted : forall ops t, (forall u, http_parse ops (http_fmt ops u) = Some (u - u mod 1000000000)%Z) -> (t mod 1000000000 <> 0)%Z ->
  forall d, date_new ops (d_raw (date_at ops t)) = Some d -> d <> date_at ops t.
Proof.
  intros ops t H N d E K. apply C168_accepts in E as [-> _]. unfold date_at in K. cbn [d_raw] in K. rewrite H in K. assert (t - t mod 1000000000 = t)%Z by congruence. lia.
Qed.
Print Assumptions C168_seconds_refuted.
