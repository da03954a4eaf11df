(** One-word headers: exactly what is accepted, and that it is read back as written. *)
From Coq Require Import Arith NArith Bool String List Lia ZifyBool ZifyN ZifyNat.
Import ListNotations.
From Verif Require Import Base BaseFacts Text TextFacts TypedFacts NumFacts Words WordsSpec.
Open Scope N_scope.
Open Scope list_scope.

(** ** Tokens *)
Lemma token_iff : forall c, token_c c = true <-> token_char c.
Proof.
  intros c. unfold token_c, token_char. rewrite orb_true_iff, mem_In. unfold is_alnum, is_alpha, is_upper, is_lower, is_digit, in_range.
  rewrite !orb_true_iff, !andb_true_iff, !N.leb_le. tauto.
Qed.
Lemma wide_iff : forall c, priority_c c = true <-> token_char c \/ c = 94 \/ c = 124.
Proof.
  intros c. unfold priority_c, token_char. rewrite orb_true_iff, mem_In. unfold is_alnum, is_alpha, is_upper, is_lower, is_digit, in_range.
  rewrite !orb_true_iff, !andb_true_iff, !N.leb_le. cbn [In lit map list_ascii_of_string Ascii.N_of_ascii]. cbn. intuition lia.
Qed.
Lemma wide_small : forall c, token_char c \/ c = 94 \/ c = 124 -> 33 <= c < 127.
Proof. intros c [[H|[H|[H|H]]]|H]; [lia..| |lia]. cbn in H. lia. Qed.
Lemma ascii_len : forall s, (forall c, In c s -> c < 128) -> blen s = N.of_nat (List.length s).
Proof.
  induction s as [|c s IH]; intros H; [reflexivity|]. cbn [blen List.length]. rewrite IH by (intros; apply H; now right). pose proof (H c (or_introl eq_refl)).
  unfold len_utf8. destruct (c <? 128) eqn:E; [lia|]. apply N.ltb_ge in E. lia.
Qed.
Lemma some_iff : forall s : str, negb (str_eqb s []) = true <-> s <> [].
Proof. intros s. rewrite negb_true_iff. apply str_eqb_neq. Qed.
Lemma none_such : forall (p : N -> bool) s, negb (existsb p s) = true <-> forall c, In c s -> p c = false.
Proof.
  intros p s. rewrite negb_true_iff. split.
  - intros H c Hc. destruct (p c) eqn:E; [|reflexivity]. assert (existsb p s = true) by (apply existsb_exists; eauto). congruence.
  - intros H. destruct (existsb p s) eqn:E; [|reflexivity]. apply existsb_exists in E as (c & Hc & E). rewrite (H c Hc) in E. discriminate.
Qed.
Lemma word_iff : forall n s, word_ok n s = true <-> token n s.
Proof.
  intros n s. unfold word_ok, token. rewrite !andb_true_iff, some_iff, none_such, forallb_forall, N.leb_le. split.
  - intros [[[A B] _] D]. assert (T : forall c, In c s -> token_char c) by (intros c Hc; apply token_iff, D, Hc). rewrite ascii_len in B; [auto|]. intros c Hc. apply T in Hc. pose proof (wide_small c (or_introl Hc)). lia.
  - intros (A & B & C). rewrite ascii_len by (intros c Hc; apply B in Hc; pose proof (wide_small c (or_introl Hc)); lia). repeat split; auto.
    + intros c Hc. apply B in Hc. pose proof (wide_small c (or_introl Hc)). unfold is_ascii_control. lia.
    + intros c Hc. now apply token_iff, B.
Qed.
Lemma lower_char : forall c, token_char c -> token_char (lower_c c) /\ ~ (65 <= lower_c c <= 90).
Proof.
  intros c H. unfold lower_c, is_upper, in_range. destruct ((65 <=? c) && (c <=? 90)) eqn:E; split; try lia; [|exact H]. right. right. left. lia.
Qed.
Lemma lower_token : forall n s, token n s -> token n (lower s) /\ no_capitals (lower s).
Proof.
  intros n s (A & B & C). split; [refine (conj _ (conj _ _))|].
  - destruct s; [congruence|discriminate].
  - intros c Hc. apply in_map_iff in Hc as (x & <- & Hx). now apply lower_char, B.
  - now rewrite lower_length.
  - intros c Hc. apply in_map_iff in Hc as (x & <- & Hx). now apply lower_char, B.
Qed.

(** ** Event and Subscription-State *)
Lemma add_iff : forall p n v q, params_add p n v = Some q <->
  (token 64 n /\ (forall t, v = Some t -> token 256 t) /\ (List.length p < 20)%nat /\ params_get p n = None) /\ q = bput (lower n) v p.
Proof.
  intros p n v q. unfold params_add, params_get.
  assert (G : word_ok 64 n && match v with Some t => word_ok 256 t | None => true end && (llen p <? 20) && is_none (bget (lower n) p) = true
              <-> token 64 n /\ (forall t, v = Some t -> token 256 t) /\ (List.length p < 20)%nat /\ bget (lower n) p = None).
  { rewrite !andb_true_iff, word_iff, N.ltb_lt. assert (V : match v with Some t => word_ok 256 t | None => true end = true <-> forall t, v = Some t -> token 256 t).
    { destruct v as [t|]; [|split; [discriminate|auto]]. rewrite word_iff. split; [intros H u [= <-]; exact H|intros H; now apply H]. }
    rewrite V. unfold llen, is_none, is_some. destruct (bget (lower n) p); cbn [negb]; intuition (discriminate || lia || auto). }
  destruct (_ && _ && _ && _) eqn:E.
  - split; [intros [= <-]; split; [now apply G|reflexivity]|intros [_ ->]; reflexivity].
  - split; [discriminate|]. intros [H _]. apply G in H. congruence.
Qed.
(** C166: a parameter is accepted iff its name is a token of at most 64 characters not yet
    used in any spelling, its value is missing or a token of at most 256, and fewer than 20
    are there; afterwards every spelling of the name gives the value, other names give
    what they gave *)
Theorem C166_params : forall p n v,
  ((exists q, params_add p n v = Some q) <-> token 64 n /\ (forall t, v = Some t -> token 256 t) /\ (List.length p < 20)%nat /\ params_get p n = None)
  /\ forall q, params_add p n v = Some q -> forall k, (same_letters k n -> params_get q k = Some v) /\ (~ same_letters k n -> params_get q k = params_get p k).
Proof.
  intros p n v. split.
  - split; [intros [q H]; now apply add_iff in H|]. intros H. exists (bput (lower n) v p). now apply add_iff.
  - intros q H k. apply add_iff in H as [_ ->]. unfold same_letters, params_get. split.
    + intros ->. apply bget_bput.
    + intros E. now apply bget_bput_other.
Qed.
Print Assumptions C166_params.
Lemma within_add : forall p n v q, within p -> params_add p n v = Some q -> within q.
Proof.
  intros p n v q (L & K & I) H. apply add_iff in H as [(T & V & C & _) ->]. refine (conj _ (conj (bput_sorted _ _ _ K) _)).
  - pose proof (bput_llen (lower n) v p) as X. unfold llen in X. lia.
  - intros m w Hw. apply bput_in in Hw as [E|Hw]; [|now apply I]. assert (m = lower n) by congruence. assert (w = v) by congruence. subst. split; [now apply lower_token|exact V].
Qed.
(** C166: everything that can be built is within the limits, so that it holds no character
    that ends a parameter, a header value or a line *)
Theorem C166_limits :
  (forall e, built e -> token 64 (ev_package e) /\ (forall i, ev_id e = Some i -> token 256 i) /\ within (ev_params e))
  /\ (forall h, built_sub h -> within (sh_params h)).
Proof.
  assert (W0 : within []) by (refine (conj _ (conj I _)); [cbn; lia|contradiction]). split.
  - induction 1 as [p e H|e i e' B (P & J & W) H|e n v e' B (P & J & W) H].
    + unfold event_new in H. destruct (word_ok 64 p) eqn:E; [|discriminate]. injection H as <-. apply word_iff in E. refine (conj E (conj _ W0)). discriminate.
    + unfold with_id in H. destruct (word_ok 256 i) eqn:E; [|discriminate]. injection H as <-. apply word_iff in E. refine (conj P (conj _ W)). cbn. intros j [= <-]. exact E.
    + unfold event_add in H. destruct (params_add (ev_params e) n v) as [q|] eqn:E; [|discriminate]. injection H as <-. refine (conj P (conj J _)). exact (within_add _ _ _ _ W E).
  - induction 1 as [x|h n v h' B W H]; [exact W0|]. unfold sub_add in H. destruct (params_add (sh_params h) n v) as [q|] eqn:E; [|discriminate]. injection H as <-. exact (within_add _ _ _ _ W E).
Qed.
Print Assumptions C166_limits.
Example C166_ex : exists e, built e /\ ev_id e = Some (lit "7") /\ params_get (ev_params e) (lit "Priority") = Some (Some (lit "high")).
Proof.
  exists (mkEvent (lit "presence") (Some (lit "7")) [(lit "priority", Some (lit "high"))]). refine (conj _ (conj eq_refl _)); [|vm_compute; reflexivity].
  apply (b_add (mkEvent (lit "presence") (Some (lit "7")) []) (lit "PRIORITY") (Some (lit "high"))); [|vm_compute; reflexivity].
  apply (b_id (mkEvent (lit "presence") None []) (lit "7")); [|vm_compute; reflexivity]. apply (b_new (lit "presence")). vm_compute. reflexivity.
Qed.
(** C166: a subscription state is one of three words in any spelling, or another token of at
    most 32 characters; written and read again it is the same *)
Theorem C166_state : forall s x,
  (state_parse s = Some x <->
     match x with
     | Active => same_letters s (lit "active")
     | Pending => same_letters s (lit "pending")
     | Terminated => same_letters s (lit "terminated")
     | Unknown t => t = s /\ token 32 s /\ forall w, In w [lit "active"; lit "pending"; lit "terminated"] -> ~ same_letters s w
     end)
  /\ (state_parse s = Some x -> state_parse (state_text x) = Some x).
Proof.
  intros s x. split.
  - unfold state_parse, same_letters. cbv zeta. change (lower (lit "active")) with (lit "active"). change (lower (lit "pending")) with (lit "pending"). change (lower (lit "terminated")) with (lit "terminated").
    destruct (str_eqb (lower s) (lit "active")) eqn:A.
    { apply str_eqb_spec in A. rewrite A. destruct x as [| | |t]; split; intros H; try discriminate H; try reflexivity. destruct H as (_ & _ & H). exfalso. exact (H _ (or_introl eq_refl) eq_refl). }
    destruct (str_eqb (lower s) (lit "pending")) eqn:B.
    { apply str_eqb_spec in B. rewrite B. destruct x as [| | |t]; split; intros H; try discriminate H; try reflexivity. destruct H as (_ & _ & H). exfalso. exact (H _ (or_intror (or_introl eq_refl)) eq_refl). }
    destruct (str_eqb (lower s) (lit "terminated")) eqn:C.
    { apply str_eqb_spec in C. rewrite C. destruct x as [| | |t]; split; intros H; try discriminate H; try reflexivity. destruct H as (_ & _ & H). exfalso. exact (H _ (or_intror (or_intror (or_introl eq_refl))) eq_refl). }
    apply str_eqb_neq in A, B, C. destruct (word_ok 32 s) eqn:W.
    + apply word_iff in W. destruct x as [| | |t]; split; intros H; try discriminate H; try congruence.
      * assert (t = s) by congruence. refine (conj H0 (conj W _)). intros w [<-|[<-|[<-|[]]]]; assumption.
      * destruct H as [-> _]. reflexivity.
    + split; [discriminate|]. destruct x as [| | |t]; intros H; try congruence. destruct H as (_ & H & _). apply word_iff in H. congruence.
  - intros H. destruct x as [| | |t]; try (vm_compute; reflexivity). cbn [state_text]. assert (t = s) as ->; [|exact H]. unfold state_parse in H. cbv zeta in H.
    repeat (destruct (str_eqb _ _); [discriminate|]). destruct (word_ok 32 s); [congruence|discriminate].
Qed.
Print Assumptions C166_state.
Example C166_state_ex : state_parse (lit "ACTIVE") = Some Active /\ state_parse (lit "waiting") = Some (Unknown (lit "waiting")) /\ state_parse (lit "active,x") = None.
Proof. now vm_compute. Qed.

(** ** Entity tags *)
(** C167: an entity tag is accepted iff it is a token of at most 128 characters, and is kept
    as it is; two of them match iff they are equal *)
Theorem C167_etag : forall s t, (etag_new s = Some t <-> t = s /\ token 128 s)
  /\ (forall a b, etag_new s = Some a -> etag_new t = Some b -> etag_match a b = true <-> a = b).
Proof.
  assert (E : forall s t, etag_new s = Some t <-> t = s /\ token 128 s).
  { intros s t. unfold etag_new. assert (G : etag_ok s = true <-> token 128 s).
    { rewrite <- word_iff. unfold etag_ok, word_ok. rewrite !andb_true_iff, !none_such, forallb_forall, some_iff. split.
      - intros [[[A B] C] D]. repeat split; auto.
        + intros c Hc. specialize (C c Hc). now apply orb_false_iff in C.
        + intros c Hc. specialize (D c Hc). now apply negb_false_iff in D.
      - intros [[[A B] C] D]. repeat split; auto.
        + intros c Hc. rewrite (C c Hc). specialize (D c Hc). apply token_iff in D. pose proof (wide_small c (or_introl D)). cbn [orb]. unfold is_ws, is_ascii_ws, in_range. lia.
        + intros c Hc. now rewrite (D c Hc). }
    destruct (etag_ok s); split; try discriminate.
    - intros [= <-]. split; [reflexivity|now apply G].
    - intros [-> _]. reflexivity.
    - intros [_ H]. apply G in H. discriminate. }
  intros s t. split; [apply E|]. intros a b Ha Hb. apply E in Ha as [-> Ha], Hb as [-> Hb]. unfold etag_match.
  assert (U : forall x, token 128 x -> utf8 x = x). { intros x (_ & X & _). apply utf8_ascii. rewrite forallb_forall. intros c Hc. apply X in Hc. pose proof (wide_small c (or_introl Hc)). unfold is_ascii. lia. }
  rewrite (U s Ha), (U t Hb). apply str_eqb_spec.
Qed.
Print Assumptions C167_etag.
Example C167_etag_ex : etag_new (lit "dx200xyz") = Some (lit "dx200xyz") /\ etag_new (lit "a b") = None.
Proof. now vm_compute. Qed.

(** ** Refer-Sub *)
(** C167: Refer-Sub is read iff it is "true" or "false" in any spelling, with white space
    round it, of at most 16 bytes in all; what is written is read back *)
Theorem C167_refer_sub : forall s b,
  (refer_sub_parse s = Some b <-> blen s <= 16 /\ exists p w q, s = p ++ w ++ q /\ blanks p /\ blanks q /\ same_letters w (if b then lit "true" else lit "false"))
  /\ refer_sub_parse (refer_sub_text b) = Some b.
Proof.
  intros s b. split; [|destruct b; vm_compute; reflexivity]. unfold refer_sub_parse, same_letters. change (lower (if b then lit "true" else lit "false")) with (lower (if b then lit "true" else lit "false")).
  assert (L : lower (if b then lit "true" else lit "false") = if b then lit "true" else lit "false") by (destruct b; reflexivity). rewrite L. split.
  - destruct (blen s <=? 16) eqn:E; [|discriminate]. apply N.leb_le in E. cbv zeta. intros H. split; [exact E|].
    destruct (trim_by_sub is_ws s) as (p & q & E1 & E2 & E3). exists p, (trim s), q. refine (conj E1 (conj E2 (conj E3 _))).
    destruct (str_eqb (lower (trim s)) (lit "true")) eqn:T; [apply str_eqb_spec in T; assert (b = true) by congruence; now subst|].
    destruct (str_eqb (lower (trim s)) (lit "false")) eqn:F; [apply str_eqb_spec in F; assert (b = false) by congruence; now subst|discriminate].
  - intros (B & p & w & q & -> & P & Q & W). apply N.leb_le in B. rewrite B. cbv zeta. rewrite (trim_pad p w q P Q).
    assert (T : trim w = w). { apply edgeless_words. rewrite forallb_forall. intros c Hc. assert (H : In (lower_c c) (lower w)) by (apply in_map_iff; eauto). rewrite W in H. rewrite <- (ws_lower c). destruct b; cbn in H; decompose [or] H; subst; try contradiction; rewrite <- H0 || rewrite <- H1; reflexivity. }
    rewrite T, W. destruct b; reflexivity.
Qed.
Print Assumptions C167_refer_sub.
Example C167_refer_sub_ex : refer_sub_parse (lit "  FALSE ") = Some false /\ refer_sub_parse (lit "        false    ") = None.
Proof. now vm_compute. Qed.

(** ** Subject *)
(** C167: a subject is accepted iff it is visible ASCII with blanks and tabs, at most 256
    bytes and not only blanks, and is kept as it is *)
Theorem C167_subject : forall s t, subject_new s = Some t <->
  t = s /\ (exists c, In c s /\ c <> 32 /\ c <> 9) /\ (forall c, In c s -> c = 9 \/ 32 <= c <= 126) /\ N.of_nat (List.length s) <= 256.
Proof.
  intros s t. unfold subject_new. assert (G : subject_ok s = true <-> (exists c, In c s /\ c <> 32 /\ c <> 9) /\ (forall c, In c s -> c = 9 \/ 32 <= c <= 126) /\ N.of_nat (List.length s) <= 256).
  { unfold subject_ok. rewrite !andb_true_iff, none_such, forallb_forall, N.leb_le, negb_true_iff, orb_false_iff. split.
    - intros [[[[A1 A2] B] C] D]. assert (R : forall c, In c s -> c = 9 \/ 32 <= c <= 126) by (intros c Hc; apply C in Hc; unfold blank, in_range in Hc; lia). refine (conj _ (conj R _)).
      + clear - A2. induction s as [|c s IH]; [discriminate|]. cbn [forallb] in A2. apply andb_false_iff in A2 as [A|A]; [exists c; split; [now left|]; unfold blank in A; lia|]. destruct (IH A) as (x & X & Y). exists x. split; [now right|exact Y].
      + rewrite ascii_len in B; [exact B|]. intros c Hc. apply R in Hc. lia.
    - intros ((x & X & Y) & R & L). rewrite ascii_len by (intros c Hc; apply R in Hc; lia). refine (conj (conj (conj (conj _ _) L) _) _).
      + apply str_eqb_neq. intros ->. contradiction.
      + destruct (forallb blank s) eqn:E; [|reflexivity]. rewrite forallb_forall in E. specialize (E x X). unfold blank in E. lia.
      + intros c Hc. apply R in Hc. unfold blank, in_range. lia.
      + intros c Hc. apply R in Hc. unfold is_control, in_range. lia. }
  destruct (subject_ok s); split; try discriminate.
  - intros [= <-]. split; [reflexivity|now apply G].
  - intros [-> _]. reflexivity.
  - intros [_ H]. apply G in H. discriminate.
Qed.
Print Assumptions C167_subject.
Example C167_subject_ex : subject_new (lit " Need more boxes") = Some (lit " Need more boxes") /\ subject_new (lit "  ") = None.
Proof. now vm_compute. Qed.

(** ** Priority *)
Definition usual : list str := [lit "emergency"; lit "urgent"; lit "normal"; lit "non-urgent"].
(** C167: a priority is one of the four words in any spelling, or another token of at most 32
    characters, kept in lower case; written and read again it is the same *)
Theorem C167_priority : forall s x,
  (priority_parse s = Some x <->
     match x with
     | Emergency => same_letters s (lit "emergency")
     | Urgent => same_letters s (lit "urgent")
     | Normal => same_letters s (lit "normal")
     | NonUrgent => same_letters s (lit "non-urgent")
     | Extension t => t = lower s /\ wide_token 32 s /\ forall w, In w usual -> ~ same_letters s w
     end)
  /\ (priority_parse s = Some x -> priority_parse (priority_text x) = Some x).
Proof.
  assert (OK : forall s, priority_ok s = true <-> wide_token 32 s).
  { intros s. unfold priority_ok, wide_token. rewrite !andb_true_iff, some_iff, none_such, forallb_forall, N.leb_le. split.
    - intros [[[A B] _] D]. assert (T : forall c, In c s -> token_char c \/ c = 94 \/ c = 124) by (intros c Hc; apply wide_iff, D, Hc). rewrite ascii_len in B; [auto|]. intros c Hc. apply T, wide_small in Hc. lia.
    - intros (A & B & C). rewrite ascii_len by (intros c Hc; apply B, wide_small in Hc; lia). repeat split; auto.
      + intros c Hc. apply B, wide_small in Hc. unfold is_ascii_control. lia.
      + intros c Hc. now apply wide_iff, B. }
  assert (LW : forall s, wide_token 32 s -> wide_token 32 (lower s)).
  { intros s (A & B & C). refine (conj _ (conj _ _)).
    - destruct s; [congruence|discriminate].
    - intros c Hc. apply in_map_iff in Hc as (y & <- & Hy). destruct (B y Hy) as [T|[->| ->]]; [left; now apply lower_char|right..]; [now left|now right].
    - now rewrite lower_length. }
  assert (IFF : forall s x, priority_parse s = Some x <->
     match x with
     | Emergency => same_letters s (lit "emergency")
     | Urgent => same_letters s (lit "urgent")
     | Normal => same_letters s (lit "normal")
     | NonUrgent => same_letters s (lit "non-urgent")
     | Extension t => t = lower s /\ wide_token 32 s /\ forall w, In w usual -> ~ same_letters s w
     end).
  { intros s x. unfold priority_parse, same_letters. cbv zeta. change (lower (lit "emergency")) with (lit "emergency"). change (lower (lit "urgent")) with (lit "urgent"). change (lower (lit "normal")) with (lit "normal"). change (lower (lit "non-urgent")) with (lit "non-urgent").
    destruct (str_eqb (lower s) (lit "emergency")) eqn:A.
    { apply str_eqb_spec in A. rewrite A. destruct x; split; intros H; try discriminate H; try reflexivity. destruct H as (_ & _ & H). exfalso. exact (H _ (or_introl eq_refl) eq_refl). }
    destruct (str_eqb (lower s) (lit "urgent")) eqn:B.
    { apply str_eqb_spec in B. rewrite B. destruct x; split; intros H; try discriminate H; try reflexivity. destruct H as (_ & _ & H). exfalso. exact (H _ (or_intror (or_introl eq_refl)) eq_refl). }
    destruct (str_eqb (lower s) (lit "normal")) eqn:C.
    { apply str_eqb_spec in C. rewrite C. destruct x; split; intros H; try discriminate H; try reflexivity. destruct H as (_ & _ & H). exfalso. exact (H _ (or_intror (or_intror (or_introl eq_refl))) eq_refl). }
    destruct (str_eqb (lower s) (lit "non-urgent")) eqn:D.
    { apply str_eqb_spec in D. rewrite D. destruct x; split; intros H; try discriminate H; try reflexivity. destruct H as (_ & _ & H). exfalso. exact (H _ (or_intror (or_intror (or_intror (or_introl eq_refl)))) eq_refl). }
    apply str_eqb_neq in A, B, C, D. destruct (priority_ok s) eqn:W.
    + apply OK in W. destruct x as [| | | |t]; split; intros H; try discriminate H; try congruence.
      * assert (t = lower s) by congruence. refine (conj H0 (conj W _)). intros w [<-|[<-|[<-|[<-|[]]]]]; assumption.
      * destruct H as [-> _]. reflexivity.
    + split; [discriminate|]. destruct x as [| | | |t]; intros H; try congruence. destruct H as (_ & H & _). apply OK in H. congruence. }
  intros s x. split; [apply IFF|]. intros H. destruct x as [| | | |t]; try (vm_compute; reflexivity). cbn [priority_text]. apply IFF in H as (-> & W & U). apply IFF. refine (conj _ (conj (LW s W) _)).
  - symmetry. apply lower_idem.
  - intros w Hw. unfold same_letters. rewrite lower_idem. exact (U w Hw).
Qed.
Print Assumptions C167_priority.
(** C167: the four words are ranked, other priorities are not *)
Theorem C167_urgency : forall p, (urgency p = None <-> exists s, p = Extension s) /\ (forall q n, urgency p = Some n -> urgency q = Some n -> p = q).
Proof. intros p. split; [destruct p; cbn; split; try discriminate; try (intros [s E]; discriminate); intros; eauto|]. intros q n. destruct p, q; cbn; congruence. Qed.
Print Assumptions C167_urgency.
Theorem C167_order : exists a b c d, urgency NonUrgent = Some a /\ urgency Normal = Some b /\ urgency Urgent = Some c /\ urgency Emergency = Some d /\ a < b /\ b < c /\ c < d.
Proof. do 4 eexists. repeat split; reflexivity. Qed.
Print Assumptions C167_order.
Example C167_priority_ex : priority_parse (lit "URGENT") = Some Urgent /\ priority_parse (lit "High") = Some (Extension (lit "high")) /\ priority_parse (lit "a:b") = None.
Proof. now vm_compute. Qed.

(** ** Version *)
Lemma pad_by : forall p a x b, forallb p a = true -> forallb p b = true -> no_edge p x -> x <> [] -> trim_by p (a ++ x ++ b) = x.
Proof.
  intros p a x b A B [X1 X2] N. unfold trim_by, trim_start_by.
  assert (D : forall u v, forallb p u = true -> drop_while p (u ++ v) = drop_while p v). { induction u as [|c u IH]; intros v H; [reflexivity|]. cbn [forallb] in H. apply andb_prop in H as [H1 H2]. cbn [app drop_while]. rewrite H1. now apply IH. }
  rewrite (D a _ A). rewrite drop_while_id by (destruct x; [congruence|exact X1]). rewrite trim_end_by_rev, rev_app_distr, D.
  - rewrite drop_while_id; [apply rev_involutive|exact X2].
  - rewrite forallb_forall in *. intros c Hc. apply B. now apply in_rev.
Qed.
(** C167: a version is accepted iff it is "SIP/" in any spelling, a number written with
    value 2, a dot and a number with value 0, with blanks and tabs round it *)
Theorem C167_version : forall s, version_parse s = true <->
  exists p w a b q, s = p ++ w ++ a ++ 46 :: b ++ q
    /\ (forall c, In c p \/ In c q -> c = 32 \/ c = 9) /\ same_letters w (lit "SIP/")
    /\ (a <> [] /\ (forall c, In c a -> 48 <= c <= 57) /\ digits_value a = 2) /\ (b <> [] /\ (forall c, In c b -> 48 <= c <= 57) /\ digits_value b = 0).
Proof.
  assert (Dg : forall a, forallb is_digit a = true <-> forall c, In c a -> 48 <= c <= 57).
  { intros a. rewrite forallb_forall. unfold is_digit, in_range. split; intros H c Hc; specialize (H c Hc); lia. }
  assert (Bl : forall a, forallb blank a = true <-> forall c, In c a -> c = 32 \/ c = 9).
  { intros a. rewrite forallb_forall. unfold blank. split; intros H c Hc; specialize (H c Hc); lia. }
  assert (Pu : forall a, a <> [] -> forallb is_digit a = true -> parse_uint u16_max a = if digits_value a <=? u16_max then Some (digits_value a) else None).
  { intros a Na Ha. unfold parse_uint. destruct a as [|c r]; [congruence|]. assert (c <> 43) by (apply Dg with (c := c) in Ha; [lia|now left]). destruct (c =? 43) eqn:E; [lia|]. unfold all_digits. now rewrite Ha. }
  intros s. unfold version_parse. split.
  - destruct (existsb _ s); [discriminate|]. cbv zeta. destruct (eq_ic (firstn 4 (trim_by blank s)) (lit "SIP/")) eqn:E; [|discriminate].
    destruct (split_once 46 (skipn 4 (trim_by blank s))) as [[a b]|] eqn:Sp; [|discriminate]. destruct (str_eqb a []) eqn:Na; [discriminate|]. destruct (str_eqb b []) eqn:Nb; [discriminate|]. cbn [orb].
    destruct (forallb is_digit a) eqn:Da; [|discriminate]. destruct (forallb is_digit b) eqn:Db; [|discriminate]. cbn [negb orb]. apply str_eqb_neq in Na, Nb. rewrite (Pu a Na Da), (Pu b Nb Db).
    destruct (digits_value a <=? u16_max); [|discriminate]. destruct (digits_value b <=? u16_max); [|discriminate]. intros H. apply andb_prop in H as [H1 H2]. apply N.eqb_eq in H1, H2.
    destruct (trim_by_sub blank s) as (p & q & E1 & E2 & E3). apply split_once_some in Sp as [Sp _]. exists p, (firstn 4 (trim_by blank s)), a, b, q. refine (conj _ (conj _ (conj _ (conj (conj Na (conj _ H1)) (conj Nb (conj _ H2)))))).
    + rewrite E1 at 1. f_equal. rewrite <- (firstn_skipn 4 (trim_by blank s)) at 1. rewrite Sp, <- !app_assoc. reflexivity.
    + intros c [Hc|Hc]; [now apply (proj1 (Bl p) E2)|now apply (proj1 (Bl q) E3)].
    + now apply eq_ic_spec.
    + now apply Dg.
    + now apply Dg.
  - intros (p & w & a & b & q & -> & P & W & (Na & Da & Va) & (Nb & Db & Vb)).
    assert (Lw : List.length w = 4%nat) by (rewrite <- (lower_length w), W; reflexivity).
    assert (Cw : forall c, In c w -> 33 <= c < 127). { intros c Hc. assert (H : In (lower_c c) (lower w)) by (apply in_map_iff; eauto). rewrite W in H. change (lower (lit "SIP/")) with [115; 105; 112; 47] in H. revert H. unfold lower_c, is_upper, in_range. destruct ((65 <=? c) && (c <=? 90)) eqn:E; cbn; lia. }
    assert (Ctl : existsb (fun c => is_control c && negb (c =? 9)) (p ++ w ++ a ++ 46 :: b ++ q) = false).
    { apply negb_true_iff, none_such. intros c Hc. assert (K : c = 9 \/ 32 <= c < 127).
      { rewrite !in_app_iff in Hc. cbn [In] in Hc. rewrite in_app_iff in Hc. destruct Hc as [Hc|[Hc|[Hc|[Hc|[Hc|Hc]]]]]; [specialize (P c (or_introl Hc))|apply Cw in Hc|apply Da in Hc| |apply Db in Hc|specialize (P c (or_intror Hc))]; lia. }
      unfold is_control, in_range. lia. }
    rewrite Ctl. cbv zeta. replace (p ++ w ++ a ++ 46 :: b ++ q) with (p ++ (w ++ a ++ 46 :: b) ++ q) by (rewrite <- !app_assoc; reflexivity).
    assert (T : trim_by blank (p ++ (w ++ a ++ 46 :: b) ++ q) = w ++ a ++ 46 :: b).
    { apply pad_by; [apply Bl; auto..| |destruct w; [discriminate|discriminate]]. apply no_edge_all. rewrite forallb_forall. intros c Hc. assert (K : 33 <= c < 127). { rewrite !in_app_iff in Hc. cbn [In] in Hc. destruct Hc as [Hc|[Hc|[Hc|Hc]]]; [apply Cw in Hc|apply Da in Hc| |apply Db in Hc]; lia. } unfold blank. lia. }
    rewrite T. assert (F : firstn 4 (w ++ a ++ 46 :: b) = w) by (rewrite <- Lw, firstn_app, Nat.sub_diag, firstn_all; cbn; apply app_nil_r). assert (K : skipn 4 (w ++ a ++ 46 :: b) = a ++ 46 :: b) by (rewrite <- Lw, skipn_app, Nat.sub_diag, skipn_all; reflexivity).
    rewrite F, K. assert (Ew : eq_ic w (lit "SIP/") = true) by (now apply eq_ic_spec). rewrite Ew. rewrite split_once_app by (apply mem_false; intros H; apply Da in H; lia).
    apply str_eqb_neq in Na as Na', Nb as Nb'. rewrite Na', Nb'. apply Dg in Da, Db. rewrite Da, Db. cbn [orb negb]. rewrite (Pu a Na Da), (Pu b Nb Db), Va, Vb. reflexivity.
Qed.
Print Assumptions C167_version.
Example C167_version_ex : version_parse (lit " sip/2.0 ") = true /\ version_parse (lit "SIP/02.00") = true /\ version_parse (lit "SIP/2") = false.
Proof. now vm_compute. Qed.
