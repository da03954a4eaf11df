(** Properties C58, C59, C102, C103 (framing of messages on byte streams) and C60 (choice
    of transport). *)
From Coq Require Import Arith NArith Bool String List Lia ZifyBool ZifyN ZifyNat.
Import ListNotations.
From Verif Require Import Base BaseFacts Headers HeadersProofs Method Text TextFacts Uri UriProofs Msg AnyUri Message MessageSpec MessageProofs P_Uri P_Message Framing FramingSpec FramingProofs.
Open Scope N_scope.
Open Scope list_scope.

(** ** C59: no byte is lost or invented *)
(** The framer takes exactly the streams that consist of complete messages with CR and
    LF between them and an incomplete rest; it delivers those messages in order and keeps
    that rest. *)
Theorem C59_framing : forall s fs r, drain_sip_frames s = Some (fs, r) <-> framed_stream s fs r.
Proof. exact drain_spec. Qed.
Print Assumptions C59_framing.
(** The reading of a stream is unique. *)
Theorem C59_unique : forall s fs r fs' r', framed_stream s fs r -> framed_stream s fs' r' -> fs' = fs /\ r' = r.
Proof. intros s fs r fs' r' A B. apply drain_spec in A. apply drain_spec in B. rewrite A in B. injection B as -> ->. auto. Qed.
Print Assumptions C59_unique.
(** Each delivered message ends its header block at its first blank line and has as many
    bytes after it as its Content-Length says. *)
Theorem C59_messages : forall s fs r f, drain_sip_frames s = Some (fs, r) -> In f fs ->
  exists head body, f = head ++ BLANK_LINE ++ body /\ (forall a b, f = a ++ BLANK_LINE ++ b -> llen head <= llen a) /\ declares head (llen body).
Proof.
  intros s fs r f H Hf. apply drain_spec, framed_messages in H. rewrite Forall_forall in H. destruct (H f Hf) as (_ & h & b & [A B] & _ & D & _). exists h, b. auto.
Qed.
Print Assumptions C59_messages.
(** Only CR and LF are dropped: taking all CR and LF away, the stream is the delivered
    messages followed by what is kept. *)
Definition no_crlf (s : list N) : list N := filter (fun c => negb ((c =? 13) || (c =? 10))) s.
Lemma no_crlf_app : forall a b, no_crlf (a ++ b) = no_crlf a ++ no_crlf b.
Proof. intros a b. unfold no_crlf. apply filter_app. Qed.
Lemma no_crlf_crlfs : forall k, crlfs k -> no_crlf k = [].
Proof.
  induction k as [|c k IH]; intros K; [reflexivity|]. unfold no_crlf in *. cbn [filter]. pose proof (K c (or_introl eq_refl)).
  replace (negb ((c =? 13) || (c =? 10))) with false by lia. apply IH. intros x Hx. apply K. now right.
Qed.
Theorem C59_bytes : forall s fs r, drain_sip_frames s = Some (fs, r) -> no_crlf s = no_crlf (concat fs ++ r).
Proof.
  intros s fs r H. apply drain_spec in H. induction H as [k r K W|k f s fs r K M H IH].
  - cbn [concat app]. rewrite no_crlf_app, (no_crlf_crlfs k K). reflexivity.
  - cbn [concat]. rewrite !no_crlf_app, IH, !no_crlf_app, (no_crlf_crlfs k K), <- app_assoc. reflexivity.
Qed.
Print Assumptions C59_bytes.

Definition msg1 : list N := lit "A" ++ [13; 10] ++ lit "Content-Length : 3" ++ [13; 10; 13; 10; 1; 13; 10].
Definition msg2 : list N := lit "B" ++ [13; 10] ++ lit "L:  0 " ++ [10] ++ lit "l:0" ++ [13; 10; 13; 10].
Example C59_example : drain_sip_frames ([13; 10; 10] ++ msg1 ++ [13; 10] ++ msg2 ++ lit "C") = Some ([msg1; msg2], lit "C")
  (* two Content-Lengths that differ, none, one that is not a number *)
  /\ drain_sip_frames (lit "B" ++ [13; 10] ++ lit "L:0" ++ [10] ++ lit "l:1" ++ [13; 10; 13; 10]) = None
  /\ drain_sip_frames (lit "B" ++ [13; 10; 13; 10]) = None
  /\ drain_sip_frames (lit "B" ++ [13; 10] ++ lit "L:+1" ++ [13; 10; 13; 10]) = None.
Proof. repeat split; vm_compute; reflexivity. Qed.

(** ** C58: segmentation *)
(** Two ways of cutting the same stream into reads that both leave the connection open
    deliver the same messages and keep the same rest.  Missing for the full property:
    the connection may be closed under one segmentation and not under another (below). *)
Theorem C58_segmentation_partial : forall cs1 cs2, concat cs1 = concat cs2 -> open (run_session cs1) = true -> open (run_session cs2) = true ->
  run_session cs1 = run_session cs2.
Proof.
  intros cs1 cs2 E O1 O2. pose proof (run_open cs1 O1) as A. pose proof (run_open cs2 O2) as B. rewrite <- E in B. destruct (C59_unique _ _ _ _ _ A B) as [X Y].
  destruct (run_session cs1) as [d1 b1 o1], (run_session cs2) as [d2 b2 o2]. cbn in *. congruence.
Qed.
Print Assumptions C58_segmentation_partial.
(** A stream of messages whose header blocks are at most 65533 bytes long is delivered
    message by message under every segmentation. *)
Theorem C58_delivered : forall s fs r, framed_stream s fs r -> Forall early_head fs -> early_head r ->
  forall cs, concat cs = s -> run_session cs = mkSession fs r true.
Proof. intros s fs r H A B cs <-. now apply run_good. Qed.
Print Assumptions C58_delivered.
(** Under any segmentation, of any stream, what is delivered is what the stream starts
    with; so two segmentations differ at most in how much they deliver. *)
Theorem C58_prefix : forall cs1 cs2, concat cs1 = concat cs2 ->
  (exists more, delivered (run_session cs2) = delivered (run_session cs1) ++ more)
  \/ (exists more, delivered (run_session cs1) = delivered (run_session cs2) ++ more).
Proof.
  intros cs1 cs2 E. destruct (run_prefix cs1) as (p1 & q1 & r1 & -> & F1). destruct (run_prefix cs2) as (p2 & q2 & r2 & -> & F2).
  rewrite !concat_app in E. destruct (app_eq_app _ _ _ _ E) as (l & [[A _]|[A _]]).
  - right. rewrite A in F1. exact (framed_prefix _ _ _ _ _ _ F2 F1).
  - left. rewrite A in F2. exact (framed_prefix _ _ _ _ _ _ F1 F2).
Qed.
Print Assumptions C58_prefix.
Theorem C58_honest : forall cs, exists s rest r, concat cs = s ++ rest /\ framed_stream s (delivered (run_session cs)) r.
Proof. intros cs. destruct (run_prefix cs) as (p & q & r & E & F). exists (concat p), (concat q), r. split; [rewrite E at 1; apply concat_app|exact F]. Qed.
Print Assumptions C58_honest.

Example C58_example : framed_stream (msg1 ++ [13; 10] ++ msg2 ++ lit "C") [msg1; msg2] (lit "C") /\ Forall early_head [msg1; msg2] /\ early_head (lit "C")
  /\ run_session [lit "A"; [13]; [10] ++ lit "Content-Length :"; lit " 3" ++ [13; 10; 13]; [10; 1]; [13; 10; 13]; [10] ++ msg2 ++ lit "C"] = mkSession [msg1; msg2] (lit "C") true.
Proof.
  split; [apply C59_framing; vm_compute; reflexivity|]. split; [|split; [|vm_compute; reflexivity]].
  - assert (X : forall f, llen f <= 65533 -> early_head f) by (intros f L h r [E _]; rewrite E, !llen_app in L; lia).
    constructor; [apply X; vm_compute; discriminate|]. constructor; [apply X; vm_compute; discriminate|constructor].
  - intros h r [E _]. apply (f_equal llen) in E. rewrite !llen_app in E. change (llen (lit "C")) with 1 in E. change (llen BLANK_LINE) with 4 in E. lia.
Qed.

(** Messages of the same read are lost when a later one is malformed. *)
Theorem C58_lost_refuted : exists m bad, message m
  /\ run_session [m; bad] = mkSession [m] bad false
  /\ delivered (run_session [m ++ bad]) = [] /\ open (run_session [m ++ bad]) = false.
Proof.
  exists (lit "A" ++ [13; 10] ++ lit "l:0" ++ [13; 10; 13; 10]), (lit "B" ++ [13; 10; 13; 10]). split; [|split; [vm_compute; reflexivity|split; vm_compute; reflexivity]].
  assert (X : drain_sip_frames (lit "A" ++ [13; 10] ++ lit "l:0" ++ [13; 10; 13; 10]) = Some ([lit "A" ++ [13; 10] ++ lit "l:0" ++ [13; 10; 13; 10]], [])) by (vm_compute; reflexivity).
  apply C59_framing, framed_messages in X. now inversion X.
Qed.
Print Assumptions C58_lost_refuted.
(** A message whose header block is a few bytes below the limit is accepted when it comes
    in one piece and closes the connection when it is cut inside the blank line. *)
Theorem C58_boundary_refuted : exists c1 c2, message (c1 ++ c2)
  /\ run_session [c1 ++ c2] = mkSession [c1 ++ c2] [] true
  /\ delivered (run_session [c1; c2]) = [] /\ open (run_session [c1; c2]) = false.
Proof.
  assert (exists n, N.of_nat n = 65526) as [n En] by (exists (N.to_nat 65526); apply Nnat.N2Nat.id).
  set (pad := List.repeat 66 n). set (ls := [lit "A"; lit "l:0"; pad]). set (head := join CRLF ls).
  assert (Hp : forall c, In c pad -> c = 66) by (intros c Hc; now apply repeat_spec in Hc).
  assert (Lp : llen pad = 65526) by (unfold pad, llen; now rewrite repeat_length).
  assert (Lh : llen head = 65534).
  { unfold head, ls. cbn [join]. rewrite !llen_app, Lp. reflexivity. }
  assert (H : head_of (head ++ BLANK_LINE ++ []) head []).
  { apply find_head. unfold head, BLANK_LINE. apply find_end; [discriminate|]. repeat constructor; try discriminate.
    - vm_compute. intuition discriminate.
    - vm_compute. intuition discriminate.
    - intros X. rewrite X in Lp. discriminate.
    - intros X. apply Hp in X. discriminate. }
  rewrite app_nil_r in H.
  assert (M : message (head ++ BLANK_LINE)).
  { split; [exists 65, ([13; 10] ++ lit "l:0" ++ [13; 10] ++ pad ++ BLANK_LINE); split; [unfold head, ls; cbn [join]; rewrite <- !app_assoc; reflexivity|split; discriminate]|].
    exists head, []. split; [exact H|]. split; [lia|]. split; [|cbn; lia]. apply declares_parse. unfold parse_content_length, head, ls. cbn [join].
    change (lit "A" ++ CRLF ++ lit "l:0" ++ CRLF ++ pad) with (([65; 13] ++ 10 :: ([108; 58; 48; 13] ++ 10 :: pad))).
    rewrite split_on_app by reflexivity. rewrite split_on_app by reflexivity. rewrite split_on_nomem by (apply mem_false; intros X; apply Hp in X; discriminate).
    cbn [content_length_lines]. change (content_length_line None [65; 13]) with (@Some (option N) None). cbv iota. change (content_length_line None [108; 58; 48; 13]) with (Some (Some 0)). cbv iota.
    unfold content_length_line. assert (Y : split_once 58 (drop_last_cr pad) = None).
    { apply split_once_none, mem_false. intros X. destruct (drop_cr_cases pad) as [Z|Z].
      - rewrite <- Z in X. apply Hp in X. discriminate.
      - assert (W : In 13 pad) by (rewrite Z; apply in_or_app; right; now left). apply Hp in W. discriminate. }
    rewrite Y. reflexivity. }
  exists (head ++ [13; 10; 13]), [10]. assert (E : (head ++ [13; 10; 13]) ++ [10] = head ++ BLANK_LINE) by (rewrite <- app_assoc; reflexivity). rewrite E.
  split; [exact M|].
  assert (D : drain_sip_frames (head ++ BLANK_LINE) = Some ([head ++ BLANK_LINE], [])).
  { apply C59_framing. pose proof (framed_message [] (head ++ BLANK_LINE) [] [] [] (fun c (F : In c []) => match F with end) M) as X. rewrite app_nil_r in X. apply X.
    apply (framed_rest [] [] (fun c (F : In c []) => match F with end)). now left. }
  assert (B : drain_sip_frames (head ++ [13; 10; 13]) = None).
  { apply drain_bad. assert (S : starts (head ++ [13; 10; 13])).
    { exists 65, ([13; 10] ++ lit "l:0" ++ [13; 10] ++ pad ++ [13; 10; 13]). split; [unfold head, ls; cbn [join]; rewrite <- !app_assoc; reflexivity|split; discriminate]. }
    rewrite (next_unfold _ _ (consume_starts _ S)) by (destruct S as (x & y & Q & _); rewrite Q; discriminate).
    replace (find_sub BLANK_LINE (head ++ [13; 10; 13])) with (@None (list N * list N)).
    - unfold MAX_HEADER_SIZE. rewrite llen_app, Lh. reflexivity.
    - symmetry. apply find_sub_none. intros a b X. destruct H as [_ H]. specialize (H a (b ++ [10])). rewrite <- E, X, <- !app_assoc in H. specialize (H eq_refl).
      apply (f_equal llen) in X. rewrite !llen_app in X. change (llen [13; 10; 13]) with 3 in X. change (llen BLANK_LINE) with 4 in X. lia. }
  unfold run_session. cbn [fold_left]. unfold read_chunk at 1 3 5. cbn [open negb buffer delivered app]. change (MAX_BUFFER_SIZE <=? llen (@nil N)) with false. cbv iota. rewrite D, B. split; [reflexivity|]. split; reflexivity.
Qed.
Print Assumptions C58_boundary_refuted.

(** ** C102: memory *)
(** Whatever a peer sends and however it is cut, what an open connection keeps between
    reads is less than one maximal message. *)
Theorem C102_bounded : forall cs, open (run_session cs) = true -> llen (buffer (run_session cs)) < 65536 + 4 + 10485760.
Proof. intros cs H. apply run_open, framed_waiting, waiting_bound in H. lia. Qed.
Print Assumptions C102_bounded.
(** So a connection is closed only because of what was sent: the size limit of the buffer
    itself never decides. *)
Theorem C102_closed : forall cs c, open (run_session cs) = true ->
  (open (run_session (cs ++ [c])) = false <-> forall fs r, ~ framed_stream (concat (cs ++ [c])) fs r).
Proof.
  intros cs c H. pose proof (run_ok (cs ++ [c])) as K. unfold state_ok in K. split.
  - intros O fs r F. rewrite run_snoc in O. unfold read_chunk in O. rewrite H in O. cbn [negb] in O. pose proof (C102_bounded cs H) as B. unfold MAX_BUFFER_SIZE in O.
    replace (16777216 <=? llen (buffer (run_session cs))) with false in O by lia. apply run_open, drain_spec in H. apply drain_spec in F. rewrite concat_snoc, (drain_app _ _ _ c H) in F.
    destruct (drain_sip_frames (buffer (run_session cs) ++ c)) as [[gs t]|]; discriminate.
  - intros F. destruct (open (run_session (cs ++ [c]))); [|reflexivity]. apply drain_spec in K. elim (F _ _ K).
Qed.
Print Assumptions C102_closed.
Example C102_example : open (run_session [msg1 ++ lit "C"]) = true /\ open (run_session [lit "B" ++ [13; 10; 13; 10]]) = false.
Proof. split; vm_compute; reflexivity. Qed.

(** ** C103: what the library sends, the library frames *)
Lemma api_uri_first : forall u, api_uri u -> exists c r, uri_text u = c :: r /\ is_alpha c = true.
Proof.
  assert (PU : forall t s, parse_uri t = Some s -> exists c r, u_raw s = c :: r /\ is_alpha c = true).
  { intros t s P. pose proof (parse_uri_inv t s P) as (_ & Y & _). rewrite Y. unfold parse_uri in P. destruct (existsb is_control t); [discriminate|]. destruct (_ <? _); [discriminate|].
    destruct (split_once 58 t) as [[sch rest]|] eqn:S; [|discriminate]. cbv zeta in P. apply split_once_some in S. destruct S as [-> _].
    assert (Q : exists x, lower sch = 115 :: x).
    { destruct (eq_ic sch (lit "sips")) eqn:A; [apply eq_ic_spec in A; rewrite A; eexists; reflexivity|]. destruct (eq_ic sch (lit "sip")) eqn:B; [apply eq_ic_spec in B; rewrite B; eexists; reflexivity|discriminate]. }
    destruct Q as (x & Q). destruct sch as [|c sch]; [discriminate|]. exists c, (sch ++ 58 :: rest). split; [reflexivity|]. cbn [lower map] in Q. injection Q as Q _.
    unfold lower_c in Q. unfold is_alpha, is_upper, is_lower, in_range in *. destruct ((65 <=? c) && (c <=? 90)) eqn:U; lia. }
  intros u [(st & ops & s & B & ->)|(t & a & P & ->)].
  - unfold uri_build in B. destruct (uri_begin st) as [u0|] eqn:E0; [|discriminate]. cbn [uri_text].
    assert (A0 : exists c r, u_raw u0 = c :: r /\ is_alpha c = true).
    { destruct st as [h|t]; cbn [uri_begin] in E0; [|now apply PU in E0]. unfold uri_new in E0. destruct (validate_host h); [|discriminate]. injection E0 as <-. exists 115. eexists. split; reflexivity. }
    clear E0. revert u0 A0 B. induction ops as [|o ops IH]; intros u0 A0 B; cbn [fold_opt] in B; [injection B as <-; exact A0|].
    destruct (uri_step u0 o) as [u1|] eqn:E; [|discriminate]. apply (IH u1); [|exact B]. assert (RB : forall v, exists c r, u_raw (rebuild v) = c :: r /\ is_alpha c = true).
    { intros v. unfold rebuild, build_raw. cbn [u_raw]. destruct (u_sips v); exists 115; eexists; split; reflexivity. }
    destruct o; cbn [uri_step] in E.
    + destruct (validate_host _); [|discriminate]. injection E as <-. apply RB.
    + injection E as <-. apply RB.
    + destruct (validate_user _); [|discriminate]. injection E as <-. apply RB.
    + destruct (validate_port _); [|discriminate]. injection E as <-. apply RB.
    + destruct (u_headers u0); injection E as <-; [exact A0|apply RB].
    + destruct (_ <=? _); [discriminate|]. destruct (negb _); [discriminate|]. destruct (match v with Some _ => _ | None => _ end); [discriminate|]. injection E as <-. apply RB.
  - unfold parse_any in P. destruct (existsb is_control t); [discriminate|]. destruct (starts_with (lit "tel:") t) eqn:ST.
    + destruct (tel_parse t) as [v|] eqn:Q; [|discriminate]. injection P as <-. cbn [uri_text]. unfold tel_parse in Q. destruct (strip_prefix (lit "tel:") t) as [rest|] eqn:SP; [|discriminate].
      apply strip_prefix_some in SP. destruct (negb _); [discriminate|]. destruct (fold_opt _ _ _) as [[? ?]|]; [|discriminate]. destruct (_ && _); [discriminate|]. destruct (_ && _); [discriminate|]. injection Q as <-.
      cbn [t_raw]. rewrite SP. exists 116. eexists. split; reflexivity.
    + destruct (_ || _).
      * destruct (parse_uri t) as [v|] eqn:Q; [|discriminate]. injection P as <-. cbn [uri_text]. now apply PU in Q.
      * destruct (parse_absolute t) as [v|] eqn:Q; [|discriminate]. injection P as <-. cbn [uri_text]. unfold parse_absolute in Q. destruct (_ <? _); [discriminate|]. cbv zeta in Q.
        destruct (trim t) as [|d r]; [discriminate|]. destruct (is_alpha d) eqn:AD; [|discriminate]. cbn [negb] in Q. destruct (split_once 58 r) as [[sch rest]|]; [|discriminate].
        destruct (negb _); [discriminate|]. destruct rest as [|r0 rest]; [discriminate|]. destruct (existsb is_control (r0 :: rest)); [discriminate|]. injection Q as <-. eauto.
Qed.

(** a line whose first word ends before its first colon is no Content-Length line *)
Lemma two_words : forall m name p x q, padded m name -> (forall c, In c m -> ~ space c) -> name = p ++ 32 :: x :: q -> (exists c, In c p /\ ~ space c) -> ~ space x -> False.
Proof.
  intros m name p x q (a & b & E & A & B) Hm En (c & Hc & Nc) Nx. rewrite E in En. destruct (app_eq_app a (m ++ b) p (32 :: x :: q) En) as (l & [[X Y]|[X Y]]).
  - apply Nc, A. rewrite X. apply in_or_app. now left.
  - destruct (app_eq_app m b l (32 :: x :: q) Y) as (l' & [[Z W]|[Z W]]).
    + destruct l' as [|d l']; cbn [app] in W.
      * apply Nx, B. rewrite <- W. right. now left.
      * injection W as <- W. apply (Hm 32); [rewrite Z; apply in_or_app; right; now left|]. unfold space. tauto.
    + apply Nx, B. rewrite W. apply in_or_app. right. right. now left.
Qed.
Lemma name_no_space : forall n, lower n = lit "content-length" \/ lower n = lit "l" -> forall c, In c n -> ~ space c.
Proof.
  intros n H c Hc. assert (I : In (lower_c c) (lower n)) by (apply in_map; exact Hc). assert (G : forallb (fun c => negb (ascii_ws c)) (lower n) = true) by (destruct H as [-> | ->]; vm_compute; reflexivity).
  rewrite forallb_forall in G. apply G in I. intros S. apply space_bool in S. unfold lower_c, is_upper, in_range, ascii_ws in *. destruct ((65 <=? c) && (c <=? 90)) eqn:U; lia.
Qed.
Lemma parts_name : forall line name value n v, line_parts line name value -> ~ In 58 n -> (line = n ++ 58 :: v \/ line = n ++ 58 :: v ++ [13]) -> name = n /\ (value = v \/ value = v ++ [13] \/ v = value ++ [13]).
Proof.
  intros line name value n v [LP NC] Nn L. apply mem_false in NC. apply mem_false in Nn.
  assert (X : exists w, line = name ++ 58 :: w /\ (w = value \/ w = value ++ [13])) by (destruct LP as [-> | ->]; eexists; split; [reflexivity|auto|reflexivity|auto]).
  assert (Y : exists w, line = n ++ 58 :: w /\ (w = v \/ w = v ++ [13])) by (destruct L as [-> | ->]; eexists; split; [reflexivity|auto|reflexivity|auto]).
  destruct X as (w1 & E1 & W1), Y as (w2 & E2 & W2). pose proof (split_once_app 58 name w1 NC) as S1. pose proof (split_once_app 58 n w2 Nn) as S2. rewrite <- E1 in S1. rewrite <- E2 in S2. rewrite S1 in S2. injection S2 as -> ->.
  split; [reflexivity|]. destruct W1 as [-> | ->], W2 as [W2|W2]; subst; auto. apply app_inj_tail in W2. destruct W2 as [-> _]. auto.
Qed.
Lemma start_no_length : forall line M c rest v, (line = M ++ 32 :: c :: rest \/ line = M ++ 32 :: c :: rest ++ [13]) -> M <> [] -> (forall x, In x M -> ~ space x /\ x <> 58) -> ~ space c -> c <> 58 -> ~ length_line line v.
Proof.
  intros line M c rest v L NM HM Nc C58 (name & n & [LP NC] & P & Q).
  assert (X : exists w, line = name ++ 58 :: w) by (destruct LP as [-> | ->]; eexists; reflexivity). destruct X as (w & X).
  assert (Y : exists z, line = M ++ 32 :: c :: z) by (destruct L as [-> | ->]; eexists; reflexivity). destruct Y as (z & Y). rewrite X in Y.
  assert (Z : exists q, name = M ++ 32 :: c :: q).
  { change (M ++ 32 :: c :: z) with (M ++ [32; c] ++ z) in Y. rewrite app_assoc in Y. destruct (app_eq_app _ _ _ _ Y) as (l & [[A _]|[A B]]).
    - exists l. rewrite A, <- app_assoc. reflexivity.
    - destruct l as [|d l]; [exists []; rewrite app_nil_r in A; now rewrite <- A|]. cbn [app] in B. injection B as <- _. exfalso.
      assert (I : In 58 (M ++ [32; c])) by (rewrite A; apply in_or_app; right; now left). apply in_app_or in I. destruct I as [I|[I|[I|[]]]]; [now apply HM in I|discriminate|congruence]. }
  destruct Z as (q & Z). apply (two_words n name M c q P (name_no_space n Q) Z); [|exact Nc]. destruct M as [|x M]; [now elim NM|]. exists x. split; [now left|]. apply (HM x). now left.
Qed.
Lemma header_no_length : forall line n v w, (line = n ++ 58 :: v \/ line = n ++ 58 :: v ++ [13]) -> (forall x, In x n -> ~ space x /\ x <> 58) -> length_line line w ->
  (lower n = lit "content-length" \/ lower n = lit "l") /\ (w = v \/ w = v ++ [13] \/ v = w ++ [13]).
Proof.
  intros line n v w L Hn (name & m & LP & P & Q). destruct (parts_name line name w n v LP) as [-> V]; [intros X; now apply Hn in X|exact L|]. split; [|exact V].
  destruct P as (a & b & E & A & B). assert (a = []) by (destruct a as [|x a]; [reflexivity|]; exfalso; destruct (Hn x) as [X _]; [rewrite E; now left|]; apply X, A; now left).
  assert (b = []). { destruct b as [|x b]; [reflexivity|]; exfalso; destruct (Hn x) as [X _]; [rewrite E; apply in_or_app; right; apply in_or_app; right; now left|]; apply X, B; now left. }
  subst a b. rewrite app_nil_r in E. cbn [app] in E. now subst m.
Qed.
Lemma split_join_lines : forall ls, (forall x, In x ls -> ~ In 10 x) -> forall l, In l (split_on 10 (join CRLF ls)) -> (ls = [] /\ l = []) \/ exists x, In x ls /\ (l = x \/ l = x ++ [13]).
Proof.
  induction ls as [|x ls IH]; intros F l Hl; [cbn in Hl; destruct Hl as [<-|[]]; auto|]. right. destruct ls as [|y ls].
  - cbn [join] in Hl. rewrite split_on_nomem in Hl by (apply mem_false, F; now left). destruct Hl as [<-|[]]. exists x. split; [now left|auto].
  - change (join CRLF (x :: y :: ls)) with (x ++ [13] ++ 10 :: join CRLF (y :: ls)) in Hl. rewrite app_assoc in Hl. rewrite split_on_app in Hl.
    + destruct Hl as [<-|Hl]; [exists x; split; [now left|auto]|]. destruct (IH (fun z Hz => F z (or_intror Hz)) l Hl) as [[? _]|(z & Hz & E)]; [discriminate|]. exists z. split; [now right|exact E].
    + apply mem_false. intros X. apply in_app_or in X. destruct X as [X|[X|[]]]; [|discriminate]. now apply (F x (or_introl eq_refl)).
Qed.
Lemma split_join_last : forall ls x, (forall y, In y (ls ++ [x]) -> ~ In 10 y) -> In x (split_on 10 (join CRLF (ls ++ [x]))).
Proof.
  induction ls as [|y ls IH]; intros x F.
  - cbn [app join]. rewrite split_on_nomem by (apply mem_false, F; now left). now left.
  - cbn [app]. destruct (ls ++ [x]) as [|z r] eqn:E; [destruct ls; discriminate|]. change (join CRLF (y :: z :: r)) with (y ++ [13] ++ 10 :: join CRLF (z :: r)). rewrite app_assoc, split_on_app.
    + right. rewrite <- E. apply IH. intros u Hu. apply F. right. exact Hu.
    + apply mem_false. intros X. apply in_app_or in X. destruct X as [X|[X|[]]]; [|discriminate]. apply (F y); [now left|exact X].
Qed.
(** the lines of a header block, as bytes *)
Lemma laid_message : forall M c rest front body,
  M <> [] -> (forall x, In x M -> ~ space x /\ x <> 58) -> ~ space c -> c <> 58 ->
  (forall l, In l ((M ++ 32 :: c :: rest) :: front) -> l <> [] /\ ~ In 13 l /\ ~ In 10 l) ->
  (forall l, In l front -> exists n v, l = n ++ 58 :: v /\ (forall x, In x n -> ~ space x /\ x <> 58) /\ lower n <> lit "content-length" /\ lower n <> lit "l") ->
  let head := join CRLF (((M ++ 32 :: c :: rest) :: front) ++ [lit "Content-Length: " ++ print_N (llen body)]) in
  llen head <= 65536 -> llen body <= 10485760 -> message (head ++ BLANK_LINE ++ body).
Proof.
  intros M c rest front body NM HM Nc C58 HL HF head Lh Lb. set (L0 := M ++ 32 :: c :: rest) in *. set (CLl := lit "Content-Length: " ++ print_N (llen body)) in *.
  assert (HC : CLl <> [] /\ ~ In 13 CLl /\ ~ In 10 CLl).
  { assert (X : forall x, x = 13 \/ x = 10 -> ~ In x CLl).
    { intros x E H. unfold CLl in H. apply in_app_or in H. destruct H as [H|H]; [cbn in H; destruct E; subst x; repeat (destruct H as [H|H]; [discriminate|]); destruct H|apply print_N_digits in H; lia]. }
    split; [discriminate|]. split; apply X; auto. }
  assert (HA : forall l, In l ((L0 :: front) ++ [CLl]) -> l <> [] /\ ~ In 13 l /\ ~ In 10 l) by (intros l Hl; apply in_app_or in Hl; destruct Hl as [Hl|[<-|[]]]; auto).
  assert (Hh : head_of (head ++ BLANK_LINE ++ body) head body).
  { apply find_head. unfold head, BLANK_LINE. apply find_end; [discriminate|]. apply Forall_forall. intros l Hl. destruct (HA l Hl) as (A & B & _). split; assumption. }
  destruct M as [|x M]; [now elim NM|]. destruct (HM x (or_introl eq_refl)) as [Nx _].
  assert (S : exists t, head = x :: t).
  { unfold head. cbn [app]. destruct (front ++ [CLl]) as [|z r] eqn:E; [destruct front; discriminate|]. eexists. unfold L0. cbn [join app]. reflexivity. }
  destruct S as (t & S). split; [exists x, (t ++ BLANK_LINE ++ body); split; [rewrite S; reflexivity|unfold space in Nx; split; intros ->; tauto]|].
  exists head, body. split; [exact Hh|]. split; [exact Lh|]. split; [|exact Lb]. split.
  - exists CLl, (32 :: print_N (llen body)). split; [apply split_join_last; intros y Hy; now apply HA in Hy|]. exists (lit "Content-Length"), (lit "Content-Length"). split; [|split; [|left; reflexivity]].
    + split; [left; reflexivity|]. vm_compute. intuition discriminate.
    + exists [], []. split; [reflexivity|]. split; intros ? [].
  - intros l v Hl LL. destruct (split_join_lines ((L0 :: front) ++ [CLl]) (fun y Hy => proj2 (proj2 (HA y Hy))) l Hl) as [[X _]|(y & Hy & El)]; [discriminate|].
    apply in_app_or in Hy. destruct Hy as [[<-|Hy]|[<-|[]]].
    + exfalso. refine (start_no_length l (x :: M) c rest v _ NM HM Nc C58 LL). unfold L0 in El. destruct El as [El|El]; [now left|right]. rewrite El, <- app_assoc. reflexivity.
    + exfalso. destruct (HF y Hy) as (n & w & -> & Hn & N1 & N2). destruct (header_no_length l n w v) as [[X|X] _]; [|exact Hn|exact LL|contradiction|contradiction].
      destruct El as [El|El]; [now left|right]. rewrite El, <- app_assoc. reflexivity.
    + destruct (header_no_length l (lit "Content-Length") (32 :: print_N (llen body)) v) as [_ V]; [destruct El as [El|El]; [left; exact El|right; rewrite El; reflexivity]| |exact LL|].
      * intros y Hy. assert (Y : negb (ascii_ws y) && negb (y =? 58) = true) by (revert y Hy; apply forallb_forall; vm_compute; reflexivity). apply andb_true_iff in Y. destruct Y as [Y1 Y2]. split; [intros Z; apply space_bool in Z; rewrite Z in Y1; discriminate|lia].
      * pose proof (print_N_spec (llen body)) as (D1 & D2 & D3). exists (print_N (llen body)). split; [|split; [exact D3|split; [exact D2|exact D1]]].
        destruct V as [-> | [-> | V]].
        -- exists [32], []. split; [now rewrite app_nil_r|]. split; [intros z [<-|[]]; unfold space; tauto|intros ? []].
        -- exists [32], [13]. split; [reflexivity|]. split; intros z [<-|[]]; unfold space; tauto.
        -- exfalso. assert (X : In 13 (32 :: print_N (llen body))) by (rewrite V; apply in_or_app; right; now left). destruct X as [X|X]; [discriminate|]. apply print_N_digits in X. lia.
Qed.

Definition name_byte (x : N) : bool := negb (ascii_ws x) && negb (x =? 58) && (x <? 128).
Lemma name_byte_token : forall x, header_name_char x = true -> name_byte x = true.
Proof. intros x H. apply name_char_facts in H. destruct H as (A & B & C & D & E). unfold name_byte, ascii_ws, is_ws, in_range in *. lia. Qed.
Lemma name_byte_lower : forall x, name_byte (lower_c x) = name_byte x.
Proof. intros x. unfold name_byte, lower_c, is_upper, in_range, ascii_ws. destruct ((65 <=? x) && (x <=? 90)) eqn:U; lia. Qed.
Lemma name_byte_forall : forall n, forallb name_byte (lower n) = forallb name_byte n.
Proof. induction n as [|x n IH]; [reflexivity|]. cbn [lower map forallb]. rewrite name_byte_lower. f_equal. exact IH. Qed.
Lemma name_byte_prop : forall x, name_byte x = true -> (~ space x /\ x <> 58) /\ is_ascii x = true.
Proof. intros x H. rewrite space_bool. unfold name_byte, is_ascii in *. destruct (ascii_ws x); split; try split; try lia; discriminate. Qed.
Lemma line_no_crlf : forall l, (l <> [] /\ ~ In 13 l /\ ~ In 10 l) -> utf8 l <> [] /\ ~ In 13 (utf8 l) /\ ~ In 10 (utf8 l).
Proof.
  intros l (A & B & C). split; [|split].
  - destruct l as [|x l]; [now elim A|]. unfold utf8. cbn [flat_map]. unfold utf8_c. destruct (x <? 128); [discriminate|]. destruct (x <? 2048); [discriminate|]. destruct (x <? 65536); discriminate.
  - apply mem_false. rewrite utf8_mem by lia. now apply mem_false.
  - apply mem_false. rewrite utf8_mem by lia. now apply mem_false.
Qed.
Lemma laid_out_message : forall bytes M c rest hs front extra body,
  laid_out bytes (M ++ 32 :: c :: rest) (front ++ extra ++ [lit "Content-Length: " ++ print_N (llen body)]) body ->
  good_headers hs -> Forall2 line_for (filter (fun h => negb (length_header h)) hs) front -> (extra = [] \/ extra = [lit "Max-Forwards: 70"]) ->
  M <> [] -> forallb name_byte M = true -> name_byte c = true -> llen body <= 10485760 -> early_head bytes -> message bytes.
Proof.
  intros bytes M c rest hs front extra body [E HL] [Hg _] F2 Hx NM HM Hc Lb Early.
  set (CLl := lit "Content-Length: " ++ print_N (llen body)) in *. set (L0 := M ++ 32 :: c :: rest) in *.
  assert (U0 : utf8 L0 = M ++ 32 :: c :: utf8 rest).
  { unfold L0. rewrite utf8_app. rewrite (utf8_ascii M). 2: { rewrite forallb_forall in *. intros x Hx0. now apply name_byte_prop, HM. }
    f_equal. unfold utf8. cbn [flat_map]. change (utf8_c 32) with [32]. cbn [app]. f_equal. apply name_byte_prop in Hc. destruct Hc as [_ Hc]. unfold is_ascii in Hc. unfold utf8_c. replace (c <? 128) with true by lia. reflexivity. }
  assert (UC : utf8 CLl = CLl).
  { apply utf8_ascii. unfold CLl. rewrite forallb_app. apply andb_true_iff. split; [reflexivity|]. apply forallb_forall. intros x Hx0. apply print_N_digits in Hx0. unfold is_ascii. lia. }
  set (head := join CRLF (((M ++ 32 :: c :: utf8 rest) :: map utf8 (front ++ extra)) ++ [CLl])).
  assert (EB : bytes = head ++ BLANK_LINE ++ body).
  { rewrite E. change (fun l : list N => l ++ [13; 10]) with ends. rewrite lines_join by discriminate. rewrite <- app_assoc, utf8_app, utf8_join. change (utf8 (CRLF ++ [13; 10])) with BLANK_LINE. rewrite <- app_assoc.
    f_equal. unfold head. f_equal. rewrite app_assoc. cbn [map]. rewrite map_app. cbn [map]. rewrite U0, UC. reflexivity. }
  assert (HL' : forall l, In l ((M ++ 32 :: c :: utf8 rest) :: map utf8 (front ++ extra)) -> l <> [] /\ ~ In 13 l /\ ~ In 10 l).
  { intros l [<-|Hl].
    - rewrite <- U0. apply line_no_crlf, HL. now left.
    - apply in_map_iff in Hl. destruct Hl as (y & <- & Hy). apply line_no_crlf, HL. right. rewrite app_assoc. apply in_or_app. now left. }
  assert (HF : forall l, In l (map utf8 (front ++ extra)) -> exists n v, l = n ++ 58 :: v /\ (forall x, In x n -> ~ space x /\ x <> 58) /\ lower n <> lit "content-length" /\ lower n <> lit "l").
  { intros l Hl. apply in_map_iff in Hl. destruct Hl as (y & <- & Hy). apply in_app_or in Hy. destruct Hy as [Hy|Hy].
    - assert (Q : exists h, In h (filter (fun h => negb (length_header h)) hs) /\ line_for h y).
      { clear - F2 Hy. induction F2 as [|h l hs' ls R F2 IH]; [destruct Hy|]. destruct Hy as [<-|Hy]; [exists h; split; [now left|exact R]|]. destruct (IH Hy) as (h' & A & B). exists h'. split; [now right|exact B]. }
      destruct Q as (h & Hh & n & Ln & Ey). apply filter_In in Hh. destruct Hh as [Hh NL]. rewrite Forall_forall in Hg. destruct (Hg h Hh) as (_ & _ & T & _).
      assert (Hn : forallb name_byte n = true).
      { rewrite <- name_byte_forall, Ln, name_byte_forall. apply forallb_forall. rewrite Forall_forall in T. intros x Hx0. apply name_byte_token, T, Hx0. }
      rewrite forallb_forall in Hn. exists n. assert (Un : utf8 n = n) by (apply utf8_ascii, forallb_forall; intros x Hx0; now apply name_byte_prop, Hn).
      assert (V : exists v, utf8 y = n ++ 58 :: v) by (destruct Ey as [-> | ->]; rewrite utf8_app, Un; eexists; reflexivity). destruct V as (v & V). exists v. split; [exact V|]. split; [intros x Hx0; now apply name_byte_prop, Hn|].
      unfold length_header in NL. apply negb_true_iff, orb_false_iff in NL. destruct NL as [N1 N2]. rewrite Ln. split; intros X.
      + assert (Y : eq_ic (fst h) (lit "Content-Length") = true) by (apply eq_ic_spec; exact X). rewrite Y in N1. discriminate.
      + assert (Y : eq_ic (fst h) (lit "l") = true) by (apply eq_ic_spec; exact X). rewrite Y in N2. discriminate.
    - destruct Hx as [-> | ->]; [destruct Hy|]. destruct Hy as [<-|[]]. exists (lit "Max-Forwards"), (lit " 70"). split; [reflexivity|]. split; [|split; vm_compute; discriminate].
      intros x Hx0. apply name_byte_prop. revert x Hx0. apply forallb_forall. vm_compute. reflexivity. }
  rewrite forallb_forall in HM. rewrite EB.
  apply (laid_message M c (utf8 rest) (map utf8 (front ++ extra)) body NM); [intros x Hx0; now apply name_byte_prop, HM|now apply name_byte_prop in Hc|now apply name_byte_prop in Hc|exact HL'|exact HF| |exact Lb].
  (* the length of the head *)
  rewrite EB in Early. assert (LL : llen head <= 65533 \/ 65533 < llen head) by lia. destruct LL as [LL|LL]; [fold CLl; fold head; lia|].
  assert (Hh : head_of (head ++ BLANK_LINE ++ body) head body).
  { apply find_head. unfold head, BLANK_LINE. apply find_end; [discriminate|]. apply Forall_forall. intros l Hl. apply in_app_or in Hl. destruct Hl as [Hl|[<-|[]]].
    - destruct (HL' l Hl) as (A & B & _). split; assumption.
    - destruct (HL CLl) as (A & B & _); [right; apply in_or_app; right; apply in_or_app; right; now left|]. split; assumption. }
  specialize (Early head body Hh). lia.
Qed.
(** a message the API can make and serialise *)
Definition api_message (b : list N) : Prop :=
  (exists q, api_method (q_method q) /\ api_uri (q_uri q) /\ good_headers (q_headers q) /\ llen (q_body q) <= 10485760 /\ b = serialize_request q)
  \/ (exists r, status_new (p_code r) (p_reason r) <> None /\ good_headers (p_headers r) /\ llen (p_body r) <= 10485760 /\ b = serialize_response r).
Lemma api_message_message : forall b, api_message b -> early_head b -> message b.
Proof.
  intros b [(q & A & B & C & D & ->)|(r & A & B & C & ->)] Early.
  - destruct (C51_request q A B C D) as (lines & front & L & F2 & ->). destruct A as (t & A). apply method_chars in A. destruct A as [N1 F1]. destruct (api_uri_first _ B) as (c & r & Eu & Ac).
    rewrite Eu in L. change (lit " " ++ (c :: r) ++ lit " SIP/2.0") with (32 :: c :: r ++ lit " SIP/2.0") in L.
    eapply laid_out_message; [exact L|exact C|exact F2| |exact N1| | |exact D|exact Early].
    + destruct (hcontains _ _); auto.
    + rewrite forallb_forall in *. intros x Hx. apply F1 in Hx. unfold method_char in Hx. apply orb_true_iff in Hx. destruct Hx as [Hx|Hx].
      * unfold name_byte, is_alnum, is_alpha, is_upper, is_lower, is_digit, in_range, ascii_ws in *. lia.
      * apply existsb_exists in Hx. destruct Hx as (y & Hy & E). apply N.eqb_eq in E. subst y. revert x Hy. apply forallb_forall. vm_compute. reflexivity.
    + unfold name_byte, is_alpha, is_upper, is_lower, in_range, ascii_ws in *. lia.
  - destruct (C51_response r A B) as (lines & front & L & F2 & ->). pose proof (print_N_spec (p_code r)) as (_ & AD & ND). destruct (print_N (p_code r)) as [|c d] eqn:EP; [now elim ND|].
    change (lit "SIP/2.0 " ++ (c :: d) ++ lit " " ++ p_reason r) with (lit "SIP/2.0" ++ 32 :: c :: d ++ lit " " ++ p_reason r) in L.
    change (front ++ [lit "Content-Length: " ++ print_N (llen (p_body r))]) with (front ++ [] ++ [lit "Content-Length: " ++ print_N (llen (p_body r))]) in L.
    eapply laid_out_message; [exact L|exact B|exact F2|now left|discriminate|vm_compute; reflexivity| |exact C|exact Early].
    unfold all_digits in AD. cbn [forallb] in AD. apply andb_true_iff in AD. destruct AD as [AD _]. unfold name_byte, is_digit, in_range, ascii_ws in *. lia.
Qed.
(** Any messages made with the API, sent one after the other on a stream with any CR LF
    keep-alives between them, reach the peer as exactly those messages, however the
    stream is cut into reads, provided their header blocks are at most 65533 bytes long. *)
Theorem C103_delivered : forall ms s, Forall api_message ms -> Forall early_head ms -> sent_stream ms s ->
  forall cs, concat cs = s -> run_session cs = mkSession ms [] true.
Proof.
  intros ms s A E H. apply C58_delivered; [|exact E|intros h r [X _]; symmetry in X; apply app_eq_nil in X; destruct X as [_ X]; discriminate].
  induction H as [k K|k m ms s K H IH].
  - pose proof (framed_rest k [] K (or_introl eq_refl)) as X. rewrite app_nil_r in X. exact X.
  - inversion A; subst. inversion E; subst. constructor; [exact K|now apply api_message_message|auto].
Qed.
Print Assumptions C103_delivered.
(** and each of them parses as the request or response that was sent *)
Theorem C103_request : forall q, api_method (q_method q) -> api_uri (q_uri q) -> good_headers (q_headers q) -> text_headers (q_headers q) -> plain_uri (q_uri q) -> llen (q_body q) <= 10485760 ->
  early_head (serialize_request q) -> forall cs q', concat cs = serialize_request q ->
  (exists b, delivered (run_session cs) = [b] /\ parse_request b = Some q') -> arrived_request q q'.
Proof.
  intros q A B C D E F G cs q' H (b & Hd & P).
  assert (R : run_session cs = mkSession [serialize_request q] [] true).
  { apply (C103_delivered [serialize_request q] (serialize_request q)); [constructor; [|constructor]; left; exists q; auto|constructor; [exact G|constructor]| |exact H].
    pose proof (sent_next [] (serialize_request q) [] [] (fun c (X : In c []) => match X with end) (sent_end [] (fun c (X : In c []) => match X with end))) as X. rewrite app_nil_r in X. exact X. }
  rewrite R in Hd. cbn [delivered] in Hd. injection Hd as <-. exact (proj1 (C49_faithful q q' A E C D (or_introl P))).
Qed.
Print Assumptions C103_request.
Example C103_example : api_message (serialize_request sample) /\ early_head (serialize_request sample)
  /\ sent_stream [serialize_request sample; serialize_request sample] ([13; 10; 13; 10] ++ serialize_request sample ++ [] ++ serialize_request sample ++ [13; 10]).
Proof.
  split; [|split].
  - left. exists sample. destruct C51_example as (A & B & C & D & _). auto.
  - intros h r [E _]. assert (L : llen (serialize_request sample) <= 65533) by (vm_compute; discriminate). rewrite E, !llen_app in L. lia.
  - constructor; [intros c Hc; cbn in Hc; intuition lia|]. constructor; [intros c []|]. constructor. intros c Hc. cbn in Hc. intuition lia.
Qed.

(** ** C60 *)
(** The policy answers a SIPS destination with a secure transport, never answers UDP
    above the MTU, and changes the requested transport only for these two reasons. *)
Theorem C60_secure : forall mtu t n, is_secure (choose mtu t n true) = true.
Proof. intros mtu t n. unfold choose. destruct t; reflexivity. Qed.
Print Assumptions C60_secure.
Theorem C60_mtu : forall mtu t n sips, choose mtu t n sips = TUdp -> n <= mtu.
Proof. intros mtu t n sips. unfold choose. destruct sips, t; cbn; try discriminate; destruct (mtu <? n) eqn:E; try discriminate; lia. Qed.
Print Assumptions C60_mtu.
Theorem C60_otherwise : forall mtu t n sips, (sips = true -> is_secure t = true) -> (t = TUdp -> n <= mtu) -> choose mtu t n sips = t.
Proof.
  intros mtu t n sips A B. unfold choose. destruct sips; [rewrite (A eq_refl)|]; cbn [andb negb]; destruct t; try reflexivity; specialize (B eq_refl); replace (mtu <? n) with false by lia; reflexivity.
Qed.
Print Assumptions C60_otherwise.
(** In the daemon a message for a secure transport leaves on that transport, stream or
    not; a message above the MTU leaves on TCP if the peer has a stream. *)
Theorem C60_daemon_secure : forall mtu t n stream, is_secure t = true -> dispatch_target mtu t n stream = t.
Proof. intros mtu t n stream H. destruct t; try discriminate; destruct stream; reflexivity. Qed.
Print Assumptions C60_daemon_secure.
Theorem C60_daemon_mtu_partial : forall mtu t n, dispatch_target mtu t n true = TUdp -> n <= mtu.
Proof.
  intros mtu t n H. unfold dispatch_target in H. destruct t; cbn in H; try discriminate. destruct (mtu <? n) eqn:E; [discriminate|]. lia.
Qed.
Print Assumptions C60_daemon_mtu_partial.
(** Without a stream the daemon goes back to UDP however large the message is, so there
    the MTU rule has no effect. *)
Theorem C60_daemon_refuted : forall mtu n, dispatch_target mtu TUdp n false = TUdp.
Proof. intros mtu n. unfold dispatch_target, choose. cbn. destruct (mtu <? n); reflexivity. Qed.
Print Assumptions C60_daemon_refuted.
Example C60_example : choose 1300 TUdp 1301 false = TTcp /\ choose 1300 TUdp 1300 false = TUdp /\ choose 1300 TWs 9 true = TTls /\ choose 1300 TWss 9 true = TWss.
Proof. repeat split. Qed.
