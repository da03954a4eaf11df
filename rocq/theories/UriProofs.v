(** Lemmas about SIP URIs: invariants of every URI a program can obtain, and
    the print/parse round trip. *)
From Coq Require Import Arith NArith Bool List Lia ZifyBool ZifyN ZifyNat.
Import ListNotations.
From Verif Require Import Base BaseFacts Text TextFacts Uri.
Open Scope N_scope.

(** ** Character classes *)
Lemma forallb_mem : forall p c s, p c = false -> forallb p s = true -> mem c s = false.
Proof.
  intros p c s Hp Hs. apply mem_false. intros Hi. rewrite forallb_forall in Hs. rewrite (Hs c Hi) in Hp. discriminate.
Qed.
Lemma forallb_impl : forall (p q : N -> bool) s, (forall c, p c = true -> q c = true) -> forallb p s = true -> forallb q s = true.
Proof. intros p q s H Hs. apply forallb_forall. intros c Hc. apply H. rewrite forallb_forall in Hs. auto. Qed.
Lemma existsb_false : forall (p : N -> bool) s, existsb p s = false <-> forallb (fun c => negb (p c)) s = true.
Proof.
  induction s as [|c s IH]; [tauto|]. cbn. destruct (p c); cbn; [split; discriminate|exact IH].
Qed.
Lemma no_edge_cons : forall p c v, p c = false -> no_edge p v -> no_edge p (c :: v).
Proof.
  intros p c v Hc [_ H]. split; [exact Hc|]. cbn [rev]. destruct (rev v); [exact Hc|exact H].
Qed.
Lemma no_edge_app : forall p a b, a <> [] -> b <> [] -> no_edge p a -> no_edge p b -> no_edge p (a ++ b).
Proof.
  intros p a b Ha Hb [A _] [_ B]. split.
  - destruct a; [now elim Ha|exact A].
  - rewrite rev_app_distr. destruct (rev b) eqn:E; [|exact B]. elim Hb. rewrite <- (rev_involutive b), E. reflexivity.
Qed.
Lemma no_ws_edge : forall s, forallb (fun c => negb (is_ws c)) s = true -> no_edge is_ws s.
Proof. intros. now apply no_edge_all. Qed.
Lemma alnum_ascii : forall c, is_alnum c = true -> in_range 48 57 c || in_range 65 90 c || in_range 97 122 c = true.
Proof. intros c. unfold is_alnum, is_alpha, is_upper, is_lower, is_digit. destruct (in_range 48 57 c), (in_range 65 90 c), (in_range 97 122 c); auto. Qed.

(** characters of an accepted host *)
Definition hostc (c : N) : bool := host_char c || (c =? 58).
Lemma addr_hostc : forall c, addr_char c = true -> hostc c = true.
Proof.
  intros c H. unfold addr_char in H. rewrite is_hex_bool in H. unfold hostc, host_char, is_alnum, is_alpha, is_upper, is_lower, is_digit.
  cbn [lit existsb map String.list_ascii_of_string].
  unfold is_digit in H. cbn. unfold in_range in *. lia.
Qed.
Lemma host_chars : forall h, validate_host h = true -> h <> [] /\ forallb hostc h = true.
Proof.
  intros h H. unfold validate_host in H. destruct h as [|c h]; [discriminate|]. split; [discriminate|].
  destruct (_ <? _); [discriminate|]. destruct (existsb is_control _); [discriminate|].
  destruct (mem 58 (c :: h)).
  - apply ipv6_ok_chars in H. revert H. apply forallb_impl. apply addr_hostc.
  - revert H. apply forallb_impl. intros x Hx. unfold hostc. now rewrite Hx.
Qed.
Lemma hostc_facts : forall c, hostc c = true ->
  is_ws c = false /\ is_control c = false /\ is_ascii c = true
  /\ c <> 37 /\ c <> 38 /\ c <> 59 /\ c <> 63 /\ c <> 64 /\ c <> 91 /\ c <> 93.
Proof.
  intros c H. unfold hostc, host_char, is_alnum, is_alpha, is_upper, is_lower, is_digit in H.
  cbn in H. unfold is_ws, is_control, is_ascii, in_range in *.
  assert (c < 128) by lia. lia.
Qed.
Definition tokc (c : N) : bool := uri_token_char c.
Lemma tokc_facts : forall c, uri_token_char c = true ->
  is_ws c = false /\ is_control c = false /\ is_ascii c = true
  /\ c <> 38 /\ c <> 59 /\ c <> 61 /\ c <> 63 /\ c <> 64 /\ c <> 91 /\ c <> 93.
Proof.
  intros c H. unfold uri_token_char, is_alnum, is_alpha, is_upper, is_lower, is_digit in H.
  cbn in H. unfold is_ws, is_control, is_ascii, in_range in *.
  assert (c < 128) by lia. lia.
Qed.
Lemma digit_facts : forall c, is_digit c = true ->
  is_ws c = false /\ is_control c = false /\ is_ascii c = true
  /\ c <> 37 /\ c <> 38 /\ c <> 58 /\ c <> 59 /\ c <> 61 /\ c <> 63 /\ c <> 64 /\ c <> 91 /\ c <> 93.
Proof. intros c H. unfold is_digit, is_ws, is_control, is_ascii, in_range in *. lia. Qed.

Lemma param_name_chars : forall n, validate_param_name n = true -> n <> [] /\ forallb uri_token_char n = true.
Proof.
  intros n H. unfold validate_param_name in H. destruct n as [|c n]; [discriminate|]. split; [discriminate|].
  destruct (_ <? _); [discriminate|]. apply negb_true_iff in H. apply existsb_false in H.
  revert H. apply forallb_impl. intros x. destruct (uri_token_char x); [reflexivity|]. now rewrite orb_true_r.
Qed.
Lemma uri_header_name_chars : forall n, validate_uri_header_name n = true -> n <> [] /\ forallb uri_token_char n = true.
Proof.
  intros n H. unfold validate_uri_header_name in H. destruct n as [|c n]; [discriminate|]. split; [discriminate|].
  destruct (_ <? _); [discriminate|]. apply negb_true_iff in H. apply existsb_false in H.
  revert H. apply forallb_impl. intros x. destruct (uri_token_char x); [reflexivity|]. now rewrite orb_true_r.
Qed.

(** ** Lower-casing names and hosts *)
Lemma blen_lower : forall s, blen (lower s) = blen s.
Proof.
  induction s as [|c s IH]; [reflexivity|]. cbn [lower map blen]. fold (lower s). rewrite IH. f_equal.
  unfold len_utf8, lower_c, is_upper, in_range. destruct ((65 <=? c) && (c <=? 90)) eqn:E; [|reflexivity].
  replace (c + 32 <? 128) with true by lia. replace (c <? 128) with true by lia. reflexivity.
Qed.
Lemma existsb_lower : forall p s, (forall c, p (lower_c c) = p c) -> existsb p (lower s) = existsb p s.
Proof. intros p s H. induction s as [|c s IH]; [reflexivity|]. cbn. rewrite H. fold (lower s). now rewrite IH. Qed.
Lemma forallb_lower : forall p s, (forall c, p (lower_c c) = p c) -> forallb p (lower s) = forallb p s.
Proof. intros p s H. induction s as [|c s IH]; [reflexivity|]. cbn. rewrite H. fold (lower s). now rewrite IH. Qed.
Lemma lower_c_cases : forall c, lower_c c = c \/ 65 <= c <= 90 /\ lower_c c = c + 32.
Proof. intros c. unfold lower_c, is_upper, in_range. destruct ((65 <=? c) && (c <=? 90)) eqn:E; [right|left]; [split; lia|reflexivity]. Qed.
Ltac lower_class := match goal with |- context [lower_c ?c] => let U := fresh in let E := fresh in destruct (lower_c_cases c) as [E|[U E]]; rewrite E; [reflexivity|] end.
Lemma is_control_lower : forall c, is_control (lower_c c) = is_control c.
Proof. intros. lower_class. unfold is_control, in_range. lia. Qed.
Lemma is_ws_lower : forall c, is_ws (lower_c c) = is_ws c.
Proof. intros. lower_class. unfold is_ws, in_range. lia. Qed.
Lemma uri_token_lower : forall c, uri_token_char (lower_c c) = uri_token_char c.
Proof. intros. lower_class. unfold uri_token_char, is_alnum, is_alpha, is_upper, is_lower, is_digit, in_range. cbn. lia. Qed.
Lemma host_char_lower : forall c, host_char (lower_c c) = host_char c.
Proof. intros. lower_class. unfold host_char, is_alnum, is_alpha, is_upper, is_lower, is_digit, in_range. cbn. lia. Qed.
Lemma colon_lower : forall c, (58 =? lower_c c) = (58 =? c).
Proof. intros. lower_class. lia. Qed.
Lemma mem_colon_lower : forall s, mem 58 (lower s) = mem 58 s.
Proof. intros. unfold mem. apply existsb_lower. apply colon_lower. Qed.
Lemma validate_host_lower : forall h, validate_host (lower h) = validate_host h.
Proof.
  intros h. unfold validate_host. destruct h as [|c h]; [reflexivity|].
  remember (c :: h) as x. replace (match lower x with [] => _ | _ => _ end) with
    (if MAX_HOST_LENGTH <? blen (lower x) then false else if existsb is_control (lower x) then false
     else if mem 58 (lower x) then ipv6_ok (lower x) else forallb host_char (lower x)) by (subst x; reflexivity).
  rewrite blen_lower, mem_colon_lower, ipv6_ok_lower, (existsb_lower _ _ is_control_lower), (forallb_lower _ _ host_char_lower).
  reflexivity.
Qed.
Lemma validate_param_name_lower : forall n, validate_param_name (lower n) = validate_param_name n.
Proof.
  intros n. unfold validate_param_name. destruct n as [|c n]; [reflexivity|].
  remember (c :: n) as x. replace (match lower x with [] => _ | _ => _ end) with
    (if MAX_PARAM_NAME_LENGTH <? blen (lower x) then false else
       negb (existsb (fun c => is_control c || is_ws c || negb (uri_token_char c)) (lower x))) by (subst x; reflexivity).
  rewrite blen_lower, existsb_lower; [reflexivity|]. intros. now rewrite is_control_lower, is_ws_lower, uri_token_lower.
Qed.
Lemma validate_uri_header_name_lower : forall n, validate_uri_header_name (lower n) = validate_uri_header_name n.
Proof. apply validate_param_name_lower. Qed.

(** ** The invariant *)
Definition good_param (kv : str * option str) : Prop :=
  validate_param_name (fst kv) = true /\ lower (fst kv) = fst kv
  /\ match snd kv with Some v => validate_param_value v = true | None => True end.
Definition good_header (kv : str * str) : Prop :=
  validate_uri_header_name (fst kv) = true /\ lower (fst kv) = fst kv
  /\ validate_uri_header_value (snd kv) = true /\ mem 38 (snd kv) = false.
Definition uri_inv (u : sip_uri) : Prop :=
  match u_user u with Some x => validate_user x = true | None => True end
  /\ validate_host (u_host u) = true
  /\ match u_port u with Some p => p <> 0 | None => True end
  /\ (sorted_keys (u_params u) /\ llen (u_params u) <= MAX_PARAMS /\ Forall good_param (u_params u))
  /\ (sorted_keys (u_headers u) /\ llen (u_headers u) <= MAX_URI_HEADERS /\ Forall good_header (u_headers u)).

Lemma Forall_bput : forall V (P : str * V -> Prop) k v m, P (k, v) -> Forall P m -> Forall P (bput k v m).
Proof.
  intros V P k v m Hp Hm. apply Forall_forall. intros e He. apply bput_in in He. destruct He as [->|He]; [assumption|].
  rewrite Forall_forall in Hm. auto.
Qed.

Definition plain_value (v : str) : Prop := mem 59 v = false /\ mem 63 v = false /\ no_edge is_ws v.
Definition plain_param (kv : str * option str) : Prop := match snd kv with Some v => plain_value v | None => True end.

Lemma add_param_inv : forall m p m', add_param m p = Some m' ->
  sorted_keys m -> Forall good_param m -> llen m <= MAX_PARAMS ->
  sorted_keys m' /\ llen m' <= MAX_PARAMS /\ Forall good_param m'
  /\ (mem 59 p = false -> mem 63 p = false -> Forall plain_param m -> Forall plain_param m').
Proof.
  intros m p m' H Hs Hf Hl. unfold add_param in H. destruct (MAX_PARAMS <=? llen m) eqn:L; [discriminate|].
  destruct (trim p) as [|c t] eqn:T; [injection H as <-; auto|]. rewrite <- T in H. clear c t T.
  destruct (split_once 61 (trim p)) as [[k v]|] eqn:E.
  - destruct (validate_param_name (trim k) && validate_param_value (trim v)) eqn:G; [|discriminate]. injection H as <-.
    apply andb_true_iff in G. destruct G as [G1 G2]. split; [now apply bput_sorted|]. split.
    { pose proof (bput_llen (lower (trim k)) (Some (trim v)) m). lia. }
    split.
    + apply Forall_bput; [|assumption]. split; [|split]; cbn [fst snd]; [now rewrite validate_param_name_lower|apply lower_idem|assumption].
    + intros M1 M2 Hp. apply Forall_bput; [|assumption]. cbn. apply split_once_some in E. destruct E as [E _].
      apply trim_mem in M1. apply trim_mem in M2. rewrite E, mem_app in M1, M2. apply orb_false_iff in M1, M2.
      destruct M1 as [_ M1], M2 as [_ M2]. apply mem_cons_false in M1, M2. split; [now apply trim_mem|]. split; [now apply trim_mem|].
      apply trim_by_no_edge.
  - destruct (validate_param_name (trim p)) eqn:G; [|discriminate]. injection H as <-. split; [now apply bput_sorted|]. split.
    { pose proof (bput_llen (lower (trim p)) None m). lia. }
    split.
    + apply Forall_bput; [|assumption]. split; [|split]; cbn [fst snd]; [now rewrite validate_param_name_lower|apply lower_idem|exact I].
    + intros _ _ Hp. apply Forall_bput; [exact I|assumption].
Qed.
Lemma add_params_inv : forall ps m m', fold_opt add_param ps m = Some m' ->
  sorted_keys m -> Forall good_param m -> llen m <= MAX_PARAMS ->
  sorted_keys m' /\ llen m' <= MAX_PARAMS /\ Forall good_param m'
  /\ (Forall (fun p => mem 59 p = false /\ mem 63 p = false) ps -> Forall plain_param m -> Forall plain_param m').
Proof.
  induction ps as [|p ps IH]; intros m m' H Hs Hf Hl; cbn [fold_opt] in H.
  - injection H as <-. auto.
  - destruct (add_param m p) as [m1|] eqn:E; [|discriminate].
    destruct (add_param_inv m p m1 E Hs Hf Hl) as (A & B & C & D).
    destruct (IH m1 m' H A C B) as (A' & B' & C' & D'). repeat (split; [assumption|]).
    intros Hps Hm. inversion Hps as [|? ? [? ?] ?]; subst. auto.
Qed.
Lemma add_uri_header_inv : forall m p m', add_uri_header m p = Some m' -> mem 38 p = false ->
  sorted_keys m -> Forall good_header m -> llen m <= MAX_URI_HEADERS ->
  sorted_keys m' /\ llen m' <= MAX_URI_HEADERS /\ Forall good_header m'.
Proof.
  intros m p m' H Hp Hs Hf Hl. unfold add_uri_header in H. destruct (MAX_URI_HEADERS <=? llen m) eqn:L; [discriminate|].
  destruct p as [|c t] eqn:T; [injection H as <-; auto|]. rewrite <- T in *. clear c t T.
  destruct (split_once 61 p) as [[k v]|] eqn:E; [|injection H as <-; auto].
  destruct (validate_uri_header_name (trim k) && validate_uri_header_value (trim v)) eqn:G; [|discriminate]. injection H as <-.
  apply andb_true_iff in G. destruct G as [G1 G2]. split; [now apply bput_sorted|]. split.
  { pose proof (bput_llen (lower (trim k)) (trim v) m). lia. }
  apply Forall_bput; [|assumption]. split; [|split; [|split]]; cbn [fst snd];
    [now rewrite validate_uri_header_name_lower|apply lower_idem|assumption|].
  apply split_once_some in E. destruct E as [E _]. rewrite E, mem_app in Hp. apply orb_false_iff in Hp. destruct Hp as [_ Hp].
  apply mem_cons_false in Hp. now apply trim_mem.
Qed.
Lemma add_uri_headers_inv : forall ps m m', fold_opt add_uri_header ps m = Some m' -> (forall p, In p ps -> mem 38 p = false) ->
  sorted_keys m -> Forall good_header m -> llen m <= MAX_URI_HEADERS ->
  sorted_keys m' /\ llen m' <= MAX_URI_HEADERS /\ Forall good_header m'.
Proof.
  induction ps as [|p ps IH]; intros m m' H Hp Hs Hf Hl; cbn [fold_opt] in H.
  - injection H as <-. auto.
  - destruct (add_uri_header m p) as [m1|] eqn:E; [|discriminate].
    destruct (add_uri_header_inv m p m1 E) as (A & B & C); try assumption; [apply Hp; now left|].
    apply (IH m1 m' H); try assumption. intros q Hq. apply Hp. now right.
Qed.

Lemma join_mem : forall c d l p, mem c (join [d] l) = false -> In p l -> mem c p = false.
Proof.
  induction l as [|x l IH]; intros p H Hi; [contradiction|]. destruct l as [|y l].
  - destruct Hi as [->|[]]. exact H.
  - change (join [d] (x :: y :: l)) with (x ++ [d] ++ join [d] (y :: l)) in H. rewrite !mem_app in H.
    apply orb_false_iff in H. destruct H as [H1 H2]. apply orb_false_iff in H2. destruct H2 as [_ H2].
    destruct Hi as [->|Hi]; [assumption|]. now apply IH.
Qed.
Lemma parse_uri_inv : forall s u, parse_uri s = Some u ->
  uri_inv u /\ u_raw u = s /\ lower (u_host u) = u_host u /\ Forall plain_param (u_params u).
Proof.
  intros s u H. unfold parse_uri in H.
  destruct (existsb is_control s); [discriminate|]. destruct (MAX_URI_LENGTH <? blen s); [discriminate|].
  destruct (split_once 58 s) as [[scheme rest]|] eqn:E1; [|discriminate].
  destruct (negb _ && negb _); [discriminate|].
  destruct (match split_once 63 rest with Some (a, h) => (a, Some h) | None => (rest, None) end) as [addr hpart] eqn:E2.
  assert (Ha : mem 63 addr = false).
  { destruct (split_once 63 rest) as [[a h]|] eqn:X; injection E2 as <- <-.
    - apply split_once_some in X. tauto.
    - now apply split_once_none in X. }
  destruct (fold_opt add_param (tl (split_on 59 addr)) []) as [params|] eqn:E3; [|discriminate].
  destruct (split_user _) as [[user hp]|] eqn:E4; [|discriminate].
  destruct hp as [|hc ht]; [discriminate|]. remember (hc :: ht) as hp eqn:Hhp. clear Hhp hc ht.
  destruct (split_host_port hp) as [[h port]|]; [|discriminate].
  destruct (pct_decode_str h) as [dh|]; [|discriminate].
  destruct (negb (validate_host (lower dh))) eqn:E5; [discriminate|]. apply negb_false_iff in E5.
  destruct (match port with Some p => _ | None => _ end) eqn:E6; [discriminate|].
  destruct (match hpart with Some h => _ | None => _ end) as [hdrs|] eqn:E7; [|discriminate].
  injection H as <-. cbn [u_raw u_host u_params].
  destruct (add_params_inv _ _ _ E3) as (A & B & C & D); [exact I|constructor|cbn; lia|].
  split; [|split; [reflexivity|split; [apply lower_idem|]]].
  - split; [|split; [|split; [|split]]]; cbn [u_user u_host u_port u_params u_headers].
    + unfold split_user in E4. destruct (split_once 64 _) as [[x y]|].
      * destruct (pct_decode_str _) as [d|]; [|discriminate]. destruct (validate_user d) eqn:V; [|discriminate]. injection E4 as <- _. exact V.
      * injection E4 as <- _. exact I.
    + exact E5.
    + destruct port; [|exact I]. apply negb_false_iff in E6. unfold validate_port in E6. lia.
    + repeat (split; [assumption|]). assumption.
    + destruct hpart as [hh|].
      * apply (add_uri_headers_inv _ _ _ E7); [|exact I|constructor|cbn; lia]. intros p Hp. now apply split_on_nomem_parts in Hp.
      * injection E7 as <-. split; [exact I|split; [cbn; lia|constructor]].
  - apply D; [|constructor]. apply Forall_forall. intros p Hp.
    assert (Hi : In p (split_on 59 addr)) by (destruct (split_on 59 addr); [contradiction|now right]).
    split; [now apply split_on_nomem_parts in Hi|].
    apply (join_mem 63 59 (split_on 59 addr)); [now rewrite join_split_on|assumption].
Qed.

Lemma uri_step_inv : forall u o u', uri_step u o = Some u' -> uri_inv u -> uri_inv u'.
Proof.
  intros u o u' H (Hu & Hh & Hp & (P1 & P2 & P3) & Hd).
  destruct o as [h| |n|p| |n v]; cbn [uri_step] in H.
  - destruct (validate_host h) eqn:V; [|discriminate]. injection H as <-. unfold rebuild, uri_inv; cbn. tauto.
  - injection H as <-. unfold rebuild, uri_inv; cbn. tauto.
  - destruct (validate_user n) eqn:V; [|discriminate]. injection H as <-. unfold rebuild, uri_inv; cbn. tauto.
  - destruct (validate_port p) eqn:V; [|discriminate]. injection H as <-. unfold rebuild, uri_inv; cbn.
    unfold validate_port in V. assert (p <> 0) by lia. tauto.
  - destruct (u_headers u) eqn:E; injection H as <-.
    + unfold uri_inv. rewrite E. tauto.
    + unfold rebuild, uri_inv; cbn. split; [tauto|]. split; [tauto|]. split; [tauto|]. split; [tauto|]. split; [exact I|]. split; [apply N.le_0_l|constructor].
  - destruct (MAX_PARAMS <=? llen (u_params u)) eqn:L; [discriminate|].
    destruct (validate_param_name n) eqn:V1; [|discriminate]. cbn [negb] in H.
    destruct (match v with Some v => _ | None => _ end) eqn:V2; [discriminate|]. injection H as <-.
    unfold rebuild, uri_inv; cbn [u_user u_host u_port u_params u_headers]. split; [assumption|]. split; [assumption|]. split; [assumption|].
    split; [|assumption]. split; [now apply bput_sorted|]. split.
    + pose proof (bput_llen (lower n) v (u_params u)). lia.
    + apply Forall_bput; [|assumption]. split; [|split]; cbn [fst snd]; [now rewrite validate_param_name_lower|apply lower_idem|].
      destruct v; [now apply negb_false_iff in V2|exact I].
Qed.

(** the text of a URI is the printed fields, or the text it was parsed from *)
Definition raw_ok (u : sip_uri) : Prop :=
  u_raw u = build_raw (u_sips u) (u_user u) (u_host u) (u_port u) (u_params u) (u_headers u)
  \/ parse_uri (u_raw u) = Some u.
Lemma uri_step_raw : forall u o u', uri_step u o = Some u' -> (o = UWithoutHeaders -> raw_ok u) -> raw_ok u'.
Proof.
  intros u o u' H Hr. destruct o as [h| |n|p| |n v]; cbn [uri_step] in H.
  - destruct (validate_host h) eqn:V; [|discriminate]. injection H as <-. now left.
  - injection H as <-. now left.
  - destruct (validate_user n) eqn:V; [|discriminate]. injection H as <-. now left.
  - destruct (validate_port p) eqn:V; [|discriminate]. injection H as <-. now left.
  - destruct (u_headers u) eqn:E; injection H as <-; [auto|now left].
  - destruct (MAX_PARAMS <=? llen (u_params u)) eqn:L; [discriminate|].
    destruct (validate_param_name n) eqn:V1; [|discriminate]. cbn [negb] in H.
    destruct (match v with Some v => _ | None => _ end) eqn:V2; [discriminate|]. injection H as <-. now left.
Qed.
Lemma fold_uri_inv : forall ops u u', fold_opt uri_step ops u = Some u' -> uri_inv u -> uri_inv u'.
Proof.
  induction ops as [|o ops IH]; intros u u' H Hi; cbn [fold_opt] in H; [now injection H as <-|].
  destruct (uri_step u o) as [u1|] eqn:E; [|discriminate]. apply (IH u1 u' H). now apply (uri_step_inv u o u1).
Qed.
Lemma fold_uri_raw : forall ops u u', fold_opt uri_step ops u = Some u' -> raw_ok u \/ (exists o, In o ops /\ o <> UWithoutHeaders) -> raw_ok u'.
Proof.
  induction ops as [|o ops IH]; intros u u' H Hr; cbn [fold_opt] in H.
  - injection H as <-. destruct Hr as [Hr|(o & [] & _)]. assumption.
  - destruct (uri_step u o) as [u1|] eqn:E; [|discriminate]. apply (IH u1 u' H).
    destruct Hr as [Hr|(o' & [<-|Hi] & Hn)].
    + left. now apply (uri_step_raw u o u1).
    + left. apply (uri_step_raw u o u1 E). congruence.
    + right. now exists o'.
Qed.
Lemma uri_new_inv : forall h u, uri_new h = Some u -> uri_inv u.
Proof.
  intros h u H. unfold uri_new in H. destruct (validate_host h) eqn:V; [|discriminate]. injection H as <-.
  unfold uri_inv; cbn. split; [exact I|]. split; [assumption|]. split; [exact I|].
  split; (split; [exact I|]; split; [apply N.le_0_l|constructor]).
Qed.
Lemma uri_new_raw : forall h u, uri_new h = Some u -> mem 58 h = false -> raw_ok u.
Proof.
  intros h u H Hm. unfold uri_new in H. destruct (validate_host h) eqn:V; [|discriminate]. injection H as <-.
  left. cbn [u_raw u_sips u_user u_host u_port u_params u_headers]. unfold build_raw, print_host. rewrite Hm. cbn [andb flat_map].
  now rewrite !app_nil_r.
Qed.

(** ** Printing then parsing *)
Lemma trim_edge : forall s, no_edge is_ws s -> trim s = s.
Proof. intros. now apply trim_by_id. Qed.
Lemma class_edge : forall (p : N -> bool) s, (forall c, p c = true -> is_ws c = false) -> forallb p s = true -> no_edge is_ws s.
Proof. intros p s H Hs. apply no_ws_edge. revert Hs. apply forallb_impl. intros c Hc. now rewrite (H c Hc). Qed.

Definition ptext (kv : str * option str) : str := fst kv ++ match snd kv with Some v => 61 :: v | None => [] end.
Lemma print_param_ptext : forall kv, print_param kv = 59 :: ptext kv.
Proof. reflexivity. Qed.
Lemma split_params : forall ps base, mem 59 base = false -> Forall (fun kv => mem 59 (ptext kv) = false) ps ->
  split_on 59 (base ++ flat_map print_param ps) = base :: map ptext ps.
Proof.
  induction ps as [|kv ps IH]; intros base Hb Hf.
  - cbn [flat_map]. rewrite app_nil_r. now apply split_on_nomem.
  - inversion Hf; subst. cbn [flat_map]. rewrite print_param_ptext. cbn [app]. rewrite split_on_app by assumption.
    cbn [map]. now rewrite IH.
Qed.
Lemma name_nomem : forall n c, validate_param_name n = true -> uri_token_char c = false -> mem c n = false.
Proof. intros n c H Hc. apply param_name_chars in H. destruct H as [_ H]. now apply (forallb_mem uri_token_char). Qed.
Lemma name_edge : forall n, validate_param_name n = true -> no_edge is_ws n.
Proof. intros n H. apply param_name_chars in H. destruct H as [_ H]. revert H. apply class_edge. intros c Hc. apply tokc_facts in Hc. tauto. Qed.
Lemma name_ne : forall n, validate_param_name n = true -> n <> [].
Proof. intros n H. apply param_name_chars in H. tauto. Qed.
Lemma ptext_nomem : forall kv c, good_param kv -> uri_token_char c = false -> c <> 61 ->
  match snd kv with Some v => mem c v = false | None => True end -> mem c (ptext kv) = false.
Proof.
  intros [k v] c (H & _ & _) Hc Hn Hv. unfold ptext. cbn [fst snd] in *. rewrite mem_app, (name_nomem k c H Hc). cbn [orb].
  destruct v; [|reflexivity]. apply mem_cons_false. split; [congruence|assumption].
Qed.
Lemma ptext_edge : forall kv, good_param kv -> plain_param kv -> no_edge is_ws (ptext kv).
Proof.
  intros [k v] (H & _ & _) Hp. unfold ptext, plain_param in *. cbn [fst snd] in *. destruct v as [v|].
  - destruct Hp as (_ & _ & Hp). apply no_edge_app; [now apply name_ne|discriminate|now apply name_edge|].
    apply no_edge_cons; [reflexivity|assumption].
  - rewrite app_nil_r. now apply name_edge.
Qed.
Lemma add_param_ptext : forall m kv, good_param kv -> plain_param kv -> llen m < MAX_PARAMS ->
  (forall k', In k' (keys m) -> str_ltb k' (fst kv) = true) -> add_param m (ptext kv) = Some (m ++ [kv]).
Proof.
  intros m [k v] G P L Hk. unfold add_param. replace (MAX_PARAMS <=? llen m) with false by lia.
  rewrite (trim_edge _ (ptext_edge _ G P)). destruct G as (G1 & G2 & G3). unfold ptext, plain_param in *. cbn [fst snd] in *.
  pose proof (name_ne k G1) as Hne. destruct v as [v|].
  - destruct P as (_ & _ & P). destruct k as [|c k]; [now elim Hne|]. cbn [app]. remember (c :: k) as kk.
    change (c :: k ++ 61 :: v) with ((c :: k) ++ 61 :: v). rewrite <- Heqkk.
    rewrite split_once_app by (apply name_nomem; [assumption|reflexivity]).
    rewrite (trim_edge kk) by now apply name_edge. rewrite (trim_edge v) by assumption. rewrite G1, G3. cbn [andb]. rewrite G2.
    now rewrite bput_last.
  - rewrite app_nil_r. destruct k as [|c k]; [now elim Hne|]. remember (c :: k) as kk.
    assert (X : split_once 61 kk = None) by (apply split_once_none; apply name_nomem; [assumption|reflexivity]).
    rewrite X, G1, G2. now rewrite bput_last.
Qed.
Lemma sorted_app : forall V (a b : list (str * V)), sorted_keys (a ++ b) -> sorted_keys b /\ (forall x y, In x (keys a) -> In y (keys b) -> str_ltb x y = true).
Proof.
  induction a as [|[k v] a IH]; intros b H; [cbn in H; split; [assumption|contradiction]|].
  cbn [app sorted_keys] in H. destruct H as [H1 H2]. destruct (IH b H2) as [A B]. split; [assumption|].
  intros x y [<-|Hx] Hy; [|now apply B]. apply H1. unfold keys. rewrite map_app. apply in_or_app. now right.
Qed.
Lemma fold_params : forall ps m, sorted_keys (m ++ ps) -> llen (m ++ ps) <= MAX_PARAMS -> Forall good_param ps -> Forall plain_param ps ->
  fold_opt add_param (map ptext ps) m = Some (m ++ ps).
Proof.
  induction ps as [|kv ps IH]; intros m S L G P; [now rewrite app_nil_r|].
  inversion G; inversion P; subst. cbn [map fold_opt]. rewrite add_param_ptext; try assumption.
  - rewrite IH; try assumption; rewrite <- app_assoc; [reflexivity|exact S|exact L].
  - rewrite llen_app, llen_cons in L. lia.
  - intros k' Hk. apply sorted_app in S. apply (proj2 S); [assumption|now left].
Qed.

Lemma print_uri_header_eq : forall kv, print_uri_header kv = fst kv ++ 61 :: snd kv.
Proof. reflexivity. Qed.
Lemma hvalue_edge : forall v, validate_uri_header_value v = true -> forallb (fun c => negb (is_control c || is_ws c)) v = true.
Proof.
  intros v H. unfold validate_uri_header_value in H. destruct (_ <? _); [discriminate|]. apply negb_true_iff in H. now apply existsb_false in H.
Qed.
Lemma add_header_text : forall m kv, good_header kv -> llen m < MAX_URI_HEADERS ->
  (forall k', In k' (keys m) -> str_ltb k' (fst kv) = true) -> add_uri_header m (print_uri_header kv) = Some (m ++ [kv]).
Proof.
  intros m [k v] (G1 & G2 & G3 & G4) L Hk. unfold add_uri_header. replace (MAX_URI_HEADERS <=? llen m) with false by lia.
  rewrite print_uri_header_eq. cbn [fst snd] in *. pose proof (name_ne k G1) as Hne.
  destruct k as [|c k]; [now elim Hne|]. cbn [app]. remember (c :: k) as kk.
  change (c :: k ++ 61 :: v) with ((c :: k) ++ 61 :: v). rewrite <- Heqkk.
  rewrite split_once_app by (apply name_nomem; [assumption|reflexivity]).
  rewrite (trim_edge kk) by now apply name_edge. rewrite (trim_edge v).
  - rewrite G1, G3. cbn [andb]. rewrite G2. now rewrite bput_last.
  - apply hvalue_edge in G3. apply no_ws_edge. revert G3. apply forallb_impl. intros x. destruct (is_ws x); [now rewrite orb_true_r|reflexivity].
Qed.
Lemma fold_headers : forall hs m, sorted_keys (m ++ hs) -> llen (m ++ hs) <= MAX_URI_HEADERS -> Forall good_header hs ->
  fold_opt add_uri_header (map print_uri_header hs) m = Some (m ++ hs).
Proof.
  induction hs as [|kv hs IH]; intros m S L G; [now rewrite app_nil_r|].
  inversion G; subst. cbn [map fold_opt]. rewrite add_header_text; try assumption.
  - rewrite IH; try assumption; rewrite <- app_assoc; [reflexivity|exact S|exact L].
  - rewrite llen_app, llen_cons in L. lia.
  - intros k' Hk. apply sorted_app in S. apply (proj2 S); [assumption|now left].
Qed.

(** ** host and port *)
Definition port_text (p : option N) : str := match p with Some p => 58 :: print_N p | None => [] end.
Lemma digits_nomem : forall n c, is_digit c = false -> mem c (print_N n) = false.
Proof.
  intros n c H. apply mem_false. intros Hi. apply print_N_digits in Hi. unfold is_digit, in_range in H. lia.
Qed.
Lemma host_nomem : forall h c, validate_host h = true -> hostc c = false -> mem c h = false.
Proof. intros h c H Hc. apply host_chars in H. now apply (forallb_mem hostc). Qed.
Lemma print_host_eq : forall h, validate_host h = true -> print_host h = if mem 58 h then 91 :: h ++ [93] else h.
Proof.
  intros h H. unfold print_host. destruct (mem 58 h) eqn:E; [|reflexivity]. cbn [andb].
  assert (A : starts_with (lit "[") h = false).
  { destruct (starts_with (lit "[") h) eqn:X; [|reflexivity]. apply starts_with_spec in X. destruct X as [r ->].
    pose proof (host_nomem _ 91 H eq_refl) as Y. apply mem_false in Y. elim Y. now left. }
  assert (B : ends_with (lit "]") h = false).
  { destruct (ends_with (lit "]") h) eqn:X; [|reflexivity]. unfold ends_with in X. apply starts_with_spec in X. destruct X as [r X].
    pose proof (host_nomem _ 93 H eq_refl) as Y. rewrite <- mem_rev, X in Y. apply mem_false in Y. elim Y. now left. }
  now rewrite A, B.
Qed.
Lemma split_host_port_print : forall h p, validate_host h = true -> match p with Some n => n <= u16_max | None => True end ->
  split_host_port (print_host h ++ port_text p) = Some (h, p).
Proof.
  intros h p H Hp. rewrite print_host_eq by assumption. destruct (mem 58 h) eqn:E.
  - cbn [app]. unfold split_host_port. cbn [N.eqb Pos.eqb]. rewrite <- app_assoc. cbn [app].
    rewrite split_once_app by now apply host_nomem. destruct p as [n|]; cbn [port_text]; [|reflexivity].
    cbn [N.eqb Pos.eqb]. now rewrite parse_uint_print.
  - destruct (host_chars h H) as [Hne Hc]. destruct h as [|c h]; [now elim Hne|]. unfold split_host_port. cbn [app].
    replace (c =? 91) with false.
    2:{ cbn [forallb] in Hc. apply andb_true_iff in Hc. destruct Hc as [Hc _]. apply hostc_facts in Hc. lia. }
    change (c :: h ++ port_text p) with ((c :: h) ++ port_text p). remember (c :: h) as hh. destruct p as [n|]; cbn [port_text].
    + rewrite rsplit_once_app by now apply digits_nomem.
      replace (1 <? count_c 58 (hh ++ 58 :: print_N n)) with false.
      2:{ unfold count_c. rewrite filter_app. cbn [filter N.eqb Pos.eqb].
          assert (F : forall s, mem 58 s = false -> filter (N.eqb 58) s = []).
          { induction s as [|x s IH]; intros F; [reflexivity|]. apply mem_cons_false in F. destruct F as [F1 F2]. cbn [filter].
            replace (58 =? x) with false by lia. auto. }
          rewrite (F hh E), (F (print_N n)) by now apply digits_nomem. reflexivity. }
      pose proof (parse_uint_print u16_max n Hp) as PP.
      destruct (print_N n) as [|d ds] eqn:D; [discriminate|]. rewrite <- D in *.
      replace (all_digits (print_N n)) with true; [now rewrite PP|].
      symmetry. apply forallb_forall. intros x Hx. apply print_N_digits in Hx. unfold is_digit, in_range. lia.
    + rewrite app_nil_r. assert (X : rsplit_once 58 hh = None) by now apply rsplit_once_none. now rewrite X.
Qed.

(** ** The whole URI *)
Definition user_text (u : option str) : str := match u with Some x => x ++ [64] | None => [] end.
Definition headers_text (hs : list (str * str)) : str :=
  match hs with [] => [] | _ => 63 :: join [38] (map print_uri_header hs) end.
Lemma build_raw_eq : forall sips user host port params hdrs,
  build_raw sips user host port params hdrs =
  (if sips then lit "sips" else lit "sip") ++ 58 :: ((user_text user ++ print_host host ++ port_text port) ++ flat_map print_param params) ++ headers_text hdrs.
Proof.
  intros. unfold build_raw. destruct sips; cbn [lit app map String.list_ascii_of_string Ascii.N_of_ascii Ascii.N_of_digits];
  rewrite <- ?app_assoc; destruct user; cbn [user_text app]; rewrite <- ?app_assoc; reflexivity.
Qed.
Definition plain_user (u : option str) : Prop :=
  match u with Some x => is_str x = true /\ mem 37 x = false /\ no_edge is_ws x | None => True end.
Lemma user_chars : forall u, validate_user u = true ->
  u <> [] /\ existsb is_control u = false /\ mem 59 u = false /\ mem 63 u = false /\ mem 64 u = false.
Proof.
  intros u H. unfold validate_user in H. destruct u as [|c u]; [discriminate|]. remember (c :: u) as x.
  split; [subst; discriminate|]. destruct (_ <? _); [discriminate|]. destruct (existsb is_control x); [discriminate|].
  apply negb_true_iff in H. apply existsb_false in H. split; [reflexivity|].
  repeat split; apply (forallb_mem _ _ _) with (2 := H); reflexivity.
Qed.
Lemma print_host_nomem : forall h c, validate_host h = true -> hostc c = false -> c <> 91 -> c <> 93 -> mem c (print_host h) = false.
Proof.
  intros h c H Hc H1 H2. rewrite print_host_eq by assumption. destruct (mem 58 h); [|now apply host_nomem].
  apply mem_cons_false. split; [congruence|]. rewrite mem_app, (host_nomem h c H Hc). apply mem_cons_false. split; [congruence|reflexivity].
Qed.
Lemma port_nomem : forall p c, c <> 58 -> is_digit c = false -> mem c (port_text p) = false.
Proof. intros [p|] c H Hc; [|reflexivity]. apply mem_cons_false. split; [congruence|now apply digits_nomem]. Qed.
Lemma port_edge : forall p, no_edge is_ws (port_text p).
Proof.
  intros [p|]; [|split; exact I]. apply no_edge_cons; [reflexivity|]. apply (class_edge is_digit); [intros c Hc; apply digit_facts in Hc; tauto|].
  apply forallb_forall. intros x Hx. apply print_N_digits in Hx. unfold is_digit, in_range. lia.
Qed.
Lemma print_host_edge : forall h, validate_host h = true -> print_host h <> [] /\ no_edge is_ws (print_host h).
Proof.
  intros h H. rewrite print_host_eq by assumption. destruct (host_chars h H) as [Hne Hc].
  assert (E : no_edge is_ws h) by (revert Hc; apply class_edge; intros c Hc; apply hostc_facts in Hc; tauto).
  destruct (mem 58 h); [|auto]. split; [discriminate|]. apply no_edge_cons; [reflexivity|].
  apply no_edge_app; [assumption|discriminate|assumption|]. split; reflexivity.
Qed.
Lemma host_port_edge : forall h p, validate_host h = true ->
  print_host h ++ port_text p <> [] /\ no_edge is_ws (print_host h ++ port_text p).
Proof.
  intros h p H. destruct (print_host_edge h H) as [A B]. split.
  - intros E. apply app_eq_nil in E. tauto.
  - destruct p as [p|]; [|now rewrite app_nil_r]. apply no_edge_app; [assumption|discriminate|assumption|apply port_edge].
Qed.
Lemma existsb_app_false : forall (p : N -> bool) a b, existsb p a = false -> existsb p b = false -> existsb p (a ++ b) = false.
Proof. intros p a b A B. now rewrite existsb_app, A, B. Qed.
Lemma class_control : forall (p : N -> bool) s, (forall c, p c = true -> is_control c = false) -> forallb p s = true -> existsb is_control s = false.
Proof. intros p s H Hs. apply existsb_false. revert Hs. apply forallb_impl. intros c Hc. now rewrite (H c Hc). Qed.
Lemma name_control : forall n, validate_param_name n = true -> existsb is_control n = false.
Proof. intros n H. apply param_name_chars in H. apply (class_control uri_token_char); [|tauto]. intros c Hc. apply tokc_facts in Hc. tauto. Qed.
Lemma param_value_control : forall v, validate_param_value v = true -> existsb is_control v = false.
Proof. intros v H. unfold validate_param_value in H. destruct (_ <? _); [discriminate|]. now apply negb_true_iff in H. Qed.
Lemma hvalue_control : forall v, validate_uri_header_value v = true -> existsb is_control v = false.
Proof. intros v H. apply hvalue_edge in H. apply existsb_false. revert H. apply forallb_impl. intros c. destruct (is_control c); [discriminate|reflexivity]. Qed.
Lemma raw_control : forall u, uri_inv u ->
  existsb is_control (build_raw (u_sips u) (u_user u) (u_host u) (u_port u) (u_params u) (u_headers u)) = false.
Proof.
  intros u (Hu & Hh & Hp & (_ & _ & P) & (_ & _ & D)). rewrite build_raw_eq.
  apply existsb_app_false; [destruct (u_sips u); reflexivity|]. cbn [existsb is_control N.ltb N.compare Pos.compare Pos.compare_cont orb].
  change (existsb is_control (58 :: ?x)) with (existsb is_control x).
  apply (existsb_app_false is_control [58]); [reflexivity|].
  apply existsb_app_false; [apply existsb_app_false; [apply existsb_app_false; [|apply existsb_app_false]|]|].
  - destruct (u_user u) as [x|]; [|reflexivity]. apply existsb_app_false; [|reflexivity]. apply user_chars in Hu. tauto.
  - rewrite print_host_eq by assumption. destruct (host_chars _ Hh) as [_ Hc].
    assert (E : existsb is_control (u_host u) = false) by (revert Hc; apply class_control; intros c Hc; apply hostc_facts in Hc; tauto).
    destruct (mem 58 (u_host u)); [|assumption]. apply (existsb_app_false is_control [91]); [reflexivity|]. now apply existsb_app_false.
  - destruct (u_port u) as [p|]; [|reflexivity]. apply (existsb_app_false is_control [58]); [reflexivity|].
    apply (class_control is_digit); [intros c Hc; apply digit_facts in Hc; tauto|].
    apply forallb_forall. intros x Hx. apply print_N_digits in Hx. unfold is_digit, in_range. lia.
  - induction P as [|[k v] ps (G1 & _ & G3) Hps IH]; [reflexivity|]. cbn [flat_map fst snd] in *. apply existsb_app_false; [|assumption].
    rewrite print_param_ptext. apply (existsb_app_false is_control [59]); [reflexivity|]. unfold ptext; cbn [fst snd].
    apply existsb_app_false; [now apply name_control|]. destruct v; [|reflexivity].
    apply (existsb_app_false is_control [61]); [reflexivity|now apply param_value_control].
  - unfold headers_text. destruct (u_headers u) as [|h0 hs]; [reflexivity|]. apply (existsb_app_false is_control [63]); [reflexivity|].
    revert D. generalize (h0 :: hs). clear. intros l D. induction D as [|[k v] l (G1 & _ & G3 & _) Hl IH]; [reflexivity|]. cbn [fst snd] in *.
    assert (E : existsb is_control (print_uri_header (k, v)) = false).
    { rewrite print_uri_header_eq. apply existsb_app_false; [now apply name_control|].
      apply (existsb_app_false is_control [61]); [reflexivity|now apply hvalue_control]. }
    destruct l as [|y l]; [exact E|]. cbn [map] in *.
    change (join [38] (?a :: ?b :: ?r)) with (a ++ [38] ++ join [38] (b :: r)).
    apply existsb_app_false; [exact E|]. apply existsb_app_false; [reflexivity|exact IH].
Qed.

Lemma print_parse : forall u, uri_inv u -> plain_user (u_user u) -> Forall plain_param (u_params u) ->
  match u_port u with Some p => p <= u16_max | None => True end ->
  let raw := build_raw (u_sips u) (u_user u) (u_host u) (u_port u) (u_params u) (u_headers u) in
  blen raw <= MAX_URI_LENGTH ->
  parse_uri raw = Some (mkUri raw (u_sips u) (u_user u) (lower (u_host u)) (u_port u) (u_params u) (u_headers u)).
Proof.
  intros u Hinv Hpu Hpp Hport raw Hlen. unfold parse_uri.
  replace (existsb is_control raw) with false by (symmetry; now apply raw_control).
  replace (MAX_URI_LENGTH <? blen raw) with false by lia.
  destruct Hinv as (Hu & Hh & Hp & (P1 & P2 & P3) & (D1 & D2 & D3)).
  assert (S : split_once 58 raw = Some (if u_sips u then lit "sips" else lit "sip",
     ((user_text (u_user u) ++ print_host (u_host u) ++ port_text (u_port u)) ++ flat_map print_param (u_params u)) ++ headers_text (u_headers u))).
  { unfold raw. rewrite build_raw_eq. apply split_once_app. destruct (u_sips u); reflexivity. }
  rewrite S. set (base := user_text (u_user u) ++ print_host (u_host u) ++ port_text (u_port u)).
  replace (negb (eq_ic (if u_sips u then lit "sips" else lit "sip") (lit "sips")) && negb (eq_ic (if u_sips u then lit "sips" else lit "sip") (lit "sip")))
    with false by (destruct (u_sips u); reflexivity).
  replace (eq_ic (if u_sips u then lit "sips" else lit "sip") (lit "sips")) with (u_sips u) by (destruct (u_sips u); reflexivity).
  assert (Hb : forall c, c = 59 \/ c = 63 -> mem c base = false).
  { intros c Hc. unfold base. rewrite !mem_app.
    rewrite (print_host_nomem _ c Hh), (port_nomem (u_port u) c); [|destruct Hc; subst; (discriminate || reflexivity)..].
    destruct (u_user u) as [x|]; [|reflexivity]. cbn [user_text]. rewrite mem_app. apply user_chars in Hu.
    destruct Hc as [->| ->]; destruct Hu as (_ & _ & A & B & _); rewrite ?A, ?B; reflexivity. }
  assert (Hq : mem 63 (base ++ flat_map print_param (u_params u)) = false).
  { rewrite mem_app, Hb by now right. cbn [orb]. clear - P3 Hpp. induction P3 as [|kv ps G Gs IH]; [reflexivity|].
    inversion Hpp as [|? ? X Y]; subst. cbn [flat_map]. rewrite mem_app, (IH Y), orb_false_r, print_param_ptext. apply mem_cons_false. split; [discriminate|].
    apply ptext_nomem; [assumption|reflexivity|discriminate|]. unfold plain_param in X. destruct (snd kv); [apply X|exact I]. }
  assert (E2 : match split_once 63 ((base ++ flat_map print_param (u_params u)) ++ headers_text (u_headers u)) with
               | Some (a, h) => (a, Some h)
               | None => ((base ++ flat_map print_param (u_params u)) ++ headers_text (u_headers u), None) end
     = (base ++ flat_map print_param (u_params u),
        match u_headers u with [] => None | _ => Some (join [38] (map print_uri_header (u_headers u))) end)).
  { destruct (u_headers u) as [|h0 hs]; cbn [headers_text].
    - rewrite app_nil_r. apply split_once_none in Hq. now rewrite Hq.
    - now rewrite split_once_app. }
  match goal with |- context [match ?m with (addr, hpart) => _ end] => replace m with
     (base ++ flat_map print_param (u_params u),
        match u_headers u with [] => None | _ => Some (join [38] (map print_uri_header (u_headers u))) end) by (symmetry; exact E2) end.
  clear E2 S.
  rewrite split_params.
  2:{ apply Hb. now left. }
  2:{ rewrite Forall_forall in P3, Hpp |- *. intros kv Hkv. specialize (P3 kv Hkv). specialize (Hpp kv Hkv).
      apply ptext_nomem; [assumption|reflexivity|discriminate|]. unfold plain_param in Hpp. destruct (snd kv); [apply Hpp|exact I]. }
  cbn [hd tl]. rewrite (fold_params (u_params u) []) by assumption. cbn [app].
  destruct (host_port_edge (u_host u) (u_port u) Hh) as [N1 N2].
  assert (Eb : no_edge is_ws base /\ split_user base = Some (u_user u, print_host (u_host u) ++ port_text (u_port u))).
  { unfold base, split_user. destruct (u_user u) as [x|]; cbn [user_text].
    - destruct Hpu as (U1 & U2 & U3). pose proof (user_chars x Hu) as (V1 & _ & _ & _ & V5). rewrite <- app_assoc. cbn [app]. split.
      + apply no_edge_app; [assumption|discriminate|assumption|]. apply no_edge_cons; [reflexivity|assumption].
      + rewrite split_once_app by assumption. rewrite (trim_edge x U3), (pct_decode_str_id x U1 U2), Hu, (trim_edge _ N2). reflexivity.
    - cbn [app]. split; [assumption|]. assert (X : split_once 64 (print_host (u_host u) ++ port_text (u_port u)) = None).
      { apply split_once_none. rewrite mem_app, (print_host_nomem _ 64 Hh), (port_nomem _ 64); (discriminate || reflexivity). }
      rewrite X, (trim_edge _ N2). reflexivity. }
  destruct Eb as [Eb1 Eb2]. rewrite (trim_edge base Eb1), Eb2.
  pose proof (split_host_port_print (u_host u) (u_port u) Hh Hport) as SP.
  destruct (print_host (u_host u) ++ port_text (u_port u)) as [|hc ht]; [now elim N1|]. rewrite SP.
  assert (PD : pct_decode_str (u_host u) = Some (u_host u)).
  { apply pct_decode_str_id; [|now apply host_nomem]. destruct (host_chars _ Hh) as [_ Hc]. unfold is_str. revert Hc. apply forallb_impl.
    intros c Hc. apply hostc_facts in Hc. unfold is_scalar. destruct Hc as (_ & _ & A & _). unfold is_ascii in A. lia. }
  rewrite PD, validate_host_lower, Hh. cbn [negb].
  replace (match u_port u with Some p => negb (validate_port p) | None => false end) with false.
  2:{ destruct (u_port u); [|reflexivity]. unfold validate_port. symmetry. rewrite negb_involutive. now apply N.eqb_neq. }
  replace (match match u_headers u with [] => None | _ => Some (join [38] (map print_uri_header (u_headers u))) end with
           | Some h => fold_opt add_uri_header (split_on 38 h) [] | None => Some [] end) with (Some (u_headers u)); [reflexivity|].
  destruct (u_headers u) as [|h0 hs] eqn:EH; [reflexivity|]. rewrite <- EH in *. rewrite split_on_join.
  - rewrite (fold_headers (u_headers u) []) by assumption. reflexivity.
  - rewrite EH. discriminate.
  - rewrite Forall_forall in D3 |- *. intros t Ht. apply in_map_iff in Ht. destruct Ht as ([k v] & <- & Ht). apply D3 in Ht.
    destruct Ht as (G1 & _ & _ & G4). rewrite print_uri_header_eq. cbn [fst snd] in *. rewrite mem_app, (name_nomem k 38 G1 eq_refl). cbn [orb].
    apply mem_cons_false. split; [discriminate|assumption].
Qed.
