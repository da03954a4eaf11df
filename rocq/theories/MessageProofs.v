(** Lemmas about messages on the wire. *)
From Coq Require Import Arith NArith Bool String List Lia ZifyBool ZifyN ZifyNat.
Import ListNotations.
From Verif Require Import Base BaseFacts NumFacts Headers HeadersProofs Method Text TextFacts Utf8Facts Uri UriProofs P_Uri Msg AnyUri ProxyCore P_Headers Message MessageSpec.
Open Scope N_scope.
Open Scope list_scope.

(** ** Lines *)
Definition line (s : str) : Prop := s <> [] /\ ~ In 13 s.
Definition ends (l : str) : str := l ++ CRLF.
Lemma lines_join : forall l, l <> [] -> flat_map ends l = join CRLF l ++ CRLF.
Proof.
  induction l as [|x l IH]; intros H; [congruence|]. destruct l as [|y l]; [cbn; now rewrite app_nil_r|].
  cbn [flat_map]. change (flat_map ends (y :: l)) with (flat_map ends (y :: l)) in IH. 
  change (ends y ++ flat_map ends l) with (flat_map ends (y :: l)). rewrite IH by discriminate.
  change (join CRLF (x :: y :: l)) with (x ++ CRLF ++ join CRLF (y :: l)). unfold ends. now rewrite <- !app_assoc.
Qed.
Lemma utf8_join : forall l, utf8 (join CRLF l) = join CRLF (map utf8 l).
Proof.
  induction l as [|x l IH]; [reflexivity|]. destruct l as [|y l]; [reflexivity|].
  change (join CRLF (x :: y :: l)) with (x ++ CRLF ++ join CRLF (y :: l)). rewrite !utf8_app, IH. reflexivity.
Qed.
Lemma find_skip : forall a s, ~ In 13 a -> find_sub [13; 10; 13; 10] (a ++ s) =
  match find_sub [13; 10; 13; 10] s with Some (x, y) => Some (a ++ x, y) | None => None end.
Proof.
  induction a as [|c a IH]; intros s H; [cbn [app]; destruct (find_sub _ s) as [[x y]|]; reflexivity|].
  cbn [app]. assert (c <> 13) by (intros ->; apply H; now left).
  transitivity (match find_sub [13; 10; 13; 10] (a ++ s) with Some (x, y) => Some (c :: x, y) | None => None end).
  - cbn [find_sub strip_prefix]. replace (13 =? c) with false by lia. reflexivity.
  - rewrite IH by (intros X; apply H; now right). destruct (find_sub _ s) as [[x y]|]; reflexivity.
Qed.
Lemma find_end : forall l body, l <> [] -> Forall line l ->
  find_sub [13; 10; 13; 10] (join CRLF l ++ [13; 10; 13; 10] ++ body) = Some (join CRLF l, body).
Proof.
  induction l as [|x l IH]; intros body H F; [congruence|]. inversion F as [|? ? [F1 F2] F3]; subst. destruct l as [|y l].
  - cbn [join]. rewrite find_skip by exact F2. cbn. now rewrite app_nil_r.
  - change (join CRLF (x :: y :: l)) with (x ++ CRLF ++ join CRLF (y :: l)). rewrite <- !app_assoc. rewrite find_skip by exact F2.
    set (J := join CRLF (y :: l)) in *. assert (NE : exists c r, J = c :: r /\ c <> 13).
    { inversion F3 as [|? ? [Y1 Y2] _]; subst. unfold J. destruct y as [|c y]; [congruence|].
      exists c. destruct l; [exists y|exists (y ++ CRLF ++ join CRLF (s :: l))]; (split; [reflexivity|]); intros ->; apply Y2; now left. }
    destruct NE as (c & r & E & N). specialize (IH body ltac:(discriminate) F3).
    assert (S : find_sub [13; 10; 13; 10] (CRLF ++ J ++ [13; 10; 13; 10] ++ body) = Some (CRLF ++ J, body)).
    { unfold CRLF. rewrite E in *. cbn [app] in *. 
      transitivity (match find_sub [13; 10; 13; 10] (c :: r ++ 13 :: 10 :: 13 :: 10 :: body) with Some (a, b) => Some (13 :: 10 :: a, b) | None => None end).
      - cbn [find_sub strip_prefix]. replace (13 =? c) with false by lia. change (13 =? 13) with true. change (10 =? 10) with true. change (13 =? 10) with false. cbn iota.
        destruct (find_sub [13; 10; 13; 10] (r ++ 13 :: 10 :: 13 :: 10 :: body)) as [[? ?]|]; reflexivity.
      - rewrite IH. reflexivity. }
    rewrite S. reflexivity.
Qed.
Lemma crlf_one : forall a, ~ In 13 a -> split_crlf a = [a].
Proof.
  induction a as [|c a IH]; intros H; [reflexivity|]. cbn [split_crlf]. rewrite IH by (intros X; apply H; now right).
  assert (c <> 13) by (intros ->; apply H; now left). destruct a as [|d a]; [reflexivity|]. replace (c =? 13) with false by lia. reflexivity.
Qed.
Lemma crlf_app : forall a s, ~ In 13 a -> split_crlf (a ++ CRLF ++ s) = a :: split_crlf s.
Proof.
  induction a as [|c a IH]; intros s H.
  - reflexivity.
  - cbn [app]. assert (N : c <> 13) by (intros ->; apply H; now left). specialize (IH s ltac:(intros X; apply H; now right)).
    assert (E : split_crlf (c :: a ++ CRLF ++ s) = match split_crlf (a ++ CRLF ++ s) with [] => [[c]] | h :: t => (c :: h) :: t end).
    { cbn [split_crlf]. destruct (a ++ CRLF ++ s) as [|d r]; [reflexivity|]. replace (c =? 13) with false by lia. reflexivity. }
    rewrite E, IH. reflexivity.
Qed.
Lemma crlf_join : forall l, l <> [] -> (forall x, In x l -> ~ In 13 x) -> split_crlf (join CRLF l) = l.
Proof.
  induction l as [|x l IH]; intros H F; [congruence|]. destruct l as [|y l]; [apply crlf_one, F; now left|].
  change (join CRLF (x :: y :: l)) with (x ++ CRLF ++ join CRLF (y :: l)). rewrite crlf_app by (apply F; now left).
  f_equal. apply IH; [discriminate|]. intros z Hz. apply F. now right.
Qed.
Lemma is_str_app : forall a b, is_str (a ++ b) = is_str a && is_str b.
Proof. intros. apply forallb_app. Qed.
Lemma is_str_join : forall l, (forall x, In x l -> is_str x = true) -> is_str (join CRLF l) = true.
Proof.
  induction l as [|x l IH]; intros H; [reflexivity|]. destruct l as [|y l]; [apply H; now left|].
  change (join CRLF (x :: y :: l)) with (x ++ CRLF ++ join CRLF (y :: l)). rewrite !is_str_app, H, IH; [reflexivity| |now left]. intros z Hz. apply H. now right.
Qed.
(** what is written as lines is read back as these lines and the body *)
Lemma head_body : forall l body, l <> [] -> Forall line l -> (forall x, In x l -> is_str x = true) ->
  split_head_body (utf8 (flat_map ends l ++ CRLF) ++ body) = Some (join CRLF l, body).
Proof.
  intros l body H F S. unfold split_head_body. rewrite lines_join by exact H.
  replace (utf8 ((join CRLF l ++ CRLF) ++ CRLF) ++ body) with (join CRLF (map utf8 l) ++ [13; 10; 13; 10] ++ body).
  - rewrite find_end.
    + rewrite <- utf8_join, from_utf8_utf8; [reflexivity|]. now apply is_str_join.
    + destruct l; [congruence|discriminate].
    + apply Forall_forall. intros b Hb. apply in_map_iff in Hb. destruct Hb as (x & <- & Hx). rewrite Forall_forall in F. destruct (F x Hx) as [F1 F2].
      split; [|apply mem_false; rewrite utf8_mem by reflexivity; now apply mem_false].
      destruct x as [|c x]; [congruence|]. change (utf8 (c :: x)) with (utf8_c c ++ utf8 x). unfold utf8_c. destruct (c <? 128); [discriminate|]. destruct (c <? 2048); [discriminate|]. destruct (c <? 65536); discriminate.
  - rewrite !utf8_app, utf8_join. change (utf8 CRLF) with CRLF. unfold CRLF. now rewrite <- !app_assoc.
Qed.

(** ** Headers *)
Definition hline (h : header) : str := fst h ++ lit ": " ++ snd h.
Definition named_ok (n : str) : Prop := n <> [] /\ blen n <= 128 /\ forallb header_name_char n = true.
Lemma name_char_facts : forall c, header_name_char c = true -> is_ws c = false /\ c <> 58 /\ c <> 13 /\ c <> 10 /\ c < 128.
Proof.
  intros c H. unfold header_name_char in H. apply orb_true_iff in H. destruct H as [H|H].
  - unfold is_alnum, is_alpha, is_upper, is_lower, is_digit, is_ws, in_range in *. assert (c < 128) by lia. lia.
  - apply existsb_exists in H. destruct H as (x & Hx & E). apply N.eqb_eq in E. subst x. cbn in Hx.
    repeat (destruct Hx as [<- | Hx]; [vm_compute; repeat split; discriminate|]). destruct Hx.
Qed.
Lemma canonical_ok : forall n, named_ok n -> named_ok (canonical_name n).
Proof.
  intros n H. unfold canonical_name. destruct (lookup str_eqb (lower n) canonical_table) as [c|] eqn:E; [|exact H].
  apply (lookup_in _ str_eqb_spec) in E. unfold canonical_table in E. cbn [In] in E.
  repeat (destruct E as [E | E]; [apply (f_equal snd) in E; cbn [snd] in E; subst c; vm_compute; repeat split; discriminate|]). destruct E.
Qed.
Lemma name_trim : forall n, forallb header_name_char n = true -> trim n = n.
Proof.
  intros n H. apply trim_by_id, no_edge_all. revert H. apply forallb_impl. intros c Hc. apply name_char_facts in Hc. destruct Hc as [-> _]. reflexivity.
Qed.
Lemma trim_cons_ws : forall c s, is_ws c = true -> trim (c :: s) = trim s.
Proof. intros c s H. unfold trim, trim_by, trim_start_by. cbn [drop_while]. now rewrite H. Qed.
Definition seen (h : header) : header := (canonical_name (fst h), trim (snd h)).
Definition value_ok (v : str) : Prop := blen v <= 8192 /\ ~ In 13 v /\ ~ In 10 v /\ ~ In 0 v.
Lemma value_trim : forall v, value_ok v -> value_ok (trim v).
Proof.
  intros v (A & B & C & D). destruct (trim_by_sub is_ws v) as (a & b & E & _). fold (trim v) in E.
  assert (S : forall c, ~ In c v -> ~ In c (trim v)) by (intros c Hc X; apply Hc; rewrite E; apply in_or_app; right; apply in_or_app; now left).
  split; [|repeat split; auto]. rewrite E in A. rewrite !blen_app in A. lia.
Qed.
Lemma push_seen : forall acc h, named_ok (fst h) -> value_ok (snd h) -> llen acc < 200 ->
  hpush acc (canonical_name (fst h)) (trim (snd h)) = Ok (acc ++ [seen h]).
Proof.
  intros acc h Hn Hv Hl. unfold hpush. replace (MAX_HEADERS <=? llen acc) with false by (unfold MAX_HEADERS; lia).
  destruct (canonical_ok _ Hn) as (A & B & C). destruct (value_trim _ Hv) as (D & E & F & G).
  assert (X : header_new (canonical_name (fst h)) (trim (snd h)) = Ok (seen h)).
  { apply header_new_ok. split; [reflexivity|]. unfold HeadersProofs.good_header, seen. cbn [fst snd]. repeat split; auto.
    apply Forall_forall. intros c Hc. rewrite forallb_forall in C. now apply C. }
  now rewrite X.
Qed.
Lemma push_full : forall acc n v, 200 <= llen acc -> exists e, hpush acc n v = Err e.
Proof. intros acc n v H. unfold hpush. replace (MAX_HEADERS <=? llen acc) with true by (unfold MAX_HEADERS; lia). eauto. Qed.
Lemma parse_hlines : forall hs acc, Forall (fun h => named_ok (fst h) /\ value_ok (snd h)) hs ->
  llen acc <= 200 ->
  parse_headers_from acc (map hline hs) = if llen (acc ++ hs) <=? 200 then Some (acc ++ map seen hs) else None.
Proof.
  induction hs as [|h hs IH]; intros acc F Ha; cbn [map parse_headers_from].
  - rewrite app_nil_r. replace (llen acc <=? 200) with true by lia. now rewrite app_nil_r.
  - inversion F as [|? ? [Hn Hv] F']; subst. pose proof Hn as (N1 & N2 & N3). unfold hline at 1. destruct (fst h) as [|c n] eqn:Ef; [congruence|]. cbn [app].
    assert (Hc : header_name_char c = true) by (cbn in N3; apply andb_true_iff in N3; tauto). apply name_char_facts in Hc.
    replace ((c =? 32) || (c =? 9)) with false by (unfold is_ws, in_range in Hc; lia).
    replace (hline h) with ((c :: n) ++ 58 :: (32 :: snd h)) by (unfold hline; rewrite Ef; reflexivity).
    rewrite split_once_app by (apply mem_false; intros X; rewrite forallb_forall in N3; apply N3 in X; now apply name_char_facts in X).
    rewrite name_trim by exact N3. rewrite trim_cons_ws by reflexivity. rewrite <- Ef.
    destruct (llen acc =? 200) eqn:L.
    + destruct (push_full acc (canonical_name (fst h)) (trim (snd h)) ltac:(lia)) as (e & ->).
      replace (llen (acc ++ h :: hs) <=? 200) with false; [reflexivity|]. rewrite llen_app, llen_cons. lia.
    + rewrite push_seen; [|now rewrite Ef|exact Hv|lia]. rewrite IH; [|exact F'|rewrite llen_app, llen_cons, llen_nil; lia].
      rewrite !llen_app, !llen_cons, llen_nil. replace (llen acc + (1 + llen hs)) with (llen acc + (1 + 0) + llen hs) by lia. rewrite <- app_assoc. reflexivity.
Qed.

(** ** Names as they arrive *)
Lemma wire_lower : forall n, lower (wire_name n) = lower n.
Proof.
  intros n. unfold wire_name. repeat match goal with |- context [if eq_ic ?a ?b then _ else _] => let X := fresh in destruct (eq_ic a b) eqn:X; [apply eq_ic_spec in X; now symmetry|] end. reflexivity.
Qed.
Lemma wire_ok : forall n, named_ok n -> named_ok (wire_name n).
Proof.
  intros n H. unfold wire_name. repeat match goal with |- context [if eq_ic ?a ?b then _ else _] => let X := fresh in destruct (eq_ic a b) eqn:X; [vm_compute; repeat split; discriminate|] end. exact H.
Qed.
Lemma table_is : canonical_table = map (fun ab => (lit (fst ab), lit (snd ab))) compact_forms.
Proof. reflexivity. Qed.
Lemma canonical_means : forall n, means n (canonical_name n).
Proof.
  intros n. unfold canonical_name, means. destruct (lookup str_eqb (lower n) canonical_table) as [c|] eqn:E.
  - left. apply (lookup_in _ str_eqb_spec) in E. rewrite table_is in E. apply in_map_iff in E. destruct E as ((a & b) & E & I). cbn [fst snd] in E.
    injection E as E1 E2. exists a, b. rewrite <- E1, <- E2. auto.
  - right. split; [|reflexivity]. intros a b I X. apply (lookup_none _ str_eqb_spec) in E. apply E. rewrite X, table_is. unfold keys. rewrite map_map.
    apply (in_map (fun ab => fst (lit (fst ab), lit (snd ab))) _ _ I).
Qed.
Lemma means_lower : forall a b l, lower a = lower b -> means a l -> means b l.
Proof. intros a b l H M. unfold means in *. rewrite <- H. exact M. Qed.
Lemma seen_received : forall h, received h (seen (wire_name (fst h), trim (snd h))).
Proof.
  intros h. split; cbn [seen fst snd].
  - apply (means_lower (wire_name (fst h))); [apply wire_lower|]. apply canonical_means.
  - apply trim_idem.
Qed.
Lemma seen_received' : forall h, received h (seen h).
Proof. intros h. split; [apply canonical_means|reflexivity]. Qed.
(** the receiver finds a length header only where one was sent *)
Lemma compact_length : forall a b, In (a, b) compact_forms -> lower (lit b) = lower CL -> lit a = lit "l".
Proof.
  intros a b H E. unfold compact_forms in H. cbn [In] in H.
  repeat (destruct H as [H | H]; [injection H as <- <-; vm_compute in E |- *; try discriminate; try reflexivity|]). destruct H.
Qed.
Lemma means_length : forall h l, means (fst h) l -> length_header h = eq_ic l CL.
Proof.
  intros h l H. unfold length_header. destruct H as [(a & b & I & E1 & E2) | [N E]].
  - destruct (eq_ic l CL) eqn:X.
    + apply eq_ic_spec in X. rewrite E2 in X. apply (compact_length _ _ I) in X. apply orb_true_iff. right. apply eq_ic_spec. rewrite E1, X. reflexivity.
    + apply orb_false_iff. split; apply not_true_iff_false; intros Y; apply eq_ic_spec in Y; rewrite E1 in Y.
      * clear - I Y. unfold compact_forms in I. cbn [In] in I. repeat (destruct I as [I | I]; [injection I as <- <-; vm_compute in Y; discriminate|]). destruct I.
      * assert (Z : lower l = lower CL).
        { rewrite E2. clear - I Y. unfold compact_forms in I. cbn [In] in I. repeat (destruct I as [I | I]; [injection I as <- <-; vm_compute in Y |- *; try discriminate; try reflexivity|]). destruct I. }
        apply eq_ic_spec in Z. unfold CL in *. congruence.
  - assert (L : eq_ic (fst h) (lit "l") = false).
    { apply not_true_iff_false. intros Y. apply eq_ic_spec in Y. apply (N "l"%string "Content-Length"%string); [|exact Y]. unfold compact_forms. cbn. auto 10. }
    rewrite L, orb_false_r. unfold eq_ic. now rewrite E.
Qed.

(** ** Start lines *)
Lemma span_stop : forall p a b, forallb p a = true -> match b with [] => True | c :: _ => p c = false end -> span p (a ++ b) = (a, b).
Proof.
  induction a as [|c a IH]; intros b Ha Hb.
  - destruct b as [|c b]; [reflexivity|]. cbn. now rewrite Hb.
  - cbn [forallb] in Ha. apply andb_true_iff in Ha. destruct Ha as [H1 H2]. cbn [app span]. now rewrite H1, (IH b H2 Hb).
Qed.
Lemma take1_stop : forall p a b, a <> [] -> forallb p a = true -> match b with [] => True | c :: _ => p c = false end -> take1 p (a ++ b) = Some (a, b).
Proof. intros p a b N Ha Hb. unfold take1. rewrite span_stop by assumption. destruct a; [congruence|reflexivity]. Qed.
Lemma method_chars : forall t m, method_from_token t = Ok m -> method_str m <> [] /\ forallb method_char (method_str m) = true.
Proof.
  intros t m H. apply C57_roundtrip in H. unfold method_from_token in H.
  destruct (find (fun m0 => eq_ic (method_str m) (method_str m0)) standard_methods) as [m0|] eqn:E.
  - injection H as <-. apply find_some in E. destruct E as [Hin _]. clear t.
    repeat (destruct Hin as [<-|Hin]; [vm_compute; split; [discriminate|reflexivity]|]). destruct Hin.
  - destruct (validate_method_token (method_str m)) eqn:V; [discriminate|]. unfold validate_method_token in V.
    destruct (method_str m) as [|c r]; [discriminate|]. destruct (_ <? _); [discriminate|]. destruct (existsb _ _); [discriminate|].
    destruct (forallb method_char (c :: r)) eqn:F; [|discriminate]. split; [discriminate|reflexivity].
Qed.
Lemma method_char_facts : forall c, method_char c = true -> req_token_char c = true /\ is_ws c = false /\ c <> 13 /\ c <> 10 /\ is_scalar c = true.
Proof.
  intros c H. unfold method_char in H. apply orb_true_iff in H. destruct H as [H|H].
  - split; [unfold req_token_char; now rewrite H|]. unfold is_alnum, is_alpha, is_upper, is_lower, is_digit, is_scalar, is_ws, in_range in *. assert (c < 128) by lia. lia.
  - apply existsb_exists in H. destruct H as (x & Hx & E). apply N.eqb_eq in E. subst x. cbn in Hx.
    repeat (destruct Hx as [<- | Hx]; [vm_compute; repeat split; discriminate|]). destruct Hx.
Qed.
Definition VERSION : str := lit "SIP/2.0".
Definition request_line (m : method) (u : uri) : str := method_str m ++ lit " " ++ uri_text u ++ lit " " ++ VERSION.
Lemma plain_uri_text : forall u, plain_uri u -> uri_text u <> [].
Proof. intros u (_ & _ & a & H & _) E. rewrite E in H. vm_compute in H. discriminate. Qed.
Lemma no_edge_ends : forall p a m b, a <> [] -> b <> [] -> no_edge p a -> no_edge p b -> no_edge p (a ++ m ++ b).
Proof.
  intros p a m b Na Nb [A _] [_ B]. split.
  - destruct a; [congruence|exact A].
  - rewrite !rev_app_distr. destruct (rev b) eqn:E; [|exact B]. apply (f_equal (@rev N)) in E. rewrite rev_involutive in E. cbn in E. congruence.
Qed.
Lemma request_line_edge : forall m u, api_method m -> no_edge is_ws (request_line m u).
Proof.
  intros m u (t & Ht). apply method_chars in Ht. destruct Ht as [N F]. unfold request_line.
  replace (method_str m ++ lit " " ++ uri_text u ++ lit " " ++ VERSION) with (method_str m ++ (lit " " ++ uri_text u ++ lit " ") ++ VERSION) by now rewrite <- !app_assoc.
  apply no_edge_ends; [exact N|discriminate| |].
  - apply (class_edge method_char); [intros c Hc; now apply method_char_facts in Hc|exact F].
  - split; reflexivity.
Qed.
Lemma request_line_read : forall m u, api_method m -> plain_uri u ->
  parse_request_line (trim (request_line m u)) = Some (m, u).
Proof.
  intros m u Hm Hu. pose proof (request_line_edge m u Hm) as Ed. pose proof (plain_uri_text u Hu) as Nu. destruct Hu as (_ & W & a & P & ->).
  pose proof Hm as (t & Ht). pose proof (C57_roundtrip _ _ Ht) as Rt. apply method_chars in Ht. destruct Ht as [N F].
  unfold parse_request_line. rewrite trim_idem, trim_edge by exact Ed. unfold request_line.
  rewrite take1_stop; [|exact N| |reflexivity].
  2:{ revert F. apply forallb_impl. intros c Hc. now apply method_char_facts in Hc. }
  rewrite take1_stop; [|discriminate|reflexivity|].
  2:{ destruct (uri_text _) as [|c r] eqn:E; [congruence|]. cbn [app]. specialize (W c (or_introl eq_refl)). unfold blank, is_ws, in_range in *. lia. }
  rewrite take1_stop; [|exact Nu| |reflexivity].
  2:{ apply forallb_forall. intros c Hc. unfold req_uri_char. now rewrite W. }
  rewrite take1_stop; [|discriminate|reflexivity|reflexivity].
  rewrite eq_ic_refl, Rt, P. reflexivity.
Qed.
Definition status_line (code : N) (reason : str) : str := VERSION ++ lit " " ++ print_N code ++ lit " " ++ reason.
Lemma status_line_read : forall code reason, status_new code reason = Some (code, reason) -> reason <> [] -> trim reason = reason ->
  trim (status_line code reason) = status_line code reason /\ parse_status_line (status_line code reason) = Some (code, reason).
Proof.
  intros code reason S N T. assert (Ed : no_edge is_ws (status_line code reason)).
  { unfold status_line. replace (VERSION ++ lit " " ++ print_N code ++ lit " " ++ reason) with (VERSION ++ (lit " " ++ print_N code ++ lit " ") ++ reason) by now rewrite <- !app_assoc.
    apply no_edge_ends; [discriminate|exact N|split; reflexivity|]. rewrite <- T. apply trim_by_no_edge. }
  pose proof (trim_edge _ Ed) as Te. split; [exact Te|]. unfold parse_status_line. rewrite Te. unfold status_line.
  change (firstn 7 (VERSION ++ lit " " ++ print_N code ++ lit " " ++ reason)) with VERSION.
  change (skipn 7 (VERSION ++ lit " " ++ print_N code ++ lit " " ++ reason)) with (lit " " ++ print_N code ++ lit " " ++ reason).
  change (eq_ic VERSION (lit "SIP/2.0")) with true. cbn iota.
  assert (R : 100 <= code <= 699).
  { unfold status_new in S. destruct (in_range 100 699 code) eqn:R; [|discriminate]. unfold in_range in R. lia. }
  destruct (print_N_spec code) as (D3 & D2 & D1).
  rewrite take1_stop; [|discriminate|reflexivity|].
  2:{ destruct (print_N code) as [|c r] eqn:E; [congruence|]. cbn [app]. assert (48 <= c <= 57) by (apply (print_N_digits code); rewrite E; now left). unfold blank. lia. }
  rewrite take1_stop; [|exact D1|exact D2|reflexivity].
  rewrite D3. replace (u16_max <? code) with false by (unfold u16_max; lia).
  rewrite take1_stop; [|discriminate|reflexivity|].
  2:{ destruct reason as [|c r]; [congruence|]. assert (W : is_ws c = false).
      { pose proof (trim_by_no_edge is_ws (c :: r)) as [X _]. fold (trim (c :: r)) in X. rewrite T in X. exact X. }
      unfold blank, is_ws, in_range in *. lia. }
  rewrite T. exact S.
Qed.

(** ** Serialised requests *)
Definition kept (hs : headers) : headers := filter (fun h => negb (length_header h)) hs.
Definition hops (hs : headers) : headers := if hcontains (lit "Max-Forwards") hs then [] else [(lit "Max-Forwards", lit "70")].
Definition request_headers (q : req) : headers :=
  map (fun h => (wire_name (fst h), trim (snd h))) (kept (q_headers q)) ++ hops (q_headers q) ++ [length_of (q_body q)].
Definition response_headers (r : resp) : headers := kept (p_headers r) ++ [length_of (p_body r)].
Lemma hline_of : forall n v, line_of n v = ends (hline (n, v)).
Proof. intros. unfold line_of, ends, hline. cbn [fst snd]. now rewrite <- !app_assoc. Qed.
Lemma flat_lines : forall (f : header -> header) hs, flat_map (fun h => line_of (fst (f h)) (snd (f h))) hs = flat_map ends (map hline (map f hs)).
Proof. induction hs as [|h hs IH]; [reflexivity|]. cbn [flat_map map]. rewrite IH, hline_of. now destruct (f h). Qed.
Lemma hcontains_kept : forall n hs, (forall h, name_eq h n = true -> length_header h = false) -> hcontains n (kept hs) = hcontains n hs.
Proof.
  intros n hs H. induction hs as [|h hs IH]; [reflexivity|]. unfold kept, hcontains in *. cbn [filter existsb].
  destruct (length_header h) eqn:L; cbn [negb existsb]; rewrite IH; [|reflexivity].
  destruct (name_eq h n) eqn:E; [|reflexivity]. apply H in E. congruence.
Qed.
Lemma max_forwards_kept : forall hs, hcontains (lit "Max-Forwards") (kept hs) = hcontains (lit "Max-Forwards") hs.
Proof.
  intros hs. apply hcontains_kept. intros h E. unfold name_eq in E. unfold length_header. apply orb_false_iff.
  apply eq_ic_spec in E. split; unfold eq_ic; rewrite E; reflexivity.
Qed.
Lemma serialize_request_lines : forall q, serialize_request q =
  utf8 (flat_map ends (request_line (q_method q) (q_uri q) :: map hline (request_headers q)) ++ CRLF) ++ q_body q.
Proof.
  intros q. unfold serialize_request. change (filter (fun h => negb (is_cl h)) (q_headers q)) with (kept (q_headers q)). f_equal. f_equal.
  rewrite max_forwards_kept. unfold request_headers, request_line, VERSION. cbn [flat_map]. unfold ends at 1. rewrite <- !app_assoc. do 6 f_equal.
  rewrite !map_app, !flat_map_app, <- !app_assoc. f_equal; [|f_equal].
  - exact (flat_lines (fun h => (wire_name (fst h), trim (snd h))) _).
  - unfold hops. destruct (hcontains _ _); reflexivity.
  - cbn [map flat_map]. rewrite app_nil_r. unfold length_of. now rewrite <- hline_of.
Qed.
Lemma serialize_response_lines : forall r, serialize_response r =
  utf8 (flat_map ends (status_line (p_code r) (p_reason r) :: map hline (response_headers r)) ++ CRLF) ++ p_body r.
Proof.
  intros r. unfold serialize_response. change (filter (fun h => negb (is_cl h)) (p_headers r)) with (kept (p_headers r)). f_equal. f_equal.
  unfold response_headers, status_line, VERSION. cbn [flat_map]. unfold ends at 1. rewrite <- !app_assoc. do 6 f_equal.
  rewrite !map_app, !flat_map_app, <- !app_assoc. f_equal.
  - rewrite <- (map_id (kept (p_headers r))) at 2. exact (flat_lines (fun h => h) _).
  - cbn [map flat_map]. rewrite app_nil_r. unfold length_of. now rewrite <- hline_of.
Qed.
(** headers fit for the wire *)
Definition fit (h : header) : Prop := named_ok (fst h) /\ value_ok (snd h) /\ is_str (snd h) = true.
Lemma good_fit : forall hs, good_headers hs -> text_headers hs -> Forall fit hs.
Proof.
  intros hs [G _] T. apply Forall_forall. intros h Hh. rewrite Forall_forall in G. specialize (G h Hh). specialize (T h Hh).
  unfold HeadersProofs.good_header in G. destruct G as (A & B & C & D & E & F & H). split; [|split; [|exact T]].
  - split; [exact A|split; [exact B|]]. apply forallb_forall. intros c Hc. rewrite Forall_forall in C. now apply C.
  - split; [exact D|]. auto.
Qed.
Lemma is_str_sub : forall a b, (forall c, In c a -> In c b) -> is_str b = true -> is_str a = true.
Proof. intros a b H S. unfold is_str in *. rewrite forallb_forall in *. auto. Qed.
Lemma trim_in : forall c s, In c (trim s) -> In c s.
Proof. intros c s H. destruct (mem c s) eqn:E; [now apply mem_In|]. apply trim_mem in E. apply mem_false in E. contradiction. Qed.
Lemma fit_length : forall b, llen b <= MAX_BODY_SIZE -> fit (length_of b).
Proof.
  intros b Hb. split; [vm_compute; repeat split; discriminate|]. cbn [length_of snd]. assert (D : forall c, In c (print_N (llen b)) -> 48 <= c <= 57) by (intros c; apply print_N_digits).
  split.
  - split; [|repeat split; intros X; apply D in X; lia]. pose proof (print_N_blen (llen b) 8) as X. unfold MAX_BODY_SIZE in Hb. 
    assert (blen (print_N (llen b)) <= 8) by (apply X; cbn; lia). lia.
  - apply forallb_forall. intros c Hc. apply D in Hc. unfold is_scalar. lia.
Qed.
Lemma fit_request : forall q, Forall fit (q_headers q) -> llen (q_body q) <= MAX_BODY_SIZE -> Forall fit (request_headers q).
Proof.
  intros q F B. unfold request_headers. apply Forall_app. split; [|apply Forall_app; split].
  - apply Forall_forall. intros h Hh. apply in_map_iff in Hh. destruct Hh as (h0 & <- & Hh). apply filter_In in Hh. destruct Hh as [Hh _].
    rewrite Forall_forall in F. destruct (F h0 Hh) as (A & V & S). split; [|split]; cbn [fst snd].
    + now apply wire_ok.
    + now apply value_trim.
    + revert S. apply is_str_sub. intros c. apply trim_in.
  - unfold hops. destruct (hcontains _ _); constructor; [|constructor]. vm_compute. repeat split; try discriminate; intuition discriminate.
  - constructor; [|constructor]. now apply fit_length.
Qed.
Lemma fit_response : forall r, Forall fit (p_headers r) -> llen (p_body r) <= MAX_BODY_SIZE -> Forall fit (response_headers r).
Proof.
  intros r F B. unfold response_headers. apply Forall_app. split; [|constructor; [now apply fit_length|constructor]].
  apply Forall_forall. intros h Hh. apply filter_In in Hh. rewrite Forall_forall in F. now apply F.
Qed.
Lemma fit_line : forall h, fit h -> line (hline h) /\ ~ In 10 (hline h) /\ is_str (hline h) = true.
Proof.
  intros h ((A & B & C) & (D & E & F & G) & S). unfold hline. rewrite forallb_forall in C.
  assert (X : forall c, In c (fst h ++ lit ": " ++ snd h) -> header_name_char c = true \/ c = 58 \/ c = 32 \/ In c (snd h)).
  { intros c Hc. apply in_app_or in Hc. destruct Hc as [Hc | Hc]; [left; auto|]. apply in_app_or in Hc. destruct Hc as [Hc | Hc]; [|auto]. cbn in Hc. intuition. }
  split; [split|split].
  - destruct (fst h); [congruence|discriminate].
  - intros Hc. apply X in Hc. destruct Hc as [Hc | [Hc | [Hc | Hc]]]; try discriminate; try contradiction; now apply name_char_facts in Hc.
  - intros Hc. apply X in Hc. destruct Hc as [Hc | [Hc | [Hc | Hc]]]; try discriminate; try contradiction; now apply name_char_facts in Hc.
  - apply forallb_forall. intros c Hc. apply X in Hc. destruct Hc as [Hc | [-> | [-> | Hc]]]; [|reflexivity|reflexivity|].
    + apply name_char_facts in Hc. unfold is_scalar. lia.
    + unfold is_str in S. rewrite forallb_forall in S. now apply S.
Qed.
Lemma seen_length : forall b, seen (length_of b) = length_of b.
Proof.
  intros b. unfold seen, length_of. cbn [fst snd]. f_equal; try reflexivity.
  apply trim_edge, no_edge_all, forallb_forall. intros c Hc. apply print_N_digits in Hc. unfold is_ws, in_range. assert (c < 128) by lia. lia.
Qed.
Lemma lengths_of : forall hs b, (forall h, In h hs -> name_eq h CL = false) -> hget_all CL (hs ++ [length_of b]) = [print_N (llen b)].
Proof.
  intros hs b H. unfold hget_all. rewrite filter_app. replace (filter (fun h => name_eq h CL) hs) with (@nil header); [reflexivity|].
  symmetry. induction hs as [|h hs IH]; [reflexivity|]. cbn [filter]. rewrite (H h) by now left. apply IH. intros h' Hh. apply H. now right.
Qed.
Lemma parse_cl_print : forall n, n <= MAX_CONTENT_LENGTH -> parse_cl (print_N n) = ClOk n.
Proof.
  intros n H. unfold parse_cl. replace (trim (print_N n)) with (print_N n).
  - unfold MAX_CONTENT_LENGTH in H. rewrite parse_uint_print by (unfold u64_max; lia). replace (MAX_CONTENT_LENGTH <? n) with false by (unfold MAX_CONTENT_LENGTH; lia). reflexivity.
  - symmetry. apply trim_edge, no_edge_all, forallb_forall. intros c Hc. apply print_N_digits in Hc. unfold is_ws, in_range. assert (c < 128) by lia. lia.
Qed.
Lemma body_lenient : forall b hs, llen b <= MAX_CONTENT_LENGTH -> hget_all CL hs = [print_N (llen b)] -> extract_body b hs = Some b.
Proof.
  intros b hs H E. unfold extract_body. rewrite E, parse_cl_print by exact H. replace (llen b <? llen b) with false by lia.
  f_equal. unfold llen. rewrite Nnat.Nat2N.id. apply firstn_all.
Qed.
Lemma body_strict : forall b hs, llen b <= MAX_CONTENT_LENGTH -> hget_all CL hs = [print_N (llen b)] -> extract_body_strict b hs = Some b.
Proof.
  intros b hs H E. unfold extract_body_strict. rewrite E. cbn [strict_length]. rewrite parse_cl_print by exact H. replace (llen b =? llen b) with true by lia. reflexivity.
Qed.
Lemma not_length : forall h l, length_header h = false -> received h l -> name_eq l CL = false.
Proof. intros h l H [M _]. unfold name_eq. rewrite <- (means_length _ _ M). exact H. Qed.
(** the headers the receiver has *)
Definition got_request (q : req) : headers := map seen (request_headers q).
Definition got_response (r : resp) : headers := map seen (response_headers r).
Lemma got_request_spec : forall q, exists front, Forall2 received (kept (q_headers q)) front
  /\ got_request q = front ++ hops (q_headers q) ++ [length_of (q_body q)].
Proof.
  intros q. exists (map (fun h => seen (wire_name (fst h), trim (snd h))) (kept (q_headers q))). split.
  - induction (kept (q_headers q)) as [|h hs IH]; constructor; [apply seen_received|exact IH].
  - unfold got_request, request_headers. rewrite !map_app, map_map. f_equal. f_equal; [unfold hops; destruct (hcontains _ _); reflexivity|]. cbn [map]. now rewrite seen_length.
Qed.
Lemma got_response_spec : forall r, exists front, Forall2 received (kept (p_headers r)) front /\ got_response r = front ++ [length_of (p_body r)].
Proof.
  intros r. exists (map seen (kept (p_headers r))). split.
  - induction (kept (p_headers r)) as [|h hs IH]; constructor; [apply seen_received'|exact IH].
  - unfold got_response, response_headers. rewrite !map_app. f_equal. cbn [map]. now rewrite seen_length.
Qed.
Lemma front_lengths : forall hs front, Forall2 received (kept hs) front -> forall h, In h front -> name_eq h CL = false.
Proof.
  intros hs front F. assert (K : Forall (fun h => length_header h = false) (kept hs)).
  { apply Forall_forall. intros h Hh. apply filter_In in Hh. destruct Hh as [_ Hh]. now apply negb_true_iff in Hh. }
  revert K. induction F as [|a b hs' fr R F IH]; intros K h Hh; [destruct Hh|]. inversion K; subst. destruct Hh as [<- | Hh]; [|auto].
  now apply (not_length a).
Qed.
Lemma got_request_length : forall q, hget_all CL (got_request q) = [print_N (llen (q_body q))].
Proof.
  intros q. destruct (got_request_spec q) as (front & F & ->). rewrite app_assoc. apply lengths_of. intros h Hh. apply in_app_or in Hh. destruct Hh as [Hh | Hh].
  - now apply (front_lengths _ _ F).
  - unfold hops in Hh. destruct (hcontains _ _); [destruct Hh|]. destruct Hh as [<- | []]. reflexivity.
Qed.
Lemma got_response_length : forall r, hget_all CL (got_response r) = [print_N (llen (p_body r))].
Proof. intros r. destruct (got_response_spec r) as (front & F & ->). apply lengths_of. apply (front_lengths _ _ F). Qed.
Lemma fit_parse : forall hs, Forall fit hs -> parse_headers (map hline hs) = if llen hs <=? 200 then Some (map seen hs) else None.
Proof.
  intros hs F. unfold parse_headers. rewrite parse_hlines; [reflexivity| |cbn; lia]. eapply Forall_impl; [|exact F]. intros h (A & B & _). auto.
Qed.
Lemma llen_body_le : forall (t : list N) b, llen b <= llen (t ++ b).
Proof. intros. rewrite llen_app. lia. Qed.
Lemma request_line_text : forall m u, api_method m -> plain_uri u -> line (request_line m u) /\ ~ In 10 (request_line m u) /\ is_str (request_line m u) = true.
Proof.
  intros m u (t & Ht) (S & W & _). apply method_chars in Ht. destruct Ht as [N F]. rewrite forallb_forall in F.
  assert (X : forall c, In c (request_line m u) -> is_scalar c = true /\ c <> 13 /\ c <> 10).
  { intros c Hc. unfold request_line in Hc. apply in_app_or in Hc. destruct Hc as [Hc | Hc]; [apply F in Hc; apply method_char_facts in Hc; tauto|].
    apply in_app_or in Hc. destruct Hc as [[<- | []] | Hc]; [vm_compute; repeat split; discriminate|].
    apply in_app_or in Hc. destruct Hc as [Hc | Hc].
    - split; [unfold is_str in S; rewrite forallb_forall in S; auto|]. apply W in Hc. unfold is_ws, in_range in Hc. lia.
    - cbn in Hc. repeat (destruct Hc as [<- | Hc]; [vm_compute; repeat split; discriminate|]). destruct Hc. }
  split; [split|split].
  - unfold request_line. destruct (method_str m); [congruence|discriminate].
  - intros Hc. apply X in Hc. tauto.
  - intros Hc. apply X in Hc. tauto.
  - apply forallb_forall. intros c Hc. now apply X.
Qed.
(** what parsing a serialised request gives *)
Lemma parse_serialized : forall (strict : bool) q, api_method (q_method q) -> plain_uri (q_uri q) -> Forall fit (q_headers q) ->
  llen (serialize_request q) <= DEFAULT_MAX_MESSAGE_SIZE ->
  parse_request_by (if strict then extract_body_strict else extract_body) DEFAULT_MAX_MESSAGE_SIZE (serialize_request q) =
  if (llen (request_headers q) <=? 200) && singletons_unique (got_request q) && via_branch_ok (got_request q) && cseq_matches (got_request q) (q_method q)
  then Some (mkReq (q_method q) (q_uri q) (got_request q) (q_body q)) else None.
Proof.
  intros strict q Hm Hu Hh Hl. unfold parse_request_by. replace (DEFAULT_MAX_MESSAGE_SIZE <? llen (serialize_request q)) with false by lia.
  assert (B : llen (q_body q) <= 65536).
  { pose proof (llen_body_le (utf8 (flat_map ends (request_line (q_method q) (q_uri q) :: map hline (request_headers q)) ++ CRLF)) (q_body q)) as X.
    rewrite <- serialize_request_lines in X. unfold DEFAULT_MAX_MESSAGE_SIZE in Hl. lia. }
  assert (F : Forall fit (request_headers q)) by (apply fit_request; [exact Hh|unfold MAX_BODY_SIZE; lia]).
  rewrite serialize_request_lines. pose proof (request_line_text _ _ Hm Hu) as (L1 & _ & L3). set (RL := request_line (q_method q) (q_uri q)) in *.
  rewrite head_body; [|discriminate| |].
  2:{ constructor; [exact L1|]. apply Forall_forall. intros x Hx. apply in_map_iff in Hx. destruct Hx as (h & <- & Hx). rewrite Forall_forall in F. now apply fit_line, F. }
  2:{ intros x [<- | Hx]; [exact L3|]. apply in_map_iff in Hx. destruct Hx as (h & <- & Hx). rewrite Forall_forall in F. now apply fit_line, F. }
  rewrite crlf_join; [|discriminate|].
  2:{ intros x [<- | Hx]; [apply L1|]. apply in_map_iff in Hx. destruct Hx as (h & <- & Hx). rewrite Forall_forall in F. now apply fit_line, F. }
  pose proof (request_line_read _ _ Hm Hu) as P. fold RL in P. pose proof (trim_edge _ (request_line_edge (q_method q) (q_uri q) Hm)) as Te. fold RL in Te.
  rewrite Te in *. destruct RL as [|c rl]; [destruct L1; congruence|]. rewrite P.
  rewrite fit_parse by exact F. destruct (llen (request_headers q) <=? 200); [|reflexivity]. fold (got_request q). cbn [andb].
  destruct (singletons_unique (got_request q)); [|reflexivity]. destruct (via_branch_ok (got_request q)); [|reflexivity]. cbn [negb andb].
  replace ((if strict then extract_body_strict else extract_body) (q_body q) (got_request q)) with (Some (q_body q)).
  - destruct (cseq_matches _ _); [|reflexivity]. unfold request_new. replace (MAX_BODY_SIZE <? llen (q_body q)) with false by (unfold MAX_BODY_SIZE; lia). reflexivity.
  - symmetry. destruct strict; [apply body_strict|apply body_lenient]; try apply got_request_length; unfold MAX_CONTENT_LENGTH; lia.
Qed.
Lemma status_line_text : forall code reason, status_new code reason = Some (code, reason) -> is_str reason = true ->
  line (status_line code reason) /\ ~ In 10 (status_line code reason) /\ is_str (status_line code reason) = true.
Proof.
  intros code reason S T.
  assert (R : forall c, In c reason -> is_ascii_control c = false).
  { unfold status_new in S. destruct (in_range _ _ _); [|discriminate]. destruct (_ <? _); [discriminate|]. cbn [negb] in S.
    destruct (existsb is_ascii_control reason) eqn:E; [discriminate|]. intros c Hc. apply not_true_iff_false. intros X. apply not_true_iff_false in E. apply E. apply existsb_exists. eauto. }
  assert (X : forall c, In c (status_line code reason) -> is_scalar c = true /\ c <> 13 /\ c <> 10).
  { intros c Hc. unfold status_line in Hc. apply in_app_or in Hc. destruct Hc as [Hc | Hc].
    { cbn in Hc. repeat (destruct Hc as [<- | Hc]; [vm_compute; repeat split; discriminate|]). destruct Hc. }
    apply in_app_or in Hc. destruct Hc as [[<- | []] | Hc]; [vm_compute; repeat split; discriminate|].
    apply in_app_or in Hc. destruct Hc as [Hc | Hc].
    { apply print_N_digits in Hc. unfold is_scalar. lia. }
    apply in_app_or in Hc. destruct Hc as [[<- | []] | Hc]; [vm_compute; repeat split; discriminate|].
    split; [unfold is_str in T; rewrite forallb_forall in T; auto|]. apply R in Hc. unfold is_ascii_control in Hc. lia. }
  split; [split|split].
  - unfold status_line. discriminate.
  - intros Hc. apply X in Hc. tauto.
  - intros Hc. apply X in Hc. tauto.
  - apply forallb_forall. intros c Hc. now apply X.
Qed.
Lemma parse_serialized_response : forall (strict : bool) r, status_new (p_code r) (p_reason r) = Some (p_code r, p_reason r) ->
  p_reason r <> [] -> trim (p_reason r) = p_reason r -> is_str (p_reason r) = true -> Forall fit (p_headers r) ->
  llen (serialize_response r) <= DEFAULT_MAX_MESSAGE_SIZE ->
  parse_response_by (if strict then extract_body_strict else extract_body) (serialize_response r) =
  if (llen (response_headers r) <=? 200) && singletons_unique (got_response r) && response_cseq_ok (got_response r)
  then Some (mkResp (p_code r) (p_reason r) (got_response r) (p_body r)) else None.
Proof.
  intros strict q Hs Hn Ht Hr Hh Hl. unfold parse_response_by. replace (DEFAULT_MAX_MESSAGE_SIZE <? llen (serialize_response q)) with false by lia.
  assert (B : llen (p_body q) <= 65536).
  { pose proof (llen_body_le (utf8 (flat_map ends (status_line (p_code q) (p_reason q) :: map hline (response_headers q)) ++ CRLF)) (p_body q)) as X.
    rewrite <- serialize_response_lines in X. unfold DEFAULT_MAX_MESSAGE_SIZE in Hl. lia. }
  assert (F : Forall fit (response_headers q)) by (apply fit_response; [exact Hh|unfold MAX_BODY_SIZE; lia]).
  rewrite serialize_response_lines. pose proof (status_line_text _ _ Hs Hr) as (L1 & _ & L3). set (RL := status_line (p_code q) (p_reason q)) in *.
  rewrite head_body; [|discriminate| |].
  2:{ constructor; [exact L1|]. apply Forall_forall. intros x Hx. apply in_map_iff in Hx. destruct Hx as (h & <- & Hx). rewrite Forall_forall in F. now apply fit_line, F. }
  2:{ intros x [<- | Hx]; [exact L3|]. apply in_map_iff in Hx. destruct Hx as (h & <- & Hx). rewrite Forall_forall in F. now apply fit_line, F. }
  rewrite crlf_join; [|discriminate|].
  2:{ intros x [<- | Hx]; [apply L1|]. apply in_map_iff in Hx. destruct Hx as (h & <- & Hx). rewrite Forall_forall in F. now apply fit_line, F. }
  pose proof (status_line_read _ _ Hs Hn Ht) as [Te P]. fold RL in P, Te.
  rewrite Te. destruct RL as [|c rl]; [destruct L1; congruence|]. rewrite P.
  rewrite fit_parse by exact F. destruct (llen (response_headers q) <=? 200); [|reflexivity]. fold (got_response q). cbn [andb].
  destruct (singletons_unique (got_response q)); [|reflexivity]. destruct (response_cseq_ok (got_response q)); [|reflexivity]. cbn [negb andb].
  replace ((if strict then extract_body_strict else extract_body) (p_body q) (got_response q)) with (Some (p_body q)).
  - unfold response_new. replace (MAX_BODY_SIZE <? llen (p_body q)) with false by (unfold MAX_BODY_SIZE; lia). reflexivity.
  - symmetry. destruct strict; [apply body_strict|apply body_lenient]; try apply got_response_length; unfold MAX_CONTENT_LENGTH; lia.
Qed.

(** ** The rules the parser enforces, and their specifications *)
Lemma singletons_spec : forall hs, singletons_unique hs = true <-> no_repeats hs.
Proof.
  intros hs. unfold singletons_unique, no_repeats, SINGLETON_HEADERS. rewrite forallb_forall. split; intros H n Hn.
  - apply N.leb_le. apply H. change (In (lit n) (map lit once_each)). now apply in_map.
  - change (In n (map lit once_each)) in Hn. apply in_map_iff in Hn. destruct Hn as (x & <- & Hx). apply N.leb_le. now apply H.
Qed.
Lemma parse_cseq_spec : forall v n m, parse_cseq v = Some (n, m) <-> cseq_value v n m.
Proof.
  intros v n m. unfold parse_cseq, cseq_value. split.
  - destruct (split_ws v) as [|d [|t [|? ?]]] eqn:E; try discriminate. destruct (all_digits d) eqn:A; [|discriminate]. cbn [negb].
    destruct (parse_uint u64_max d) as [k|] eqn:P; [|discriminate]. destruct ((k =? 0) || (MAX_CSEQ_NUMBER <? k)) eqn:R; [discriminate|].
    intros X. injection X as <- <-. exists d. split; [reflexivity|]. split; [exact A|]. unfold MAX_CSEQ_NUMBER in R.
    assert (digits_value d = k); [|lia]. unfold parse_uint in P. destruct d as [|c d]; [discriminate|].
    assert (c =? 43 = false) by (cbn in A; apply andb_true_iff in A; destruct A as [A _]; unfold is_digit, in_range in A; lia). 
    rewrite H in P. rewrite A in P. destruct (_ <=? _); [|discriminate]. injection P as <-. reflexivity.
  - intros (d & -> & A & V & R). change (forallb is_digit d) with (all_digits d) in A. rewrite A. cbn [negb].
    assert (P : parse_uint u64_max d = Some n).
    { unfold parse_uint. destruct d as [|c d]; [cbn in V; lia|].
      assert (c =? 43 = false) by (cbn in A; apply andb_true_iff in A; destruct A as [X _]; unfold is_digit, in_range in X; lia).
      rewrite H, A, V. replace (n <=? u64_max) with true by (unfold u64_max; lia). reflexivity. }
    rewrite P. replace ((n =? 0) || (MAX_CSEQ_NUMBER <? n)) with false by (unfold MAX_CSEQ_NUMBER; lia). reflexivity.
Qed.
Lemma cseq_spec : forall hs m, cseq_matches hs m = true <-> cseq_of hs m.
Proof.
  intros hs m. unfold cseq_matches, cseq_of. destruct (hget (lit "CSeq") hs) as [v|]; [|split; [intros _ v X; discriminate|reflexivity]]. split.
  - intros H v' X. injection X as <-. destruct (parse_cseq v) as [[n t]|] eqn:P; [|discriminate]. apply parse_cseq_spec in P. exists n, t. split; [exact P|]. apply eq_ic_spec in H. now symmetry.
  - intros H. destruct (H v eq_refl) as (n & t & P & E). apply parse_cseq_spec in P. rewrite P. apply eq_ic_spec. now symmetry.
Qed.
Lemma response_cseq_spec : forall hs, response_cseq_ok hs = true <-> cseq_in_range hs.
Proof.
  intros hs. unfold response_cseq_ok, cseq_in_range. destruct (hget (lit "CSeq") hs) as [v|]; [|split; [intros _ v X; discriminate|reflexivity]]. split.
  - intros H v' X. injection X as <-. destruct (parse_cseq v) as [[n t]|] eqn:P; [|discriminate]. apply parse_cseq_spec in P. eauto.
  - intros H. destruct (H v eq_refl) as (n & t & P). apply parse_cseq_spec in P. now rewrite P.
Qed.
Lemma branch_ok : forall b, rfc3261_branch b -> valid_branch b = true.
Proof.
  intros b (R & (r & E) & C). unfold valid_branch. replace (8 <=? blen b) with true by lia. replace (blen b <=? 256) with true by lia.
  assert (S : starts_with (lit "z9hG4bK") b = true) by (rewrite E; apply starts_with_app). rewrite S. cbn [andb].
  assert (K : forallb uri_token_char b = true).
  { apply forallb_forall. intros c Hc. unfold uri_token_char. destruct (C c Hc) as [X | X]; [now rewrite X|]. apply orb_true_iff. right. apply existsb_exists. exists c. split; [exact X|apply N.eqb_refl]. }
  rewrite K, andb_true_r. apply negb_true_iff, existsb_false. revert K. apply forallb_impl. intros c Hc. apply tokc_facts in Hc.
  unfold is_ascii_control. apply negb_true_iff. unfold is_control, in_range in Hc. lia.
Qed.
Lemma find_map_in : forall A B (f : A -> option B) l b, find_map f l = Some b -> exists a, In a l /\ f a = Some b.
Proof. induction l as [|a l IH]; intros b H; [discriminate|]. cbn in H. destruct (f a) as [b'|] eqn:E; [injection H as <-; exists a; split; [now left|exact E]|]. destruct (IH b H) as (x & Hx & E'). exists x. split; [now right|exact E']. Qed.
Lemma top_branch_spec : forall hs, top_branch_ok hs -> via_branch_ok hs = true.
Proof.
  intros hs H. unfold via_branch_ok. destruct (hget (lit "Via") hs) as [v|] eqn:E; [|reflexivity]. destruct (via_branch v) as [b|] eqn:B; [|reflexivity].
  unfold via_branch in B. apply find_map_in in B. destruct B as (p & Hp & S). apply in_map_iff in Hp. destruct Hp as (p0 & <- & Hp). apply strip_prefix_some in S.
  apply branch_ok. exact (H v p0 b E Hp S).
Qed.

(** ** What accepted bytes look like *)
Lemma find_first : forall p s a b, find_sub p s = Some (a, b) -> forall a' b', s = a' ++ p ++ b' -> (List.length a <= List.length a')%nat.
Proof.
  induction s as [|c s IH]; intros a b H a' b' E.
  - destruct p; cbn in H; [injection H as <- <-; cbn; lia|discriminate].
  - cbn [find_sub] in H. destruct (strip_prefix p (c :: s)) as [r|] eqn:S; [injection H as <- <-; cbn; lia|].
    destruct (find_sub p s) as [[x y]|] eqn:F; [|discriminate]. injection H as <- <-. destruct a' as [|c' a'].
    + cbn [app] in E. rewrite E, strip_prefix_app in S. discriminate.
    + cbn [app] in E. injection E as <- E. cbn [List.length]. specialize (IH x y eq_refl a' b' E). lia.
Qed.
Lemma crlf_parts : forall n s, (List.length s <= n)%nat -> join CRLF (split_crlf s) = s /\ split_crlf s <> [] /\ forall x, In x (split_crlf s) -> forall a b, x <> a ++ CRLF ++ b.
Proof.
  induction n as [|n IH]; intros s Hs.
  { destruct s; [|cbn in Hs; lia]. split; [reflexivity|split; [discriminate|]]. intros x [<- | []] a b E. destruct a; discriminate. }
  destruct s as [|c r]; [apply (IH []); cbn; lia|]. cbn [List.length] in Hs. cbn [split_crlf].
  destruct (IH r ltac:(lia)) as (J & Ne & P). destruct r as [|d r'].
  - cbn. split; [reflexivity|split; [discriminate|]]. intros x [<- | []] a b E. destruct a as [|? [|? ?]]; discriminate.
  - destruct ((c =? 13) && (d =? 10)) eqn:E.
    + assert (c = 13 /\ d = 10) as [-> ->] by lia. cbn [List.length] in Hs. destruct (IH r' ltac:(lia)) as (J' & Ne' & P').
      split; [|split; [discriminate|]].
      * destruct (split_crlf r') as [|y ys] eqn:Y; [congruence|]. change (join CRLF ([] :: y :: ys)) with (CRLF ++ join CRLF (y :: ys)). rewrite J'. reflexivity.
      * intros x [<- | Hx]; [intros a b X; destruct a; discriminate|auto].
    + destruct (split_crlf (d :: r')) as [|h t] eqn:Y; [congruence|]. split; [|split; [discriminate|]].
      * destruct t as [|t1 t]; cbn in J |- *; now rewrite J.
      * intros x [<- | Hx]; [|apply P; now right]. intros a b X. destruct a as [|a0 a].
        -- cbn in X. injection X as -> X. assert (d = 10).
           { destruct t as [|t1 t]; cbn in J; rewrite X in J; injection J as <- _; reflexivity. }
           subst d. discriminate.
        -- injection X as _ X. apply (P h (or_introl eq_refl) a b X).
Qed.
Lemma lines_read : forall lines acc hs, parse_headers_from acc lines = Some hs -> (good_headers acc) ->
  good_headers hs /\ exists new, hs = acc ++ new
  /\ Forall2 (fun l h => exists n v, l = n ++ 58 :: v /\ ~ In 58 n /\ h = (canonical_name (trim n), trim v)) (filter (fun l => negb (str_eqb l [])) lines) new.
Proof.
  induction lines as [|l lines IH]; intros acc hs H G; cbn [parse_headers_from] in H.
  - injection H as <-. split; [exact G|]. exists []. rewrite app_nil_r. split; [reflexivity|constructor].
  - destruct l as [|c l]; [apply IH in H; [|exact G]; exact H|].
    destruct ((c =? 32) || (c =? 9)); [discriminate|]. destruct (split_once 58 (c :: l)) as [[n v]|] eqn:S; [|discriminate].
    destruct (hpush acc (canonical_name (trim n)) (trim v)) as [acc'|] eqn:P; [|discriminate].
    pose proof (hpush_good _ _ _ _ G P) as [G' E']. apply IH in H; [|exact G']. destruct H as (Gh & new & -> & F). split; [exact Gh|].
    exists ((canonical_name (trim n), trim v) :: new). rewrite E', <- app_assoc. split; [reflexivity|].
    cbn [filter]. constructor; [|exact F]. apply split_once_some in S. destruct S as [S1 S2]. exists n, v. repeat split; [exact S1|now apply mem_false].
Qed.
Lemma request_inv : forall bo max d q, parse_request_by bo max d = Some q ->
  llen d <= max /\ exists head rest start lines,
    split_head_body d = Some (head, rest) /\ split_crlf head = start :: lines
    /\ parse_request_line (trim start) = Some (q_method q, q_uri q) /\ parse_headers lines = Some (q_headers q)
    /\ singletons_unique (q_headers q) = true /\ via_branch_ok (q_headers q) = true /\ cseq_matches (q_headers q) (q_method q) = true
    /\ bo rest (q_headers q) = Some (q_body q) /\ llen (q_body q) <= MAX_BODY_SIZE.
Proof.
  intros bo max d q H. unfold parse_request_by in H. destruct (max <? llen d) eqn:L; [discriminate|]. split; [lia|].
  destruct (split_head_body d) as [[head rest]|]; [|discriminate]. destruct (split_crlf head) as [|start lines] eqn:S; [discriminate|].
  exists head, rest, start, lines. destruct (trim start) as [|c t] eqn:T; [discriminate|]. 
  destruct (parse_request_line (c :: t)) as [[m u]|] eqn:P; [|discriminate]. destruct (parse_headers lines) as [hs|] eqn:PH; [|discriminate].
  destruct (singletons_unique hs) eqn:U; [|discriminate]. destruct (via_branch_ok hs) eqn:V; [|discriminate]. cbn [negb] in H.
  destruct (bo rest hs) as [b|] eqn:B; [|discriminate]. destruct (cseq_matches hs m) eqn:C; [|discriminate].
  unfold request_new in H. destruct (MAX_BODY_SIZE <? llen b) eqn:LB; [discriminate|]. injection H as <-. cbn [q_method q_uri q_headers q_body]. repeat split; auto. lia.
Qed.
Lemma response_inv : forall bo d r, parse_response_by bo d = Some r ->
  llen d <= DEFAULT_MAX_MESSAGE_SIZE /\ exists head rest start lines,
    split_head_body d = Some (head, rest) /\ split_crlf head = start :: lines
    /\ parse_status_line (trim start) = Some (p_code r, p_reason r) /\ parse_headers lines = Some (p_headers r)
    /\ singletons_unique (p_headers r) = true /\ response_cseq_ok (p_headers r) = true
    /\ bo rest (p_headers r) = Some (p_body r) /\ llen (p_body r) <= MAX_BODY_SIZE.
Proof.
  intros bo d q H. unfold parse_response_by in H. destruct (_ <? llen d) eqn:L; [discriminate|]. split; [lia|].
  destruct (split_head_body d) as [[head rest]|]; [|discriminate]. destruct (split_crlf head) as [|start lines] eqn:S; [discriminate|].
  exists head, rest, start, lines. destruct (trim start) as [|c t] eqn:T; [discriminate|]. 
  destruct (parse_status_line (c :: t)) as [[m u]|] eqn:P; [|discriminate]. destruct (parse_headers lines) as [hs|] eqn:PH; [|discriminate].
  destruct (singletons_unique hs) eqn:U; [|discriminate]. destruct (response_cseq_ok hs) eqn:V; [|discriminate]. cbn [negb] in H.
  destruct (bo rest hs) as [b|] eqn:B; [|discriminate].
  unfold response_new in H. destruct (MAX_BODY_SIZE <? llen b) eqn:LB; [discriminate|]. injection H as <-. cbn [p_code p_reason p_headers p_body]. repeat split; auto. lia.
Qed.
Lemma framed_of : forall d head rest, split_head_body d = Some (head, rest) -> framed d head rest /\ is_str head = true.
Proof.
  intros d head rest H. unfold split_head_body in H. destruct (find_sub [13; 10; 13; 10] d) as [[a b]|] eqn:F.
  - destruct (from_utf8 a) as [s|] eqn:U; [|discriminate]. injection H as <- <-. apply from_utf8_inv in U. destruct U as [-> S]. split; [|exact S]. left.
    split; [now apply find_sub_some in F|]. intros a' b' E. pose proof (find_first _ _ _ _ F a' b' E). unfold llen. lia.
  - destruct (from_utf8 d) as [s|] eqn:U; [|discriminate]. injection H as <- <-. apply from_utf8_inv in U. destruct U as [-> S]. split; [|exact S]. right.
    split; [reflexivity|]. split; [reflexivity|]. apply find_sub_none. exact F.
Qed.
Lemma lines_of_split : forall head start lines, split_crlf head = start :: lines -> lines_of head (start :: lines).
Proof.
  intros head start lines H. destruct (crlf_parts (List.length head) head (le_n _)) as (J & Ne & P). rewrite H in *. split; [now symmetry|]. split; [exact Ne|]. intros x a b Hx. now apply P.
Qed.
Lemma empty_good : good_headers [].
Proof. split; [constructor|]. rewrite llen_nil. lia. Qed.
Lemma read_headers : forall lines hs, parse_headers lines = Some hs -> good_headers hs /\
  Forall2 (fun l h => exists n v, l = n ++ 58 :: v /\ ~ In 58 n /\ h = (canonical_name (trim n), trim v)) (filter nonempty lines) hs.
Proof.
  intros lines hs H. destruct (lines_read lines [] hs H empty_good) as (G & new & -> & F). split; [exact G|]. cbn [app].
  replace (filter nonempty lines) with (filter (fun l => negb (str_eqb l [])) lines); [exact F|]. apply filter_ext. intros [|c l]; reflexivity.
Qed.
Lemma header_lines : forall lines hs, parse_headers lines = Some hs -> Forall2 header_line (filter nonempty lines) hs.
Proof.
  intros lines hs H. apply read_headers in H. destruct H as [_ H]. induction H as [|l h ls hs (n & v & E & N & ->) F IH]; constructor; [|exact IH].
  exists n, v. split; [exact E|]. split; [exact N|]. split; [apply canonical_means|reflexivity].
Qed.
Lemma parse_uint_reads : forall mx v n, parse_uint mx (trim v) = Some n -> reads_as v n.
Proof.
  intros mx v n H. unfold parse_uint in H. destruct (trim v) as [|c r] eqn:T; [discriminate|].
  unfold reads_as. rewrite T. destruct (c =? 43) eqn:E.
  - assert (c = 43) by lia. subst c. destruct r as [|d0 ds]; [discriminate|]. destruct (all_digits (d0 :: ds)) eqn:A; [|discriminate]. destruct (_ <=? _); [|discriminate]. injection H as <-.
    exists (d0 :: ds). split; [now right|]. split; [discriminate|]. split; [exact A|reflexivity].
  - destruct (all_digits (c :: r)) eqn:A; [|discriminate]. destruct (_ <=? _); [|discriminate]. injection H as <-.
    exists (c :: r). split; [now left|]. split; [discriminate|]. split; [exact A|reflexivity].
Qed.
Lemma strict_agrees : forall vs first m, strict_length first vs = Some (Some m) ->
  (forall x, first = Some x -> x = m) /\ forall v, In v vs -> reads_as v m.
Proof.
  induction vs as [|v vs IH]; intros first m H; cbn [strict_length] in H.
  - injection H as ->. split; [intros x X; now injection X|intros ? []].
  - unfold parse_cl in H. destruct (parse_uint u64_max (trim v)) as [n|] eqn:P; [|discriminate]. destruct (MAX_CONTENT_LENGTH <? n); [discriminate|].
    assert (X : forall x, first = Some x -> x = n) by (intros x ->; destruct (x =? n) eqn:E; [lia|discriminate]).
    assert (R : strict_length (Some n) vs = Some (Some m)).
    { destruct first as [x|]; [|exact H]. destruct (x =? n) eqn:E; [|discriminate]. now rewrite <- (X x eq_refl). }
    destruct (IH _ _ R) as [A B]. specialize (A n eq_refl). subst n. split; [exact X|]. intros w [<- | Hw]; [now apply (parse_uint_reads u64_max)|auto].
Qed.
Lemma strict_none : forall vs, strict_length None vs = Some None -> vs = [].
Proof.
  intros [|v vs] H; [reflexivity|]. cbn [strict_length] in H. destruct (parse_cl v); try discriminate. exfalso.
  revert H. generalize n. induction vs as [|w vs IH]; intros k H; cbn [strict_length] in H; [discriminate|]. destruct (parse_cl w); try discriminate. destruct (k =? n0); [|discriminate]. eapply IH; exact H.
Qed.
Lemma strict_body : forall rest hs b, extract_body_strict rest hs = Some b -> b = rest /\ length_agrees hs b.
Proof.
  intros rest hs b H. unfold extract_body_strict in H. destruct (strict_length None (hget_all CL hs)) as [[n|]|] eqn:S; [| |discriminate].
  - destruct (n =? llen rest) eqn:E; [|discriminate]. injection H as <-. split; [reflexivity|]. assert (n = llen rest) by lia. subst n.
    split; [intros v Hv; apply (strict_agrees _ _ _ S); exact Hv|]. intros N X. unfold CL in S. rewrite X in S. discriminate.
  - apply strict_none in S. destruct rest; [|discriminate]. injection H as <-. split; [reflexivity|]. unfold CL in S. split; [intros v Hv; rewrite S in Hv; destruct Hv|congruence].
Qed.
Lemma digits_plus : forall ds, forallb is_digit ds = true -> forall r, ds <> 43 :: r.
Proof. intros ds H r ->. cbn [forallb] in H. vm_compute in H. discriminate. Qed.
Lemma reads_parse : forall v n, reads_as v n -> n < 2 ^ 64 -> parse_uint u64_max (trim v) = Some n.
Proof.
  intros v n (ds & E & N & D & V) L. unfold parse_uint. assert (K : match ds with [] => None | _ => if all_digits ds then if digits_value ds <=? u64_max then Some (digits_value ds) else None else None end = Some n).
  { destruct ds as [|d ds]; [congruence|]. replace (all_digits (d :: ds)) with true by (symmetry; exact D). rewrite V. replace (n <=? u64_max) with true by (unfold u64_max; lia). reflexivity. }
  destruct E as [E | E]; rewrite E.
  - destruct ds as [|d ds]; [congruence|]. replace (d =? 43) with false; [exact K|]. symmetry. apply N.eqb_neq. intros ->. now apply (digits_plus _ D ds).
  - cbn [N.eqb Pos.eqb]. exact K.
Qed.
Lemma parse_cl_reads : forall v n, reads_as v n -> n < 2 ^ 64 -> parse_cl v = if MAX_CONTENT_LENGTH <? n then ClOversized else ClOk n.
Proof. intros v n R L. unfold parse_cl. now rewrite (reads_parse v n R L). Qed.
Lemma parse_cl_ok : forall v n, parse_cl v = ClOk n -> reads_as v n /\ n < 2 ^ 64.
Proof.
  intros v n H. unfold parse_cl in H. destruct (parse_uint u64_max (trim v)) as [k|] eqn:P; [|discriminate]. destruct (MAX_CONTENT_LENGTH <? k) eqn:M; [discriminate|]. injection H as ->.
  split; [now apply (parse_uint_reads u64_max)|]. unfold MAX_CONTENT_LENGTH in M. lia.
Qed.
Lemma common_spec : forall vs first o, common_length first vs = Some o ->
  (forall x, first = Some x -> o = Some x)
  /\ (forall v n, In v vs -> reads_as v n -> n < 2 ^ 64 -> o = Some n)
  /\ (forall n, o = Some n -> first = Some n \/ exists v, In v vs /\ reads_as v n /\ n < 2 ^ 64).
Proof.
  induction vs as [|v vs IH]; intros first o H; cbn [common_length] in H.
  - injection H as <-. split; [auto|]. split; [intros ? ? []|auto].
  - destruct (parse_cl v) as [n| |] eqn:P; [| |discriminate].
    + assert (X : exists o', common_length (Some n) vs = Some o' /\ o' = o /\ (forall x, first = Some x -> x = n)).
      { destruct first as [m|]; [|exists o; repeat split; [exact H|discriminate]]. destruct (m =? n) eqn:E; [|discriminate]. apply N.eqb_eq in E. subst m. exists o. repeat split; [exact H|]. intros x X. now injection X. }
      destruct X as (o' & X & -> & Y). destruct (IH _ _ X) as (A & B & C). specialize (A n eq_refl). subst o. pose proof (parse_cl_ok _ _ P) as [R L]. split; [intros x Hx; now rewrite (Y x Hx)|]. split.
      * intros w k [<- | Hw] Rw Lw; [|now apply (B w)]. rewrite (parse_cl_reads _ _ Rw Lw) in P. destruct (_ <? _); [discriminate|]. now injection P as ->.
      * intros k Hk. injection Hk as <-. right. exists v. split; [now left|]. now split.
    + destruct (IH _ _ H) as (A & B & C). split; [exact A|]. split.
      * intros w k [<- | Hw] Rw Lw; [|now apply (B w)]. rewrite (parse_cl_reads _ _ Rw Lw) in P. destruct (_ <? _); discriminate.
      * intros k Hk. destruct (C k Hk) as [C1|(w & C1 & C2)]; [now left|]. right. exists w. split; [now right|exact C2].
Qed.
Lemma lenient_body : forall rest hs b, extract_body rest hs = Some b -> length_taken hs b rest.
Proof.
  intros rest hs b H. unfold extract_body in H.
  assert (D : exists o, common_length None (hget_all CL hs) = Some o /\
     (let n := match o with Some n => n | None => llen rest end in if llen rest <? n then None else Some (firstn (N.to_nat n) rest)) = Some b).
  { destruct (hget_all CL hs) as [|v [|w vs]].
    - exists None. split; [reflexivity|exact H].
    - cbn [common_length]. destruct (parse_cl v) as [n| |]; [exists (Some n)|exists None|discriminate]; (split; [reflexivity|exact H]).
    - destruct (common_length None (v :: w :: vs)) as [[n|]|]; [exists (Some n)|exists None|discriminate]; (split; [reflexivity|exact H]). }
  destruct D as (o & E & D). cbv zeta in D. destruct (common_spec _ _ _ E) as (_ & B & C). unfold CL in *.
  set (n := match o with Some n => n | None => llen rest end) in *. destruct (llen rest <? n) eqn:L; [discriminate|]. injection D as <-.
  assert (Len : llen (firstn (N.to_nat n) rest) = n) by (unfold llen in *; rewrite firstn_length; lia).
  split; [exists (skipn (N.to_nat n) rest); symmetry; apply firstn_skipn|]. split.
  - intros v k Hv R K. rewrite Len. unfold n. now rewrite (B v k Hv R K).
  - intros K. destruct o as [k|].
    + destruct (C k eq_refl) as [X|(v & Hv & R & X)]; [discriminate|]. specialize (K v k Hv R). exfalso. apply N.lt_nge in X. contradiction.
    + unfold n, llen. rewrite Nnat.Nat2N.id. apply firstn_all.
Qed.
(** parts of text *)
Lemma in_join : forall l x c, In x l -> In c x -> In c (join CRLF l).
Proof.
  induction l as [|y l IH]; intros x c Hx Hc; [destruct Hx|]. destruct l as [|z l].
  - destruct Hx as [<- | []]. exact Hc.
  - change (join CRLF (y :: z :: l)) with (y ++ CRLF ++ join CRLF (z :: l)). apply in_or_app. destruct Hx as [<- | Hx]; [now left|].
    right. apply in_or_app. right. now apply (IH x).
Qed.
Lemma line_str : forall head lines, is_str head = true -> lines_of head lines -> forall x, In x lines -> is_str x = true.
Proof. intros head lines S (-> & _) x Hx. revert S. apply is_str_sub. intros c Hc. now apply (in_join lines x). Qed.
Lemma read_text : forall lines hs, parse_headers lines = Some hs -> (forall x, In x lines -> is_str x = true) -> text_headers hs.
Proof.
  intros lines hs H S. apply read_headers in H. destruct H as [_ H]. intros h Hh.
  assert (Q : Forall (fun l => is_str l = true) (filter nonempty lines)) by (apply Forall_forall; intros l Hl; apply filter_In in Hl; now apply S).
  revert Q Hh. induction H as [|l h' ls hs (n & v & E & N & ->) F IH]; intros Q Hh; [destruct Hh|]. inversion Q; subst. destruct Hh as [<- | Hh]; [|auto].
  cbn [snd]. eapply is_str_sub; [|eassumption]. intros c Hc. apply in_or_app. right. right. now apply trim_in.
Qed.
Lemma take1_spec : forall p s a b, take1 p s = Some (a, b) -> s = a ++ b /\ forallb p a = true /\ a <> [].
Proof.
  intros p s a b H. unfold take1 in H. pose proof (span_spec p s) as [E F]. destruct (span p s) as [[|c x] y]; [discriminate|]. injection H as <- <-. cbn [fst snd] in *. split; [exact E|split; [exact F|discriminate]].
Qed.
Lemma any_text_eq : forall t a, parse_any t = Some a -> (forall c, In c t -> is_ws c = false) -> uri_text (to_uri a) = t.
Proof.
  intros t a H W. unfold parse_any in H. destruct (existsb is_control t); [discriminate|]. destruct (starts_with (lit "tel:") t).
  - destruct (tel_parse t) as [u|] eqn:P; [|discriminate]. injection H as <-. cbn. unfold tel_parse in P. destruct (strip_prefix _ _); [|discriminate].
    destruct (negb _); [discriminate|]. destruct (fold_opt _ _ _) as [[? ?]|]; [|discriminate]. destruct (_ && _); [discriminate|]. destruct (_ && _); [discriminate|]. injection P as <-. reflexivity.
  - destruct (_ || _).
    + destruct (parse_uri t) as [u|] eqn:P; [|discriminate]. injection H as <-. cbn. now apply C56_parsed_text in P.
    + destruct (parse_absolute t) as [u|] eqn:P; [|discriminate]. injection H as <-. cbn. unfold parse_absolute in P. destruct (_ <? _); [discriminate|].
      assert (T : trim t = t). { apply trim_edge, no_edge_all, forallb_forall. intros c Hc. now rewrite (W c Hc). }
      rewrite T in P. cbv zeta in P. destruct t as [|c r]; [discriminate|]. destruct (negb _); [discriminate|]. destruct (split_once 58 r) as [[sch rest]|]; [|discriminate].
      destruct (negb _); [discriminate|]. destruct rest; [discriminate|]. destruct (existsb _ _); [discriminate|]. now injection P as <-.
Qed.
Lemma read_request_line : forall l m u, parse_request_line l = Some (m, u) -> is_str l = true -> api_method m /\ plain_uri u.
Proof.
  intros l m u H S. unfold parse_request_line in H. destruct (take1 req_token_char (trim l)) as [[mt r]|] eqn:T1; [|discriminate].
  destruct (take1 blank r) as [[b1 r2]|] eqn:T2; [|discriminate]. destruct (take1 req_uri_char r2) as [[ut r3]|] eqn:T3; [|discriminate].
  destruct (take1 blank r3) as [[b2 r4]|] eqn:T4; [|discriminate]. destruct (eq_ic _ _); [|discriminate].
  destruct (method_from_token mt) as [m'|] eqn:M; [|discriminate]. destruct (parse_any ut) as [a|] eqn:P; [|discriminate]. injection H as <- <-.
  apply take1_spec in T1, T2, T3. destruct T1 as (E1 & _). destruct T2 as (E2 & _). destruct T3 as (E3 & W & _).
  split; [now exists mt|]. assert (Ws : forall c, In c ut -> is_ws c = false).
  { intros c Hc. rewrite forallb_forall in W. apply W in Hc. unfold req_uri_char in Hc. now apply negb_true_iff in Hc. }
  pose proof (any_text_eq _ _ P Ws) as E. unfold plain_uri. rewrite E. split; [|split; [exact Ws|]].
  - revert S. apply is_str_sub. intros c Hc. apply trim_in. rewrite E1, E2, E3. apply in_or_app. right. apply in_or_app. right. apply in_or_app. now left.
  - exists a. split; [exact P|reflexivity].
Qed.
Lemma read_status_line : forall l code reason, parse_status_line l = Some (code, reason) -> is_str l = true ->
  status_new code reason = Some (code, reason) /\ trim reason = reason /\ is_str reason = true.
Proof.
  intros l code reason H S. unfold parse_status_line in H. destruct (eq_ic _ _); [|discriminate].
  destruct (take1 blank _) as [[b1 r]|] eqn:T1; [|discriminate]. destruct (take1 is_digit r) as [[d r2]|] eqn:T2; [|discriminate]. destruct (_ <? _); [discriminate|].
  destruct (take1 blank r2) as [[b2 r3]|] eqn:T3; [|discriminate].
  assert (E : code = digits_value d /\ reason = trim r3).
  { unfold status_new in H. destruct (negb _); [discriminate|]. destruct (_ <? _); [discriminate|]. destruct (existsb _ _); [discriminate|]. injection H as <- <-. auto. }
  destruct E as [-> ->]. split; [exact H|]. split; [apply trim_idem|]. apply take1_spec in T1, T2, T3. destruct T1 as (E1 & _). destruct T2 as (E2 & _). destruct T3 as (E3 & _).
  revert S. apply is_str_sub. intros c Hc. apply trim_in. apply trim_in in Hc.
  rewrite <- (firstn_skipn 7 (trim l)). apply in_or_app. right. rewrite E1, E2, E3. repeat (apply in_or_app; right). exact Hc.
Qed.

(** ** Passing an accepted message on *)
Lemma canonical_idem : forall n, lookup str_eqb (lower (canonical_name n)) canonical_table = None.
Proof.
  intros n. unfold canonical_name. destruct (lookup str_eqb (lower n) canonical_table) as [c|] eqn:E; [|exact E].
  apply (lookup_in _ str_eqb_spec) in E. unfold canonical_table in E. cbn [In] in E.
  repeat (destruct E as [E | E]; [apply (f_equal snd) in E; cbn [snd] in E; subst c; vm_compute; reflexivity|]). destruct E.
Qed.
Definition long_form (h : header) : Prop := lookup str_eqb (lower (fst h)) canonical_table = None /\ trim (snd h) = snd h.
Lemma read_long : forall lines hs, parse_headers lines = Some hs -> Forall long_form hs.
Proof.
  intros lines hs H. apply read_headers in H. destruct H as [_ H]. induction H as [|l h ls hs (n & v & E & N & ->) F IH]; constructor; [|exact IH].
  split; cbn [fst snd]; [apply canonical_idem|apply trim_idem].
Qed.
Definition rewire (h : header) : header := (wire_name (fst h), snd h).
Lemma got_long : forall q, Forall long_form (q_headers q) ->
  got_request q = map rewire (kept (q_headers q)) ++ hops (q_headers q) ++ [length_of (q_body q)].
Proof.
  intros q F. unfold got_request, request_headers. rewrite !map_app, map_map. f_equal.
  - apply map_ext_in. intros h Hh. apply filter_In in Hh. destruct Hh as [Hh _]. rewrite Forall_forall in F. destruct (F h Hh) as [A B].
    unfold seen, rewire, canonical_name. cbn [fst snd]. rewrite wire_lower, A, B, B. reflexivity.
  - f_equal; [unfold hops; destruct (hcontains _ _); reflexivity|]. cbn [map]. now rewrite seen_length.
Qed.
Lemma got_response_long : forall r, Forall long_form (p_headers r) -> got_response r = kept (p_headers r) ++ [length_of (p_body r)].
Proof.
  intros r F. unfold got_response, response_headers. rewrite map_app. f_equal; [|cbn [map]; now rewrite seen_length].
  rewrite <- (map_id (kept (p_headers r))) at 2. apply map_ext_in. intros h Hh. apply filter_In in Hh. destruct Hh as [Hh _]. rewrite Forall_forall in F. destruct (F h Hh) as [A B].
  unfold seen, canonical_name. rewrite A, B. now destruct h.
Qed.
Lemma hget_hd : forall n hs, hget n hs = hd_error (hget_all n hs).
Proof.
  intros n hs. unfold hget, hget_all. induction hs as [|h hs IH]; [reflexivity|]. cbn [find filter]. destruct (name_eq h n); [reflexivity|exact IH].
Qed.
Lemma hget_all_app : forall n a b, hget_all n (a ++ b) = hget_all n a ++ hget_all n b.
Proof. intros. unfold hget_all. now rewrite filter_app, map_app. Qed.
Definition not_cl (n : str) : Prop := eq_ic n CL = false /\ eq_ic n (lit "l") = false.
Lemma hget_all_kept : forall n hs, not_cl n -> hget_all n (kept hs) = hget_all n hs.
Proof.
  intros n hs [A B]. unfold hget_all, kept. induction hs as [|h hs IH]; [reflexivity|]. cbn [filter].
  destruct (length_header h) eqn:L; cbn [negb filter].
  - rewrite IH. destruct (name_eq h n) eqn:E; [|reflexivity]. exfalso. unfold name_eq in E. apply eq_ic_spec in E. unfold length_header in L. unfold eq_ic, CL in *. rewrite E in L. rewrite A, B in L. discriminate.
  - destruct (name_eq h n); cbn [map]; now rewrite IH.
Qed.
Lemma hget_all_rewire : forall n hs, hget_all n (map rewire hs) = hget_all n hs.
Proof.
  intros n hs. unfold hget_all. induction hs as [|h hs IH]; [reflexivity|]. cbn [map filter].
  replace (name_eq (rewire h) n) with (name_eq h n) by (unfold name_eq, rewire, eq_ic; cbn [fst]; now rewrite wire_lower).
  destruct (name_eq h n); cbn [map]; now rewrite IH.
Qed.
Lemma got_same : forall q n, Forall long_form (q_headers q) -> not_cl n -> eq_ic (lit "Max-Forwards") n = false ->
  hget_all n (got_request q) = hget_all n (q_headers q).
Proof.
  intros q n F [A B] M. rewrite got_long by exact F. rewrite !hget_all_app, hget_all_rewire, hget_all_kept by now split.
  replace (hget_all n (hops (q_headers q))) with (@nil str).
  - replace (hget_all n [length_of (q_body q)]) with (@nil str); [now rewrite !app_nil_r|]. unfold hget_all, length_of, name_eq. cbn [filter fst]. rewrite eq_ic_sym. unfold CL in A. now rewrite A.
  - unfold hops. destruct (hcontains _ _); [reflexivity|]. unfold hget_all, name_eq. cbn [filter fst]. now rewrite M.
Qed.
Lemma got_hops : forall q, Forall long_form (q_headers q) ->
  hget_all (lit "Max-Forwards") (got_request q) = match hget_all (lit "Max-Forwards") (q_headers q) with [] => [lit "70"] | l => l end.
Proof.
  intros q F. rewrite got_long by exact F. rewrite !hget_all_app, hget_all_rewire, hget_all_kept by now split.
  change (hget_all (lit "Max-Forwards") [length_of (q_body q)]) with (@nil str). rewrite app_nil_r. unfold hops.
  assert (E : hcontains (lit "Max-Forwards") (q_headers q) = match hget_all (lit "Max-Forwards") (q_headers q) with [] => false | _ => true end).
  { unfold hcontains, hget_all. induction (q_headers q) as [|h hs IH]; [reflexivity|]. cbn [existsb filter]. inversion F; subst. destruct (name_eq h _); [reflexivity|]. now apply IH. }
  rewrite E. destruct (hget_all (lit "Max-Forwards") (q_headers q)); [reflexivity|]. cbn. now rewrite app_nil_r.
Qed.
Lemma relay_ok : forall q, Forall long_form (q_headers q) ->
  singletons_unique (q_headers q) = true -> via_branch_ok (q_headers q) = true -> cseq_matches (q_headers q) (q_method q) = true ->
  singletons_unique (got_request q) = true /\ via_branch_ok (got_request q) = true /\ cseq_matches (got_request q) (q_method q) = true.
Proof.
  intros q F A B C. split; [|split].
  - apply singletons_spec. apply singletons_spec in A. intros n Hn. specialize (A n Hn). cbn in Hn.
    destruct Hn as [<- | [<- | [<- | [<- | [<- | []]]]]]; try (rewrite got_same; [exact A|exact F|split; reflexivity|reflexivity]).
    rewrite got_hops by exact F. destruct (hget_all (lit "Max-Forwards") (q_headers q)); [vm_compute; discriminate|exact A].
  - unfold via_branch_ok in *. rewrite hget_hd in *. now rewrite got_same by (try exact F; try split; reflexivity).
  - unfold cseq_matches in *. rewrite hget_hd in *. now rewrite got_same by (try exact F; try split; reflexivity).
Qed.
Lemma relay_response_ok : forall r, Forall long_form (p_headers r) ->
  singletons_unique (p_headers r) = true -> response_cseq_ok (p_headers r) = true ->
  singletons_unique (got_response r) = true /\ response_cseq_ok (got_response r) = true.
Proof.
  intros r F A B. assert (G : forall n, not_cl n -> hget_all n (got_response r) = hget_all n (p_headers r)).
  { intros n [X Y]. rewrite got_response_long by exact F. rewrite hget_all_app, hget_all_kept by now split.
    replace (hget_all n [length_of (p_body r)]) with (@nil str); [now rewrite app_nil_r|]. unfold hget_all, length_of, name_eq. cbn [filter fst]. rewrite eq_ic_sym. unfold CL in X. now rewrite X. }
  split.
  - apply singletons_spec. apply singletons_spec in A. intros n Hn. specialize (A n Hn). cbn in Hn.
    destruct Hn as [<- | [<- | [<- | [<- | [<- | []]]]]]; (rewrite G; [exact A|split; reflexivity]).
  - unfold response_cseq_ok in *. rewrite hget_hd in *. now rewrite G by (split; reflexivity).
Qed.
(** a status line that was read has a reason phrase: the line was trimmed *)
Lemma last_ws : forall a b, no_edge is_ws (a ++ b) -> b <> [] -> forallb is_ws b = false.
Proof.
  intros a b [_ E] Nb. destruct (forallb is_ws b) eqn:F; [|reflexivity]. rewrite rev_app_distr in E. destruct (rev b) as [|c r] eqn:R.
  - apply (f_equal (@rev N)) in R. rewrite rev_involutive in R. cbn in R. congruence.
  - cbn [app] in E. rewrite forallb_forall in F. rewrite F in E; [discriminate|]. apply in_rev. rewrite R. now left.
Qed.
Lemma trim_nil : forall s, trim s = [] -> forallb is_ws s = true.
Proof.
  intros s H. destruct (trim_by_sub is_ws s) as (a & b & E & A & B). fold (trim s) in E. rewrite H in E. cbn [app] in E. rewrite E, forallb_app, A, B. reflexivity.
Qed.
Lemma read_status_reason : forall l code reason, parse_status_line l = Some (code, reason) -> reason <> [].
Proof.
  intros l code reason H X. subst reason. unfold parse_status_line in H. destruct (eq_ic _ _); [|discriminate].
  destruct (take1 blank _) as [[b1 r]|] eqn:T1; [|discriminate]. destruct (take1 is_digit r) as [[d r2]|] eqn:T2; [|discriminate]. destruct (_ <? _); [discriminate|].
  destruct (take1 blank r2) as [[b2 r3]|] eqn:T3; [|discriminate].
  assert (E : trim r3 = []).
  { unfold status_new in H. destruct (negb _); [discriminate|]. destruct (_ <? _); [discriminate|]. destruct (existsb _ _); [discriminate|]. now injection H as _ <-. }
  apply trim_nil in E. apply take1_spec in T1, T2, T3. destruct T1 as (E1 & _). destruct T2 as (E2 & _). destruct T3 as (E3 & W & N).
  pose proof (trim_by_no_edge is_ws l) as Ed. fold (trim l) in Ed. rewrite <- (firstn_skipn 7 (trim l)), E1, E2, !app_assoc, <- (app_assoc _ d) in Ed.
  assert (F : forallb is_ws r2 = false).
  { apply (last_ws ((firstn 7 (trim l) ++ b1) ++ d)); [now rewrite <- app_assoc|]. rewrite E3. destruct b2; [congruence|discriminate]. }
  rewrite E3, forallb_app, E, andb_true_r in F. assert (Z : forallb is_ws b2 = true); [|congruence].
  revert W. apply forallb_impl. intros c Hc. unfold blank in Hc. assert (c = 32 \/ c = 9) as [-> | ->] by lia; reflexivity.
Qed.
(** a parsed request meets what [parse_serialized] asks for *)
Lemma parsed_request : forall bo max d q, parse_request_by bo max d = Some q ->
  api_method (q_method q) /\ plain_uri (q_uri q) /\ good_headers (q_headers q) /\ text_headers (q_headers q) /\ Forall long_form (q_headers q).
Proof.
  intros bo max d q H. apply request_inv in H. destruct H as (_ & head & rest & start & lines & E1 & E2 & E3 & E4 & _).
  apply framed_of in E1. destruct E1 as [_ S]. apply lines_of_split in E2. pose proof (line_str _ _ S E2) as L.
  destruct (read_request_line _ _ _ E3) as [A B]; [apply (is_str_sub _ start); [intros c; apply trim_in|apply L; now left]|].
  split; [exact A|]. split; [exact B|]. split; [exact (proj1 (read_headers _ _ E4))|]. split; [apply (read_text _ _ E4); intros x Hx; apply L; now right|].
  now apply (read_long lines).
Qed.
Lemma parsed_response : forall bo d r, parse_response_by bo d = Some r ->
  status_new (p_code r) (p_reason r) = Some (p_code r, p_reason r) /\ trim (p_reason r) = p_reason r /\ is_str (p_reason r) = true
  /\ p_reason r <> [] /\ good_headers (p_headers r) /\ text_headers (p_headers r) /\ Forall long_form (p_headers r).
Proof.
  intros bo d r H. apply response_inv in H. destruct H as (_ & head & rest & start & lines & E1 & E2 & E3 & E4 & _).
  apply framed_of in E1. destruct E1 as [_ S]. apply lines_of_split in E2. pose proof (line_str _ _ S E2) as L.
  destruct (read_status_line _ _ _ E3) as (A & B & C); [apply (is_str_sub _ start); [intros c; apply trim_in|apply L; now left]|].
  split; [exact A|]. split; [exact B|]. split; [exact C|]. split; [exact (read_status_reason _ _ _ E3)|]. split; [exact (proj1 (read_headers _ _ E4))|]. split; [apply (read_text _ _ E4); intros x Hx; apply L; now right|].
  now apply (read_long lines).
Qed.
Lemma arrived_got : forall q, arrived_request q (mkReq (q_method q) (q_uri q) (got_request q) (q_body q)).
Proof.
  intros q. split; [reflexivity|]. split; [reflexivity|]. split; [reflexivity|]. destruct (got_request_spec q) as (front & F & E). exists front. split; [exact F|exact E].
Qed.
Lemma arrived_got_response : forall r, arrived_response r (mkResp (p_code r) (p_reason r) (got_response r) (p_body r)).
Proof.
  intros q. split; [reflexivity|]. split; [reflexivity|]. split; [reflexivity|]. destruct (got_response_spec q) as (front & F & E). exists front. split; [exact F|exact E].
Qed.
Lemma llen_got : forall q, llen (got_request q) = llen (request_headers q).
Proof. intros. unfold got_request, llen. now rewrite map_length. Qed.
Lemma llen_got_response : forall r, llen (got_response r) = llen (response_headers r).
Proof. intros. unfold got_response, llen. now rewrite map_length. Qed.
(** writing the received request again gives the same bytes *)
Lemma wire_idem : forall n, wire_name (wire_name n) = wire_name n.
Proof.
  intros n. unfold wire_name. destruct (eq_ic n (lit "Via")) eqn:A; [reflexivity|]. destruct (eq_ic n (lit "Contact")) eqn:B; [reflexivity|].
  destruct (eq_ic n (lit "Route")) eqn:C; [reflexivity|]. destruct (eq_ic n (lit "Record-Route")) eqn:D; [reflexivity|]. now rewrite A, B, C, D.
Qed.
Lemma kept_app : forall a b, kept (a ++ b) = kept a ++ kept b.
Proof. intros. unfold kept. apply filter_app. Qed.
Lemma kept_kept : forall hs, kept (map rewire (kept hs)) = map rewire (kept hs).
Proof.
  induction hs as [|h hs IH]; [reflexivity|]. unfold kept in *. cbn [filter]. destruct (length_header h) eqn:L; cbn [negb]; [exact IH|]. cbn [map filter].
  assert (R : length_header (rewire h) = false). { unfold length_header, rewire, eq_ic in *. cbn [fst]. rewrite wire_lower. exact L. }
  rewrite R. cbn [negb]. now rewrite IH.
Qed.
Lemma rewrite_same : forall q, Forall long_form (q_headers q) ->
  serialize_request (mkReq (q_method q) (q_uri q) (got_request q) (q_body q)) = serialize_request q.
Proof.
  intros q F. rewrite !serialize_request_lines. cbn [q_method q_uri q_body]. f_equal. f_equal. f_equal. f_equal. f_equal. f_equal.
  unfold request_headers. cbn [q_headers q_body].
  assert (H : hops (got_request q) = []).
  { unfold hops. replace (hcontains (lit "Max-Forwards") (got_request q)) with true; [reflexivity|]. symmetry. destruct (hcontains (lit "Max-Forwards") (got_request q)) eqn:E; [reflexivity|].
    apply hget_none in E. rewrite hget_hd, got_hops in E by exact F. destruct (hget_all _ _); discriminate. }
  rewrite H. cbn [app]. rewrite app_assoc. f_equal. rewrite got_long by exact F. rewrite !kept_app, kept_kept.
  replace (kept [length_of (q_body q)]) with (@nil header) by reflexivity. rewrite app_nil_r, map_app, map_map. f_equal.
  - apply map_ext_in. intros h Hh. apply filter_In in Hh. destruct Hh as [Hh _]. rewrite Forall_forall in F. destruct (F h Hh) as [_ B].
    unfold rewire. cbn [fst snd]. now rewrite wire_idem, B.
  - unfold hops. destruct (hcontains _ _); reflexivity.
Qed.
Lemma rewrite_same_response : forall r, Forall long_form (p_headers r) ->
  serialize_response (mkResp (p_code r) (p_reason r) (got_response r) (p_body r)) = serialize_response r.
Proof.
  intros q F. rewrite !serialize_response_lines. cbn [p_code p_reason p_body]. do 6 f_equal.
  unfold response_headers. cbn [p_headers p_body]. f_equal. rewrite got_response_long by exact F. rewrite kept_app.
  replace (kept [length_of (p_body q)]) with (@nil header) by reflexivity. rewrite app_nil_r.
  induction (p_headers q) as [|h hs IH]; [reflexivity|]. inversion F; subst. unfold kept in *. cbn [filter]. destruct (length_header h) eqn:L; cbn [negb]; [now apply IH|]. cbn [filter]. rewrite L. cbn [negb]. f_equal. now apply IH.
Qed.
