(** Property C68: the Call-ID a capture is filed under. *)
From Coq Require Import Arith NArith Bool String List Lia ZifyBool ZifyN ZifyNat.
Import ListNotations.
From Verif Require Import Base BaseFacts Text TextFacts Headers HeadersProofs Method Uri Msg AnyUri Message MessageSpec MessageProofs P_Message Hep HepProofs.
Open Scope N_scope.
Open Scope list_scope.

(** ** Specification *)
(** a header that carries the Call-ID: RFC 3261 section 20.8 and 7.3.3 *)
Definition names_call_id (h : header) : bool := eq_ic (fst h) (lit "Call-ID") || eq_ic (fst h) (lit "i").
(** a value without the blanks around it *)
Definition blank (c : N) : bool := (c =? 32) || (c =? 9).

(** ** Lemmas *)
Lemma no_edge_weaker : forall (p q : N -> bool) s, (forall c, q c = true -> p c = true) -> no_edge p s -> no_edge q s.
Proof.
  intros p q s H [A B]. assert (K : forall c, p c = false -> q c = false) by (intros c X; destruct (q c) eqn:E; [apply H in E; congruence|reflexivity]).
  split; [destruct s as [|c s]; [exact I|now apply K]|destruct (rev s) as [|c t]; [exact I|now apply K]].
Qed.
Lemma trim_end_ext : forall (p q : N -> bool) s, (forall c, In c s -> p c = q c) -> trim_end_by p s = trim_end_by q s.
Proof.
  intros p q s H. induction s as [|c s IH]; [reflexivity|]. cbn [trim_end_by]. rewrite (H c (or_introl eq_refl)), IH; [reflexivity|]. intros d Hd. apply H. now right.
Qed.
Lemma trim_ascii_value : forall v, ~ In 13 v -> trim_ascii (32 :: v) = trim_by blank v.
Proof.
  intros v H. unfold trim_ascii, trim_by, trim_start_by. change (drop_while sp_tab (32 :: v)) with (drop_while blank v).
  apply trim_end_ext. intros c Hc. unfold sp_tab_cr, blank. destruct (c =? 13) eqn:E; [|lia]. apply N.eqb_eq in E. subst c. exfalso. apply H.
  destruct (drop_while_suffix blank v) as (a & E & _). rewrite E. apply in_or_app. now right.
Qed.
Lemma blank_trim : forall v, trim_by blank (trim v) = trim v.
Proof. intros v. apply trim_by_id. apply (no_edge_weaker is_ws); [|apply trim_by_no_edge]. intros c H. unfold blank in H. unfold is_ws, in_range. lia. Qed.
Lemma hline_match : forall h, forallb header_name_char (fst h) = true -> match_call_id (hline h) = if names_call_id h then Some (32 :: snd h) else None.
Proof.
  intros h H. unfold hline. change (lit ": " ++ snd h) with (58 :: 32 :: snd h). rewrite match_header; [reflexivity|]. intros X. rewrite forallb_forall in H. apply H in X. now apply name_char_facts in X.
Qed.
Lemma first_hline : forall hs, (forall h, In h hs -> forallb header_name_char (fst h) = true) ->
  first_match (map hline hs) = option_map (fun h => 32 :: snd h) (find names_call_id hs).
Proof.
  intros hs H. induction hs as [|h hs IH]; [reflexivity|]. cbn [map first_match find]. rewrite hline_match by (apply H; now left).
  destruct (names_call_id h); [reflexivity|]. apply IH. intros x Hx. apply H. now right.
Qed.
Lemma find_app : forall A (p : A -> bool) a b, find p (a ++ b) = match find p a with Some x => Some x | None => find p b end.
Proof. intros A p a b. induction a as [|x a IH]; [reflexivity|]. cbn [app find]. destruct (p x); [reflexivity|exact IH]. Qed.
Lemma find_kept : forall hs, find names_call_id (kept hs) = find names_call_id hs.
Proof.
  intros hs. unfold kept. induction hs as [|h hs IH]; [reflexivity|]. cbn [filter find]. destruct (length_header h) eqn:L; cbn [negb find].
  - rewrite IH. destruct (names_call_id h) eqn:E; [|reflexivity]. exfalso. unfold names_call_id in E. unfold length_header in L. rewrite !orb_true_iff, !eq_ic_spec in *.
    destruct E as [E | E], L as [L | L]; rewrite E in L; vm_compute in L; discriminate.
  - now rewrite IH.
Qed.
Lemma find_wired : forall hs, find names_call_id (map (fun h => (wire_name (fst h), trim (snd h))) hs)
  = option_map (fun h => (wire_name (fst h), trim (snd h))) (find names_call_id hs).
Proof.
  intros hs. induction hs as [|h hs IH]; [reflexivity|]. cbn [map find]. assert (E : names_call_id (wire_name (fst h), trim (snd h)) = names_call_id h).
  { unfold names_call_id, eq_ic. cbn [fst]. now rewrite wire_lower. }
  rewrite E. destruct (names_call_id h); [reflexivity|exact IH].
Qed.
Lemma value_of : forall v, is_str v = true -> ~ In 13 v -> from_utf8 (utf8 (trim_ascii (32 :: v))) = Some (trim_by blank v).
Proof.
  intros v S H. rewrite trim_ascii_value by assumption. apply from_utf8_utf8. destruct (trim_by_sub blank v) as (a & b & E & _). rewrite E in S. rewrite !is_str_app in S. now apply andb_true_iff in S as [_ S]; apply andb_true_iff in S as [S _].
Qed.
Lemma extract_body_free : forall n h f b, (List.length h <= n)%nat -> (List.length h + 2 <= f)%nat ->
  extract f (h ++ 13 :: 10 :: 13 :: 10 :: b) = extract (List.length h + 2) (h ++ [13; 10; 13; 10]).
Proof.
  induction n as [|n IH]; intros h f b Hn Hf; (destruct f as [|f]; [lia|]); replace (List.length h + 2)%nat with (S (List.length h + 1)) by lia; cbn [extract].
  - destruct h; [|cbn in Hn; lia]. reflexivity.
  - destruct (split_once 10 h) as [[l h']|] eqn:E.
    + assert (X : h = l ++ 10 :: h' /\ mem 10 l = false) by now apply split_once_some.
      destruct X as [-> M]. rewrite <- !app_assoc. cbn [app]. rewrite !split_once_app by assumption.
      destruct (without_cr l) as [|c l']; [reflexivity|]. destruct (match_call_id (c :: l')); [reflexivity|].
      rewrite app_length in Hn, Hf. cbn [List.length] in Hn, Hf.
      rewrite (IH h' f b) by lia. rewrite (IH h' (List.length (l ++ 10%N :: h') + 1)%nat []) by (rewrite ?app_length; cbn [List.length]; lia). reflexivity.
    + assert (M : mem 10 (h ++ [13]) = false).
      { unfold mem. rewrite existsb_app. apply split_once_none in E. unfold mem in E. rewrite E. reflexivity. }
      assert (Y : forall t, h ++ 13 :: 10 :: t = (h ++ [13]) ++ 10 :: t) by (intros t; now rewrite <- app_assoc). rewrite !Y, !split_once_app, without_cr_add by assumption.
      destruct h as [|c h]; [reflexivity|]. destruct (match_call_id (c :: h)); [reflexivity|]. destruct f as [|f]; [cbn in Hf; lia|]. reflexivity.
Qed.

(** ** C68 *)
(** A request the API has built and serialised is filed under the value of its first
    Call-ID header, as the other side will read it, or under nothing if it has none. *)
Theorem C68_request : forall q, api_method (q_method q) -> api_uri (q_uri q) -> good_headers (q_headers q) -> text_headers (q_headers q) ->
  extract_call_id (serialize_request q) = option_map (fun h => trim (snd h)) (find names_call_id (q_headers q)).
Proof.
  intros q Hm Hu Hg Ht. rewrite (extract_laid _ _ _ _ (request_laid q Hm Hu Hg)). pose proof (good_fit _ Hg Ht) as F. rewrite Forall_forall in F.
  cbn [first_match]. change (lit " " ++ uri_text (q_uri q) ++ lit " SIP/2.0") with (32 :: uri_text (q_uri q) ++ lit " SIP/2.0"). rewrite match_start.
  2:{ destruct Hm as (t & Hm). apply method_chars in Hm. destruct Hm as [_ Hm]. rewrite forallb_forall in Hm. intros X. apply Hm in X. vm_compute in X. discriminate. }
  rewrite first_hline.
  - unfold request_headers. rewrite find_app, find_wired, find_kept.
    destruct (find names_call_id (q_headers q)) as [h|] eqn:E; cbn [option_map].
    + cbn [snd]. apply find_some in E. destruct E as [I _]. specialize (F h I). destruct F as (_ & V & S). destruct (value_trim _ V) as (_ & NC & _).
      rewrite value_of; [now rewrite blank_trim|exact (is_str_sub _ _ (fun c => trim_in c (snd h)) S)|exact NC].
    + rewrite find_app. unfold hops. destruct (hcontains _ _); reflexivity.
  - intros h Hh. unfold request_headers in Hh. apply in_app_or in Hh. destruct Hh as [Hh|Hh].
    + apply in_map_iff in Hh. destruct Hh as (x & <- & Hx). unfold kept in Hx. apply filter_In in Hx. destruct Hx as [Hx _]. cbn [fst]. apply (wire_ok (fst x)). now apply F.
    + apply in_app_or in Hh. destruct Hh as [Hh|[<- |[]]]; [|reflexivity]. unfold hops in Hh. destruct (hcontains _ _); [destruct Hh|]. destruct Hh as [<- |[]]. reflexivity.
Qed.
Print Assumptions C68_request.
(** The same for responses; the serialiser writes their values unchanged, and the blanks
    around the value are not part of the Call-ID. *)
Theorem C68_response : forall r, status_new (p_code r) (p_reason r) <> None -> good_headers (p_headers r) -> text_headers (p_headers r) ->
  extract_call_id (serialize_response r) = option_map (fun h => trim_by blank (snd h)) (find names_call_id (p_headers r)).
Proof.
  intros r Hs Hg Ht. rewrite (extract_laid _ _ _ _ (response_laid r Hs Hg)). pose proof (good_fit _ Hg Ht) as F. rewrite Forall_forall in F.
  cbn [first_match]. change (lit "SIP/2.0 " ++ print_N (p_code r) ++ lit " " ++ p_reason r) with (lit "SIP/2.0" ++ 32 :: print_N (p_code r) ++ lit " " ++ p_reason r).
  rewrite match_start by (vm_compute; intuition discriminate). rewrite first_hline.
  - unfold response_headers. rewrite find_app, find_kept. destruct (find names_call_id (p_headers r)) as [h|] eqn:E; cbn [option_map].
    + apply find_some in E. destruct E as [I _]. specialize (F h I). destruct F as (_ & (_ & NC & _) & S). now apply value_of.
    + reflexivity.
  - intros h Hh. unfold response_headers in Hh. apply in_app_or in Hh. destruct Hh as [Hh|[<- |[]]]; [|reflexivity].
    unfold kept in Hh. apply filter_In in Hh. destruct Hh as [Hh _]. now apply (F h).
Qed.
Print Assumptions C68_response.
(** Whatever bytes are captured, what follows the first empty line has no influence. *)
Theorem C68_body : forall head b b', extract_call_id (head ++ [13; 10; 13; 10] ++ b) = extract_call_id (head ++ [13; 10; 13; 10] ++ b').
Proof.
  intros head b b'. unfold extract_call_id. cbn [app]. rewrite (extract_body_free _ head _ b (le_n _)), (extract_body_free _ head _ b' (le_n _)); [reflexivity| |];
  rewrite app_length; cbn [List.length]; lia.
Qed.
Print Assumptions C68_body.
Example C68_case : api_method (q_method sample) /\ good_headers (q_headers sample)
  /\ extract_call_id (serialize_request sample) = Some (lit "x")
  /\ extract_call_id (lit "SIP/2.0 200 OK" ++ [13; 10] ++ lit "Subject: a" ++ [13; 10; 13; 10] ++ lit "Call-ID: body" ++ [13; 10]) = None.
Proof.
  split; [exists (lit "INVITE"); reflexivity|]. split; [|split; vm_compute; reflexivity].
  split; [|vm_compute; discriminate]. repeat (apply Forall_cons; [apply made; vm_compute; reflexivity|]). constructor.
Qed.

(** What the parser reads as the Call-ID of a received message need not be what the
    capture is filed under: a blank before the colon hides it, ... *)
Definition received_lines (ls : list String.string) : list N := utf8 (flat_map (fun l => lit l ++ [13; 10]) ls) ++ [13; 10].
Theorem C68_blank_refuted : exists d q, parse_request d = Some q /\ hget (lit "Call-ID") (q_headers q) = Some (lit "x") /\ extract_call_id d = None.
Proof.
  exists (received_lines ["OPTIONS sip:a SIP/2.0"; "Via: SIP/2.0/UDP h;branch=z9hG4bKabcd"; "Call-ID : x"]%string).
  eexists. split; [vm_compute; reflexivity|]. split; vm_compute; reflexivity.
Qed.
Print Assumptions C68_blank_refuted.
(** ... and a line feed inside an earlier header's blanks puts another in its place. *)
Theorem C68_spoof_refuted : exists d q, parse_request d = Some q /\ hget (lit "Call-ID") (q_headers q) = Some (lit "x") /\ extract_call_id d = Some (lit "evil").
Proof.
  exists (utf8 (lit "OPTIONS sip:a SIP/2.0" ++ CRLF ++ lit "Via: SIP/2.0/UDP h;branch=z9hG4bKabcd" ++ CRLF ++ lit "Subject:" ++ [10] ++ lit "Call-ID: evil" ++ CRLF ++ lit "Call-ID: x" ++ CRLF ++ CRLF)).
  eexists. split; [vm_compute; reflexivity|]. split; vm_compute; reflexivity.
Qed.
Print Assumptions C68_spoof_refuted.
