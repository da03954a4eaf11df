(** Property C176: message fragments. *)
From Coq Require Import Arith NArith Bool String List Lia ZifyBool ZifyN ZifyNat.
Import ListNotations.
From Verif Require Import Base BaseFacts Headers HeadersProofs Method Text TextFacts Utf8Facts Uri UriProofs Msg AnyUri P_Headers Message MessageSpec MessageProofs SipFrag SipFragSpec.
Open Scope N_scope.
Open Scope list_scope.

Lemma first_iff : forall n hs v, hget (lit n) hs = Some v <-> first_of n hs v.
Proof.
  intros n hs v. rewrite hget_some. unfold first_of. split; intros (a & m & b & E & M & F); exists a, m, b; (split; [exact E|]).
  - apply eq_ic_spec in M. split; [exact M|]. intros h Hh X. apply eq_ic_spec in X. rewrite (F h Hh) in X. discriminate.
  - split; [now apply eq_ic_spec|]. intros h Hh. apply not_true_iff_false. intros X. apply eq_ic_spec in X. now apply (F h Hh).
Qed.
Lemma ok_iff : forall hs b, llen b <= 65536 -> body_headers_ok hs (llen b) = true <-> described hs b.
Proof.
  intros hs b L. unfold body_headers_ok, described. destruct (llen b =? 0) eqn:Z.
  - assert (b = []) as -> by (destruct b; [reflexivity|unfold llen in Z; cbn [List.length] in Z; lia]). split; [intros _ X; now elim X|reflexivity].
  - assert (B : b <> []) by (intros ->; discriminate). split.
    + intros H _. destruct (hget (lit "Content-Type") hs) as [t|] eqn:T; [|discriminate]. destruct (hget (lit "Content-Length") hs) as [v|] eqn:V; [|discriminate]. destruct (parse_uint u64_max (trim v)) as [m|] eqn:P; [|discriminate]. apply N.eqb_eq in H as ->.
      split; [exists t; now apply first_iff|]. exists v. split; [now apply first_iff|]. now apply (parse_uint_reads u64_max).
    + intros H. destruct (H B) as ((t & T) & (v & V & R)). apply first_iff in T, V. rewrite T, V, (reads_parse v (llen b) R) by lia. now apply N.eqb_eq.
Qed.
(** C176: a body is accepted exactly when it is at most 64 KB and, unless it is empty, the first
    Content-Type exists and the first Content-Length says its length; nothing else changes *)
Theorem C176_accept : forall f b f', frag_set f b = Some f' <-> llen b <= 65536 /\ described (f_headers f) b /\ f' = mkFrag (f_start f) (f_headers f) b.
Proof.
  intros f b f'. unfold frag_set, MAX_FRAG_BODY. destruct (65536 <? llen b) eqn:L; [split; [discriminate|intros (X & _); lia]|]. pose proof (ok_iff (f_headers f) b ltac:(lia)) as K.
  destruct (body_headers_ok (f_headers f) (llen b)).
  - split; [intros X; assert (f' = mkFrag (f_start f) (f_headers f) b) as -> by congruence; refine (conj _ (conj (proj1 K eq_refl) eq_refl)); lia|intros (_ & _ & ->); reflexivity].
  - split; [discriminate|]. intros (_ & D & _). apply K in D. discriminate.
Qed.
Print Assumptions C176_accept.

Definition kept_ok (f : frag) : Prop :=
  llen (f_body f) <= 65536 /\ described (f_headers f) (f_body f) /\ match f_start f with Some s => clean_start s | None => True end /\ good_headers (f_headers f) /\ text_headers (f_headers f).
Lemma none_good : good_headers [] /\ text_headers [].
Proof. split; [split; [constructor|unfold llen; cbn; lia]|intros h []]. Qed.
Lemma undescribed : forall hs, described hs [].
Proof. intros hs X. now elim X. Qed.
Lemma fresh_ok : forall f, fresh f -> kept_ok f.
Proof.
  intros f H. destruct none_good as (G & T). destruct H as [|c r f E S|r f E C G' T'|s C|hs G' T'].
  - refine (conj _ (conj _ (conj _ (conj G T)))); [cbn; lia|apply undescribed|exact I].
  - unfold frag_status in E. destruct (status_new c r) as [(c', r')|] eqn:Q; [|discriminate]. assert (f = mkFrag (Some (Answered c' r')) [] []) as -> by congruence.
    assert (c' = c /\ r' = r) as (-> & ->) by (unfold status_new in Q; destruct (negb _); [discriminate|]; destruct (_ <? _); [discriminate|]; destruct (existsb _ _); [discriminate|]; split; congruence).
    refine (conj _ (conj _ (conj _ (conj G T)))); [cbn; lia|apply undescribed|]. cbn [f_start]. split; assumption.
  - unfold frag_of_response in E. destruct (MAX_FRAG_BODY <? llen (p_body r)) eqn:L; [discriminate|]. destruct (body_headers_ok (p_headers r) (llen (p_body r))) eqn:B; [|discriminate]. assert (f = mkFrag (Some (Answered (p_code r) (p_reason r))) (p_headers r) (p_body r)) as -> by congruence.
    unfold MAX_FRAG_BODY in L. cbn [f_body f_headers f_start]. refine (conj _ (conj _ (conj C (conj G' T')))); cbn [f_body f_headers]; [lia|]. apply ok_iff; [lia|exact B].
  - refine (conj _ (conj _ (conj C (conj G T)))); [cbn; lia|apply undescribed].
  - refine (conj _ (conj _ (conj I (conj G' T')))); [cbn; lia|apply undescribed].
Qed.
Lemma first_more : forall n hs v h, first_of n hs v -> first_of n (hs ++ [h]) v.
Proof. intros n hs v h (a & m & b & -> & M & F). exists a, m, (b ++ [h]). rewrite <- app_assoc. refine (conj eq_refl (conj M F)). Qed.
Lemma step_ok : forall f o, direct o -> kept_ok f -> kept_ok (fstep f o).
Proof.
  intros f o D K. destruct o as [n v|b|h]; [| |contradiction]; cbn [fstep].
  - unfold frag_add. destruct (hpush (f_headers f) n v) as [hs|] eqn:E; [|exact K]. destruct K as (K1 & K2 & K3 & K4 & K5). pose proof (proj1 (hpush_good _ _ _ _ K4 E)) as G. apply C53_push_appends in E. subst hs.
    refine (conj K1 (conj _ (conj K3 (conj G _)))); cbn [f_headers f_body] in *.
    + intros B. destruct (K2 B) as ((t & T) & (w & W & R)). split; [exists t; now apply first_more|]. exists w. split; [now apply first_more|exact R].
    + intros h Hh. apply in_app_iff in Hh as [Hh|[<-|[]]]; [now apply K5|exact D].
  - destruct (frag_set f b) as [f'|] eqn:E; [|exact K]. apply C176_accept in E as (L & X & ->). destruct K as (_ & _ & K). refine (conj L (conj X K)).
Qed.
(** C176: whatever headers are added and whatever bodies are set, in whatever order and with
    whatever failures between, the body is at most 64 KB and its type and length are told *)
Theorem C176_described_partial : forall f ops, fresh f -> (forall o, In o ops -> direct o) ->
  llen (f_body (frun f ops)) <= 65536 /\ described (f_headers (frun f ops)) (f_body (frun f ops)).
Proof.
  intros f ops F D. assert (K : kept_ok (frun f ops)); [|split; apply K]. apply fresh_ok in F. revert f F. unfold frun. induction ops as [|o ops IH]; intros f F; [exact F|]. cbn [fold_left]. apply IH; [intros x X; apply D; now right|]. apply step_ok; [apply D; now left|exact F].
Qed.
Print Assumptions C176_described_partial.
(** the mutable headers break it: the length is then wrong or missing *)
Theorem C176_described_refuted : exists ops, f_body (frun frag_empty ops) = lit "test" /\ f_headers (frun frag_empty ops) = [] .
Proof. exists [Add (lit "Content-Type") (lit "text/plain"); Add (lit "Content-Length") (lit "4"); SetBody (lit "test"); Edited HClear]. split; vm_compute; reflexivity. Qed.
Print Assumptions C176_described_refuted.
Lemma lines_text : forall hs, flat_map (fun h : header => line_of (fst h) (snd h)) hs = flat_map ends (map (fun h : header => fst h ++ lit ": " ++ snd h) hs).
Proof. induction hs as [|h hs IH]; [reflexivity|]. cbn [flat_map map]. rewrite IH. f_equal. unfold line_of, ends. now rewrite <- !app_assoc. Qed.
Lemma start_ends : forall s, match s with Some x => start_text x | None => [] end = flat_map ends (start_lines s).
Proof. intros [[m u|c r]|]; [| |reflexivity]; cbn [start_lines flat_map start_text]; unfold ends; rewrite app_nil_r, <- !app_assoc; reflexivity. Qed.
Lemma text_of : forall f, frag_text f = match f_body f with [] => Some (flat_map ends (head_lines f)) | b => match from_utf8 b with Some t => Some (flat_map ends (head_lines f) ++ CRLF ++ t) | None => None end end.
Proof. intros f. unfold frag_text, head_lines. rewrite start_ends, lines_text, flat_map_app. reflexivity. Qed.
Lemma heads_fine : forall f, kept_ok f -> Forall line (head_lines f) /\ forall x, In x (head_lines f) -> is_str x = true.
Proof.
  intros f (_ & _ & C & (G & _) & T). unfold head_lines.
  assert (A : Forall line (start_lines (f_start f)) /\ forall x, In x (start_lines (f_start f)) -> is_str x = true).
  { destruct (f_start f) as [[m u|c r]|]; [| |split; [constructor|intros x []]]; cbn [start_lines clean_start] in *.
    - destruct C as ((t & Ht) & C2 & C3). apply method_chars in Ht as (Ne & Fm). assert (MF : forall x, In x (method_str m) -> x <> 13 /\ is_scalar x = true) by (intros x X; rewrite forallb_forall in Fm; apply Fm in X; apply method_char_facts in X; tauto). split.
      + constructor; [|constructor]. split; [intros Y; apply app_eq_nil in Y as (Y & _); now apply Ne|]. intros X. apply in_app_iff in X as [X|X]; [now apply MF in X|]. apply in_app_iff in X as [X|X]; [vm_compute in X; lia|]. apply in_app_iff in X as [X|X]; [contradiction|]. vm_compute in X. lia.
      + intros x [<-|[]]. rewrite !is_str_app, C3. assert (Z : is_str (method_str m) = true) by (unfold is_str; apply forallb_forall; intros y Y; now apply MF). rewrite Z. reflexivity.
    - destruct C as (C & S). assert (NC : forall x, In x r -> is_ascii_control x = false) by (unfold status_new in C; destruct (negb _); [discriminate|]; destruct (_ <? _); [discriminate|]; destruct (existsb is_ascii_control r) eqn:E; [discriminate|]; intros x X; apply not_true_iff_false; intros Y; rewrite <- not_true_iff_false in E; apply E; apply existsb_exists; now exists x).
      assert (PD : forall x, In x (print_N c) -> 48 <= x <= 57) by (intros x; apply print_N_digits). split.
      + constructor; [|constructor]. split; [discriminate|]. intros X. apply in_app_iff in X as [X|X]; [vm_compute in X; lia|]. apply in_app_iff in X as [X|X]; [apply PD in X; lia|]. apply in_app_iff in X as [X|X]; [vm_compute in X; lia|]. apply NC in X. vm_compute in X. discriminate.
      + intros x [<-|[]]. rewrite !is_str_app, S. assert (Z : is_str (print_N c) = true) by (unfold is_str; apply forallb_forall; intros y Y; apply PD in Y; unfold is_scalar; lia). rewrite Z. reflexivity. }
  destruct A as (A1 & A2). split.
  - apply Forall_app. split; [exact A1|]. apply Forall_forall. intros x X. apply in_map_iff in X as (h & <- & Hh). rewrite Forall_forall in G. destruct (G h Hh) as (N1 & _ & N3 & _ & V1 & _). split; [intros Y; apply app_eq_nil in Y as (Y & _); now apply N1|].
    intros X. apply in_app_iff in X as [X|X]; [rewrite Forall_forall in N3; apply N3 in X; apply name_char_facts in X; lia|]. apply in_app_iff in X as [X|X]; [vm_compute in X; lia|contradiction].
  - intros x X. apply in_app_iff in X as [X|X]; [now apply A2|]. apply in_map_iff in X as (h & <- & Hh). assert (Z0 := T h Hh). rewrite is_str_app, is_str_app. rewrite Forall_forall in G. destruct (G h Hh) as (_ & _ & N3 & _). assert (Z : is_str (fst h) = true); [|exact (andb_true_intro (conj Z Z0))].
    unfold is_str. apply forallb_forall. intros y Y. rewrite Forall_forall in N3. apply N3 in Y. apply name_char_facts in Y as (_ & _ & _ & _ & Y). unfold is_scalar. lia.
Qed.
(** C176: a fragment with a text body, written and taken apart by the receiver's parser, gives back
    exactly its start line and headers, line by line, and its body *)
Theorem C176_written : forall f ops, fresh f -> (forall o, In o ops -> direct o) -> f_body (frun f ops) <> [] ->
  (forall t, frag_text (frun f ops) = Some t ->
     split_head_body (utf8 t) = Some (join CRLF (head_lines (frun f ops)), f_body (frun f ops))
     /\ split_crlf (join CRLF (head_lines (frun f ops))) = head_lines (frun f ops))
  /\ (frag_text (frun f ops) = None <-> from_utf8 (f_body (frun f ops)) = None).
Proof.
  intros f ops F D B. assert (K : kept_ok (frun f ops)).
  { apply fresh_ok in F. clear B. revert f F. unfold frun. induction ops as [|o ops IH]; intros f F; [exact F|]. cbn [fold_left]. apply IH; [intros x X; apply D; now right|]. apply step_ok; [apply D; now left|exact F]. }
  set (g := frun f ops) in *. clearbody g. destruct (heads_fine g K) as (L & S). pose proof (text_of g) as T. destruct K as (_ & K2 & _). destruct (f_body g) as [|b0 b1] eqn:E; [now elim B|]. set (b := b0 :: b1) in *.
  assert (NE : head_lines g <> []). { destruct (K2 B) as ((t & a & m & r & X & _) & _). unfold head_lines. rewrite X, map_app. intros Y. apply (f_equal (@List.length str)) in Y. rewrite !app_length in Y. cbn [map List.length] in Y. lia. }
  split.
  - intros t Ht. rewrite T in Ht. destruct (from_utf8 b) as [w|] eqn:U; [|discriminate]. assert (flat_map ends (head_lines g) ++ CRLF ++ w = t) as <- by congruence. apply from_utf8_inv in U as (U & _). split.
    + rewrite app_assoc, utf8_app, <- U. now apply head_body.
    + apply crlf_join; [exact NE|]. intros x X. rewrite Forall_forall in L. now apply (L x).
  - rewrite T. destruct (from_utf8 b); split; intros X; [discriminate|discriminate|reflexivity|reflexivity].
Qed.
Print Assumptions C176_written.
(** without a body there is no blank line, only the lines *)
Theorem C176_no_body : forall f, f_body f = [] -> frag_text f = Some (flat_map (fun l => l ++ [13; 10]) (head_lines f)).
Proof. intros f H. now rewrite text_of, H. Qed.
Print Assumptions C176_no_body.
Example C176_case : exists f, frag_status 200 (lit "OK") = Some f /\ fresh f
  /\ frag_text (frun f [Add (lit "Content-Type") (lit "text/plain"); SetBody (lit "early"); Add (lit "Content-Length") (lit "4"); SetBody (lit "test"); SetBody (lit "other")])
     = Some (lit "SIP/2.0 200 OK" ++ CRLF ++ lit "Content-Type: text/plain" ++ CRLF ++ lit "Content-Length: 4" ++ CRLF ++ CRLF ++ lit "test").
Proof.
  exists (mkFrag (Some (Answered 200 (lit "OK"))) [] []). refine (conj _ (conj _ _)); [reflexivity| |vm_compute; reflexivity]. apply (Fresh_status 200 (lit "OK")); reflexivity.
Qed.
