(** Properties C155 (what is lost) and C157: escapes and edits of CPIM messages. *)
From Coq Require Import Arith NArith Bool String List Lia ZifyBool ZifyN ZifyNat.
Import ListNotations.
From Verif Require Import Base BaseFacts NumFacts TypedFacts Text TextFacts Utf8Facts Dhcp DhcpProofs Cpim CpimSpec CpimProofs P_Cpim.
Open Scope N_scope.
Open Scope list_scope.

(** C157: what is escaped is unescaped to the same text, and holds no control
    character, so it is one line whatever the value was *)
Theorem C157_escape : forall s, unescape (escape s) = Some s /\ (forall c, In c (escape s) -> 32 <= c /\ ~ (127 <= c <= 159)) /\ blen (escape s) <= 6 * blen s.
Proof.
  intros s. split; [apply unescape_escape|]. split; [|apply escape_len]. intros c Hc. apply escape_clean in Hc. unfold is_control, in_range in Hc. lia.
Qed.
Print Assumptions C157_escape.
(** two values have the same escaped text only if they are the same *)
Theorem C157_escape_once : forall a b, escape a = escape b -> a = b.
Proof. intros a b H. apply (f_equal unescape) in H. rewrite !unescape_escape in H. now injection H. Qed.
Print Assumptions C157_escape_once.

(** the values of a header, in order, as a caller gets them *)
Definition values (n : str) (m : cpim) : list str := map h_value (stored n (c_headers m)).
Lemma stored_put : forall n l hs, stored n (bput n l hs) = l.
Proof. intros n l hs. unfold stored. now rewrite bget_bput. Qed.
Lemma stored_other : forall k n l hs, k <> n -> stored k (bput n l hs) = stored k hs.
Proof. intros k n l hs H. unfold stored. now rewrite bget_bput_other. Qed.
(** C157: setting a header leaves that one value, adding appends it; nothing else
    changes *)
Theorem C157_edit : forall m n v m',
  (set_header m n v = Some m' -> values n m' = [v] /\ (forall k, k <> n -> stored k (c_headers m') = stored k (c_headers m)) /\ c_type m' = c_type m /\ c_content m' = c_content m /\ c_body m' = c_body m)
  /\ (add_header m n v = Some m' -> values n m' = values n m ++ [v] /\ (forall k, k <> n -> stored k (c_headers m') = stored k (c_headers m)) /\ c_type m' = c_type m /\ c_content m' = c_content m /\ c_body m' = c_body m)
  /\ (add_content_header m n v = Some m' -> bget n (c_content m') = Some v /\ (forall k, k <> n -> bget k (c_content m') = bget k (c_content m)) /\ c_type m' = c_type m /\ c_headers m' = c_headers m /\ c_body m' = c_body m).
Proof.
  intros m n v m'. split; [|split]; intros H.
  - unfold set_header in H. destruct (_ && _); [|discriminate]. unfold header_new in H. destruct (value_ok v); [|discriminate]. injection H as <-. unfold values. cbn [c_headers c_type c_content c_body]. rewrite stored_put. split; [reflexivity|]. split; [intros k Hk; now apply stored_other|]. now repeat split.
  - unfold add_header, header_new in H. destruct (value_ok v); [|discriminate]. unfold add_header_obj in H. destruct (_ && _); [|discriminate]. injection H as <-. unfold values, push. cbn [c_headers c_type c_content c_body]. rewrite stored_put, map_app. split; [reflexivity|]. split; [intros k Hk; now apply stored_other|]. now repeat split.
  - unfold add_content_header in H. destruct (_ && _); [|discriminate]. injection H as <-. cbn [c_headers c_type c_content c_body]. split; [apply bget_bput|]. split; [intros k Hk; now apply bget_bput_other|]. now repeat split.
Qed.
Print Assumptions C157_edit.
(** the number of headers other than [n] *)
Definition others (n : str) (m : cpim) : N := llen (flat_map snd (c_headers m)) - llen (values n m).
(** C157: an edit is refused exactly for a bad name, a value that is too long or too
    many headers *)
Theorem C157_refused : forall m n v,
  (set_header m n v <> None <-> good_name n /\ blen v <= 1024 /\ others n m < 50)
  /\ (add_header m n v <> None <-> good_name n /\ blen v <= 1024 /\ llen (flat_map snd (c_headers m)) < 50)
  /\ (add_content_header m n v <> None <-> good_name n /\ clean 1024 [] v /\ llen (c_content m) < 20).
Proof.
  intros m n v. assert (LV : llen (values n m) = llen (stored n (c_headers m))) by (unfold values, llen; now rewrite map_length). split; [|split].
  - unfold set_header, others. rewrite LV, <- total_flat. destruct (name_ok n) eqn:N; cbn [andb]; [apply name_iff in N|split; [congruence|intros (X & _); apply name_iff in X; congruence]]. unfold header_new, value_ok. destruct (_ <=? 50) eqn:T; [|split; [congruence|intros (_ & _ & X); lia]]. destruct (blen v <=? 1024) eqn:V; [|split; [congruence|intros (_ & X & _); lia]]. split; [intros _; split; [exact N|split; lia]|discriminate].
  - unfold add_header, add_header_obj, header_new, value_ok. rewrite <- total_flat. destruct (blen v <=? 1024) eqn:V; [|split; [congruence|intros (_ & X & _); lia]]. destruct (name_ok n) eqn:N; cbn [andb]; [apply name_iff in N|split; [congruence|intros (X & _); apply name_iff in X; congruence]]. destruct (_ <? 50) eqn:T; [|split; [congruence|intros (_ & _ & X); lia]]. split; [intros _; split; [exact N|split; lia]|discriminate].
  - unfold add_content_header. destruct (name_ok n) eqn:N; cbn [andb]; [apply name_iff in N|split; [congruence|intros (X & _); apply name_iff in X; congruence]]. destruct (cvalue_ok v) eqn:V; cbn [andb]; [apply cvalue_iff in V|split; [congruence|intros (_ & X & _); apply cvalue_iff in X; congruence]]. destruct (_ <? 20) eqn:T; [|split; [congruence|intros (_ & _ & X); lia]]. split; [intros _; split; [exact N|split; [exact V|lia]]|discriminate].
Qed.
Print Assumptions C157_refused.
Example C157_hypotheses_met : exists m m', set_header greeting (lit "From") (lit "Bob") = Some m /\ values (lit "From") m = [lit "Bob"] /\ add_header m (lit "From") (lit "Carol") = Some m' /\ values (lit "From") m' = [lit "Bob"; lit "Carol"] /\ others (lit "From") m' = 1.
Proof. do 2 eexists. split; [vm_compute; reflexivity|]. split; [vm_compute; reflexivity|]. split; [vm_compute; reflexivity|]. split; vm_compute; reflexivity. Qed.
(** C157, refuted: with twenty content headers not even one that is there can be
    replaced, although the message would not grow *)
Definition fill (l : list N) (m : cpim) : option cpim := fold_left (fun o c => match o with Some m => add_content_header m [c] [] | None => None end) l (Some m).
Lemma fill_none : forall l, fold_left (fun o c => match o with Some m => add_content_header m [c] [] | None => None end) l None = None.
Proof. induction l as [|c l IH]; [reflexivity|exact IH]. Qed.
Lemma fill_built : forall l m m', built m -> fill l m = Some m' -> built m'.
Proof.
  induction l as [|c l IH]; intros m m' B H; [now injection H as <-|]. unfold fill in H. cbn [fold_left] in H. destruct (add_content_header m [c] []) as [m1|] eqn:E; [|rewrite fill_none in H; discriminate]. apply (IH m1); [|exact H]. now apply (b_content m [c] []).
Qed.
Theorem C157_replace_refuted : exists m n v, built m /\ bget n (c_content m) <> None /\ good_name n /\ clean 1024 [] v /\ add_content_header m n v = None.
Proof.
  destruct (fill (map N.of_nat (seq 65 20)) (mkCpim [] (lit "text/plain") [] [])) as [m|] eqn:E; [|vm_compute in E; discriminate]. exists m, [65], (lit "x"). split; [apply (fill_built (map N.of_nat (seq 65 20)) (mkCpim [] (lit "text/plain") [] [])); [apply (b_new (lit "text/plain") []); vm_compute; reflexivity|exact E]|].
  vm_compute in E. injection E as <-. split; [vm_compute; discriminate|]. split; [apply name_iff; vm_compute; reflexivity|]. split; [apply cvalue_iff; vm_compute; reflexivity|]. vm_compute. reflexivity.
Qed.
Print Assumptions C157_replace_refuted.

(** C155, refuted: a message without headers is not read back, and with a blank line
    in its body it is read as another message *)
Theorem C155_headerless_refuted : forall g,
  (exists m t, built m /\ cpim_text g m = Some t /\ parse_cpim t = None)
  /\ exists m t m', built m /\ c_headers m = [] /\ cpim_text g m = Some t /\ parse_cpim t = Some m' /\ values (lit "Content-type") m' = [lit "text/html"] /\ c_body m' = lit "there" /\ c_type m' = lit "text/plain".
Proof.
  intros g. split.
  - exists (mkCpim [] (lit "text/plain") [] (lit "Hi")). eexists. split; [apply (b_new (lit "text/plain") (lit "Hi")); vm_compute; reflexivity|]. split; [vm_compute; reflexivity|vm_compute; reflexivity].
  - exists (mkCpim [] (lit "text/html") [] (lit "hi" ++ BLANK ++ lit "there")). do 2 eexists. split; [apply (b_new (lit "text/html") (lit "hi" ++ BLANK ++ lit "there")); vm_compute; reflexivity|]. split; [reflexivity|]. split; [vm_compute; reflexivity|]. split; [vm_compute; reflexivity|]. split; [vm_compute; reflexivity|]. split; reflexivity.
Qed.
Print Assumptions C155_headerless_refuted.
(** C155, refuted: in a text whose lines end in LF, blank lines of the body are
    changed *)
Theorem C155_lines_refuted : exists t m, t = lit "Content-type: Message/CPIM" ++ [10; 10] ++ lit "From: A" ++ [10; 10] ++ lit "Content-type: text/plain" ++ [10; 10] ++ lit "a" ++ [10; 10] ++ lit "b"
  /\ parse_cpim t = Some m /\ c_body m = lit "a" ++ BLANK ++ lit "b".
Proof. do 2 eexists. split; [reflexivity|]. split; [vm_compute; reflexivity|reflexivity]. Qed.
Print Assumptions C155_lines_refuted.
(** C155, refuted: a body that is not UTF-8, a picture for example, never comes back *)
Lemma strs_split : forall p f s, is_str s = true -> Forall (fun x => is_str x = true) (split_fuel f p s).
Proof.
  intros p. induction f as [|f IH]; intros s H; cbn [split_fuel]; [repeat constructor; exact H|]. destruct (find_sub p s) as [(a, b)|] eqn:E; [|repeat constructor; exact H]. apply find_sub_some in E. rewrite E in H. unfold is_str in *. rewrite !forallb_app in H. apply andb_true_iff in H as (H1 & H2). apply andb_true_iff in H2 as (_ & H3). constructor; [exact H1|now apply IH].
Qed.
Lemma strs_join : forall p l, is_str p = true -> Forall (fun x => is_str x = true) l -> is_str (join p l) = true.
Proof.
  intros p l P. induction l as [|x l IH]; intros H; [reflexivity|]. inversion H as [|? ? H1 H2]; subst. destruct l as [|y l]; [exact H1|]. change (is_str (x ++ p ++ join p (y :: l)) = true). unfold is_str in *. rewrite !forallb_app. now rewrite H1, P, (IH H2).
Qed.
Theorem C155_body_refuted : forall t m, is_str t = true -> parse_cpim t = Some m -> exists s, from_utf8 (c_body m) = Some s.
Proof.
  intros t m T H. unfold parse_cpim in H. destruct (blen t <=? MAX_PARSE); [|discriminate]. pose proof (strs_split (if has BLANK t then BLANK else [10; 10]) (Datatypes.S (List.length t)) t T) as F. fold (split_str (if has BLANK t then BLANK else [10; 10]) t) in F. destruct (split_str _ t) as [|mime [|hd [|ct [|b bs]]]]; try discriminate. inversion F as [|? ? _ F1]; subst. inversion F1 as [|? ? _ F2]; subst. inversion F2 as [|? ? _ F3]; subst.
  destruct (has (lit "message/cpim") (lower mime)); [|discriminate]. destruct (read_lines (section_lines hd) []); [|discriminate]. destruct (read_content (section_lines ct) (lit "text/plain") []) as [(t', cs)|]; [|discriminate]. destruct (_ <=? MAX_BODY); [|discriminate]. injection H as <-. cbn [c_body]. exists (join BLANK (b :: bs)). apply from_utf8_utf8. apply strs_join; [reflexivity|exact F3].
Qed.
Print Assumptions C155_body_refuted.
Example C155_body_case : exists m, built m /\ forall s, from_utf8 (c_body m) <> Some s.
Proof. exists (mkCpim [] (lit "image/png") [] [137; 80; 78; 71]). split; [apply (b_new (lit "image/png") [137; 80; 78; 71]); vm_compute; reflexivity|]. intros s. vm_compute. discriminate. Qed.
