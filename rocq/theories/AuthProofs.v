(** Proofs about the digest authentication model. *)
From Coq Require Import String Arith NArith Bool List Permutation Lia ZifyBool ZifyN ZifyNat.
Import ListNotations.
From Verif Require Import Base BaseFacts Headers Method RateLimit RateLimitSpec RateLimitProofs Auth AuthSpec.
Open Scope N_scope.

(** ** Scanning comma-separated parameters *)
Lemma scan_plain : forall s cur r, mem 34 s = false -> mem 44 s = false ->
  scan_commas false false cur (s ++ r) = scan_commas false false (rev s ++ cur) r.
Proof.
  induction s as [|c s IH]; intros cur r H1 H2; [reflexivity|].
  apply mem_cons_false in H1. apply mem_cons_false in H2. destruct H1 as [A1 B1], H2 as [A2 B2].
  cbn [app scan_commas]. rewrite andb_false_r.
  destruct (c =? 34) eqn:E1; [lia|]. destruct (c =? 44) eqn:E2; [lia|]. cbn [andb].
  rewrite IH by assumption. cbn [rev]. now rewrite <- app_assoc.
Qed.
Lemma scan_quoted : forall s cur r, mem 34 s = false -> mem 92 s = false ->
  scan_commas true false cur (s ++ r) = scan_commas true false (rev s ++ cur) r.
Proof.
  induction s as [|c s IH]; intros cur r H1 H2; [reflexivity|].
  apply mem_cons_false in H1. apply mem_cons_false in H2. destruct H1 as [A1 B1], H2 as [A2 B2].
  cbn [app scan_commas]. rewrite !andb_true_r, andb_false_r.
  destruct (c =? 92) eqn:E1; [lia|]. destruct (c =? 34) eqn:E2; [lia|].
  rewrite IH by assumption. cbn [rev]. now rewrite <- app_assoc.
Qed.

(** a parameter as our generators write it *)
Record field := mkF { f_quoted : bool; f_name : str; f_value : str }.
Definition render (f : field) : str :=
  f_name f ++ [61] ++ (if f_quoted f then [34] ++ f_value f ++ [34] else f_value f).
Definition name_plain (n : str) : Prop :=
  n <> [] /\ forallb (fun c => negb (is_ws c || (c =? 34) || (c =? 44) || (c =? 61))) n = true /\ lower n = n.
Definition field_ok (f : field) : Prop :=
  name_plain (f_name f)
  /\ mem 34 (f_value f) = false
  /\ (if f_quoted f then mem 92 (f_value f) = false
      else mem 44 (f_value f) = false /\ no_edge is_ws (f_value f)).

Lemma name_plain_mem : forall n c, name_plain n -> (c = 34 \/ c = 44 \/ c = 61) -> mem c n = false.
Proof.
  intros n c [_ [Hn _]] Hc. apply mem_false. intros Hi. rewrite forallb_forall in Hn. specialize (Hn _ Hi). lia.
Qed.
Lemma scan_field : forall f cur r, field_ok f ->
  scan_commas false false cur (render f ++ r) = scan_commas false false (rev (render f) ++ cur) r.
Proof.
  intros f cur r [Hn [Hv Hq]]. unfold render. destruct (f_quoted f).
  - rewrite <- !app_assoc. rewrite scan_plain by (apply name_plain_mem; auto).
    rewrite (scan_plain [61]) by reflexivity. cbn [rev app].
    cbn [app scan_commas N.eqb Pos.eqb andb negb].
    change (61 :: rev (f_name f) ++ cur) with (61 :: rev (f_name f) ++ cur).
    rewrite scan_quoted by assumption. cbn [app scan_commas N.eqb Pos.eqb andb negb].
    rewrite !rev_app_distr. cbn [rev app]. rewrite rev_app_distr. cbn [rev app].
    rewrite <- !app_assoc. reflexivity.
  - destruct Hq as [Hq _]. rewrite <- !app_assoc. rewrite scan_plain by (apply name_plain_mem; auto).
    rewrite (scan_plain [61]) by reflexivity. rewrite scan_plain by assumption.
    rewrite !rev_app_distr. cbn [rev app]. rewrite <- !app_assoc. reflexivity.
Qed.

Definition sep := lit ", ".
Lemma scan_fields : forall fs f, field_ok f -> Forall field_ok fs ->
  forall cur, scan_commas false false cur (join sep (map render (f :: fs)))
  = ((rev cur ++ render f) :: map (fun g => 32 :: render g) fs, false).
Proof.
  induction fs as [|g fs IH]; intros f Hf Hfs cur.
  - cbn [map join]. rewrite <- (app_nil_r (render f)) at 1. rewrite scan_field by assumption.
    cbn [scan_commas]. rewrite rev_app_distr, rev_involutive. reflexivity.
  - cbn [map]. replace (join sep (render f :: render g :: map render fs))
      with (render f ++ sep ++ join sep (map render (g :: fs))) by reflexivity.
    rewrite scan_field by assumption.
    change (sep ++ join sep (map render (g :: fs))) with (44 :: ([32] ++ join sep (map render (g :: fs)))).
    cbn [scan_commas N.eqb Pos.eqb andb negb]. 
    rewrite scan_plain by reflexivity. cbn [rev app].
    inversion Hfs; subst. rewrite IH by assumption.
    cbn [rev app]. rewrite rev_app_distr, rev_involutive. reflexivity.
Qed.

Lemma no_edge_name_app : forall n s, name_plain n ->
  match rev s with [] => False | c :: _ => is_ws c = false end -> no_edge is_ws (n ++ s).
Proof.
  intros n s [Hn [Hf _]] Hs. split.
  - destruct n as [|c n]; [easy|]. cbn [app]. cbn [forallb] in Hf. destruct (is_ws c); [discriminate|reflexivity].
  - rewrite rev_app_distr. destruct (rev s); [easy|]. exact Hs.
Qed.
Lemma render_no_edge : forall f, field_ok f -> no_edge is_ws (render f).
Proof.
  intros f [Hn [Hv Hq]]. unfold render. apply no_edge_name_app; [assumption|].
  rewrite rev_app_distr. destruct (f_quoted f).
  - rewrite rev_app_distr, rev_app_distr. reflexivity.
  - destruct Hq as [_ [_ Hq]]. destruct (rev (f_value f)); [reflexivity|]. exact Hq.
Qed.
Lemma trim_cons32 : forall s, trim (32 :: s) = trim s.
Proof. reflexivity. Qed.
Lemma trim_render : forall f, field_ok f -> trim (render f) = render f.
Proof. intros. apply trim_by_id, render_no_edge. assumption. Qed.
Lemma nonblank_render : forall f fs, field_ok f -> Forall field_ok fs ->
  nonblank_trimmed (render f :: map (fun g => 32 :: render g) fs) = map render (f :: fs).
Proof.
  assert (K : forall f, field_ok f -> match render f with [] => false | _ => true end = true).
  { intros f [[Hn _] _]. unfold render. destruct (f_name f); [easy|reflexivity]. }
  assert (F : forall fs, Forall field_ok fs ->
    filter (fun p : str => match p with [] => false | _ => true end)
      (map trim (map (fun g => 32 :: render g) fs)) = map render fs).
  { induction fs as [|g fs IH]; intros Hf; [reflexivity|]. inversion Hf; subst.
    cbn [map]. rewrite trim_cons32, trim_render by assumption. cbn [filter].
    rewrite K by assumption. now rewrite IH. }
  intros f fs Hf Hfs. unfold nonblank_trimmed. cbn [map]. rewrite trim_render by assumption.
  cbn [filter]. rewrite K by assumption. now rewrite F.
Qed.
Lemma split_once_plain : forall c n v, mem c n = false -> split_once c (n ++ [c] ++ v) = Some (n, v).
Proof.
  intros c n v Hn. induction n as [|x n IH].
  - cbn. now rewrite N.eqb_refl.
  - apply mem_cons_false in Hn. destruct Hn as [A B]. cbn. destruct (x =? c) eqn:E; [lia|].
    change (n ++ c :: v) with (n ++ [c] ++ v). now rewrite IH.
Qed.
Lemma trim_quotes_quoted : forall v, mem 34 v = false -> trim_quotes ([34] ++ v ++ [34]) = v.
Proof.
  intros v Hv. unfold trim_quotes, trim_by, trim_start_by. rewrite trim_end_by_rev. cbn [app drop_while N.eqb Pos.eqb].
  assert (D : forall w, mem 34 w = false -> drop_while (N.eqb 34) w = w).
  { intros [|c w] Hw; [reflexivity|]. apply mem_cons_false in Hw. cbn [drop_while]. 
    destruct (34 =? c) eqn:E; [lia|reflexivity]. }
  destruct v as [|c v].
  - reflexivity.
  - assert (Hc := Hv). apply mem_cons_false in Hc. cbn [app drop_while].
    destruct (34 =? c) eqn:E; [lia|]. change (c :: v ++ [34]) with ((c :: v) ++ [34]).
    rewrite rev_app_distr. cbn [rev app drop_while N.eqb Pos.eqb].
    change (rev v ++ [c]) with (rev (c :: v)). rewrite D; [apply rev_involutive|].
    apply mem_false. rewrite <- in_rev. apply mem_false in Hv. exact Hv.
Qed.
Lemma trim_quotes_plain : forall v, mem 34 v = false -> trim_quotes v = v.
Proof.
  intros v Hv. apply trim_by_id. apply no_edge_all. apply forallb_forall. intros c Hc.
  apply mem_false in Hv. destruct (34 =? c) eqn:E; [|reflexivity]. assert (c = 34) by lia. now subst.
Qed.
Lemma field_value_back : forall f, field_ok f ->
  trim_quotes (trim (if f_quoted f then [34] ++ f_value f ++ [34] else f_value f)) = f_value f.
Proof.
  intros f [_ [Hv Hq]]. destruct (f_quoted f).
  - unfold trim. rewrite (trim_by_id is_ws ([34] ++ f_value f ++ [34])).
    + now apply trim_quotes_quoted.
    + split; [reflexivity|]. rewrite rev_app_distr, rev_app_distr. reflexivity.
  - unfold trim. rewrite trim_by_id by apply Hq. now apply trim_quotes_plain.
Qed.
Lemma name_plain_trim : forall n, name_plain n -> trim n = n.
Proof.
  intros n [_ [Hn _]]. apply trim_by_id, no_edge_all. rewrite forallb_forall in *. intros c Hc.
  specialize (Hn c Hc). destruct (is_ws c); [discriminate|reflexivity].
Qed.
Definition pair_of (f : field) : str * str := (f_name f, f_value f).
Lemma auth_params_fields : forall fs acc, Forall field_ok fs ->
  NoDup (map fst acc ++ map f_name fs) ->
  auth_params (map render fs) acc = Some (acc ++ map pair_of fs).
Proof.
  induction fs as [|f fs IH]; intros acc Hf Hd; cbn [map auth_params].
  - now rewrite app_nil_r.
  - inversion Hf as [|? ? Hok Hrest]; subst. unfold render at 1.
    assert (Hok2 := Hok). destruct Hok2 as [Hn [Hv Hq]].
    rewrite split_once_plain by (apply name_plain_mem; auto).
    rewrite (name_plain_trim _ Hn). destruct Hn as [Hn1 [Hn2 Hn3]]. rewrite Hn3.
    assert (L : lookup str_eqb (f_name f) acc = None).
    { destruct (lookup str_eqb (f_name f) acc) eqn:E; [|reflexivity].
      apply (lookup_in _ str_eqb_spec) in E. cbn [map] in Hd. apply NoDup_remove_2 in Hd. exfalso. apply Hd.
      apply in_or_app. left. change (f_name f) with (fst (f_name f, s)). now apply in_map. }
    rewrite L. cbn [is_some]. rewrite field_value_back by assumption.
    rewrite IH; [|assumption|].
    + rewrite <- app_assoc. reflexivity.
    + rewrite map_app. cbn [map fst]. rewrite <- app_assoc. exact Hd.
Qed.

Lemma split_fields : forall f fs, field_ok f -> Forall field_ok fs -> llen (f :: fs) <= 64 ->
  split_quoted_commas 64 (join sep (map render (f :: fs))) = Some (map render (f :: fs)).
Proof.
  intros f fs Hf Hfs Hl. unfold split_quoted_commas. rewrite scan_fields by assumption. cbn [rev app].
  rewrite nonblank_render by assumption.
  assert (llen (map render (f :: fs)) = llen (f :: fs)) by (unfold llen; now rewrite map_length).
  rewrite H. destruct (64 <? llen (f :: fs)) eqn:E; [lia|reflexivity].
Qed.

(** what a generated Authorization value parses to *)
Lemma parse_fields : forall f fs, Forall field_ok (f :: fs) -> NoDup (map f_name (f :: fs)) ->
  llen (f :: fs) <= 30 ->
  forallb (fun g => pname_ok (f_name g) && pvalue_ok (f_value g)) (f :: fs) = true ->
  parse_authorization (lit "Digest" ++ [32] ++ join sep (map render (f :: fs)))
  = Some (mkAh (lit "Digest") (map pair_of (f :: fs))).
Proof.
  intros f fs Hf Hd Hl Hp.
  assert (Hf1 : field_ok f) by (inversion Hf; assumption).
  assert (Hfs : Forall field_ok fs) by (inversion Hf; assumption).
  assert (T : trim (lit "Digest" ++ [32] ++ join sep (map render (f :: fs)))
              = lit "Digest" ++ [32] ++ join sep (map render (f :: fs))).
  { apply trim_by_id. split; [reflexivity|].
    assert (R : forall g gs, field_ok g -> Forall field_ok gs ->
              exists c r, rev (join sep (map render (g :: gs))) = c :: r /\ is_ws c = false).
    { intros g gs Hg Hgs. revert g Hg. induction Hgs as [|g' gs Hg' Hgs IH]; intros g Hg.
      - cbn [map join]. destruct (render_no_edge g Hg) as [_ E].
        destruct (rev (render g)) as [|c r] eqn:X; [|eauto].
        apply (f_equal (@List.length N)) in X. rewrite rev_length in X. unfold render in X.
        rewrite !app_length in X. cbn in X. lia.
      - change (join sep (map render (g :: g' :: gs))) with (render g ++ sep ++ join sep (map render (g' :: gs))).
        destruct (IH g' Hg') as [c [r [E1 E2]]]. rewrite !rev_app_distr, E1. cbn [app]. eauto. }
    destruct (R f fs Hf1 Hfs) as [c [r [E1 E2]]]. rewrite !rev_app_distr, E1. exact E2. }
  unfold parse_authorization. rewrite T.
  remember (join sep (map render (f :: fs))) as body.
  assert (SO : split_once 32 (lit "Digest" ++ [32] ++ body) = Some (lit "Digest", body))
    by (apply split_once_plain; reflexivity).
  destruct (lit "Digest" ++ [32] ++ body) as [|c l]; [discriminate SO|].
  rewrite SO, Heqbody.
  rewrite split_fields; [|assumption|assumption|lia].
  rewrite auth_params_fields by assumption. cbn [app]. unfold from_raw.
  replace (trim (lit "Digest")) with (lit "Digest") by reflexivity.
  replace (scheme_ok (lit "Digest")) with true by reflexivity. cbn [andb].
  assert (A : forallb (fun p : str * str => pname_ok (fst p) && pvalue_ok (snd p)) (map pair_of (f :: fs)) = true).
  { rewrite forallb_forall in *. intros p Hi. apply in_map_iff in Hi. destruct Hi as [g [Hg Hi]]. subst.
    exact (Hp g Hi). }
  rewrite A. cbn [andb]. assert (B : llen (map pair_of (f :: fs)) <=? 30 = true).
  { unfold llen in *. rewrite map_length. lia. }
  rewrite B. reflexivity.
Qed.

(** ** Hexadecimal *)
Lemma hex_val_digit : forall d, d < 16 -> hex_val (hex_digit d) = Some d.
Proof.
  intros d Hd. unfold hex_val, hex_digit, is_digit, in_range.
  destruct (d <? 10) eqn:E.
  - replace ((48 <=? 48 + d) && (48 + d <=? 57)) with true by lia. f_equal. lia.
  - replace ((48 <=? 87 + d) && (87 + d <=? 57)) with false by lia.
    replace ((97 <=? 87 + d) && (87 + d <=? 102)) with true by lia. f_equal. lia.
Qed.
Lemma hex_value_step : forall n i r,
  hex_value (n / 16 ^ (i + 1)) (hex_digit (n / 16 ^ i mod 16) :: r) = hex_value (n / 16 ^ i) r.
Proof.
  intros n i r. cbn [hex_value]. rewrite hex_val_digit by (apply N.mod_lt; discriminate).
  f_equal. rewrite N.pow_add_r, <- N.div_div by (try discriminate; apply N.pow_nonzero; discriminate).
  change (16 ^ 1) with 16. rewrite (N.div_mod (n / 16 ^ i) 16) at 3 by discriminate. lia.
Qed.
Lemma hex8_value : forall n, n <= u32_max -> hex_value 0 (hex8 n) = Some n.
Proof.
  intros n Hn. unfold hex8. cbn [map].
  assert (E : 0 = n / 16 ^ (7 + 1)).
  { symmetry. apply N.div_small. unfold u32_max in Hn. change (16 ^ (7 + 1)) with 4294967296. lia. }
  rewrite E at 1.
  rewrite (hex_value_step n 7). change 7 with (6 + 1). rewrite (hex_value_step n 6).
  change 6 with (5 + 1). rewrite (hex_value_step n 5). change 5 with (4 + 1). rewrite (hex_value_step n 4).
  change 4 with (3 + 1). rewrite (hex_value_step n 3). change 3 with (2 + 1). rewrite (hex_value_step n 2).
  change 2 with (1 + 1). rewrite (hex_value_step n 1). 
  assert (S0 := hex_value_step n 0 []). change (0 + 1) with 1 in S0. rewrite S0.
  cbn [hex_value]. now rewrite N.pow_0_r, N.div_1_r.
Qed.
Definition hexc (c : N) : bool := is_digit c || in_range 97 102 c.
Lemma hex_digit_hexc : forall d, d < 16 -> hexc (hex_digit d) = true.
Proof.
  intros d Hd. unfold hexc, hex_digit, is_digit, in_range. destruct (d <? 10) eqn:E; lia.
Qed.
Lemma hex8_hexc : forall n, forallb hexc (hex8 n) = true.
Proof.
  intros. apply forallb_forall. intros c Hc. unfold hex8 in Hc. apply in_map_iff in Hc.
  destruct Hc as [i [Hi _]]. subst. apply hex_digit_hexc. apply N.mod_lt. discriminate.
Qed.
Lemma parse_hex8 : forall n, n <= u32_max -> parse_hex_u32 (hex8 n) = Some n.
Proof.
  intros n Hn. unfold parse_hex_u32. assert (A := hex8_hexc n). assert (B := hex8_value n Hn).
  destruct (hex8 n) as [|c r] eqn:E; [discriminate E|].
  assert (c =? 43 = false).
  { cbn [forallb] in A. apply andb_true_iff in A. destruct A as [A _]. unfold hexc, is_digit, in_range in A. lia. }
  rewrite H. rewrite B. destruct (n <=? u32_max) eqn:F; [reflexivity|lia].
Qed.

(** ** From prepare to its pieces *)
Section Auth.
  Variable H : hash_fn -> list N -> str.

  Lemma str_eqb_true : forall a b, str_eqb a b = true -> a = b.
  Proof. intros a b. apply str_eqb_spec. Qed.

  Definition decoded (a : auth) (rq : areq) (h : headers) (dp : dparams) (n : N) : Prop :=
    exists v ah o, hget (auth_header_name a) h = Some v /\ parse_authorization v = Some ah
      /\ eq_ic (ah_scheme ah) (lit "Digest") = true
      /\ lookup str_eqb (lit "username") (ah_params ah) = Some (dp_user dp)
      /\ lookup str_eqb (lit "realm") (ah_params ah) = Some (au_realm a)
      /\ lookup str_eqb (lit "nonce") (ah_params ah) = Some (dp_nonce dp)
      /\ lookup str_eqb (lit "uri") (ah_params ah) = Some (aq_uri rq) /\ dp_uri dp = aq_uri rq
      /\ lookup str_eqb (lit "response") (ah_params ah) = Some (dp_response dp)
      /\ lookup str_eqb (lit "nc") (ah_params ah) = Some (dp_nc dp)
      /\ lookup str_eqb (lit "cnonce") (ah_params ah) = Some (dp_cnonce dp)
      /\ lookup str_eqb (lit "opaque") (ah_params ah) = Some o /\ o = au_opaque a
      /\ dp_qop dp = au_qop a
      /\ parse_hex_u32 (dp_nc dp) = Some n /\ n <= 1000000
      /\ vparam 256 (dp_user dp) = true /\ vparam 256 (au_realm a) = true /\ vparam 128 (dp_nonce dp) = true
      /\ vparam 2048 (aq_uri rq) = true /\ vparam 512 (dp_response dp) = true
      /\ vparam 8 (dp_nc dp) = true /\ vparam 256 (dp_cnonce dp) = true.

  Lemma qop_eqb_true : forall a b, qop_eqb a b = true -> a = b.
  Proof. intros [] []; cbn; congruence. Qed.

  Lemma pre_nonce_inr : forall a rq h dp n, pre_nonce a rq h = inr (dp, n) -> decoded a rq h dp n.
  Proof.
    intros a rq h dp n Hp. unfold pre_nonce in Hp.
    destruct (hget (auth_header_name a) h) as [v|] eqn:E1; [|discriminate].
    destruct (parse_authorization v) as [ah|] eqn:E2; [|discriminate].
    destruct (eq_ic (ah_scheme ah) (lit "Digest")) eqn:E3; cbn [negb] in Hp; [|discriminate].
    destruct (param (lit "username") ah) as [user|] eqn:F1; [|discriminate].
    destruct (param (lit "realm") ah) as [realm|] eqn:F2; [|discriminate].
    destruct (param (lit "nonce") ah) as [nnc|] eqn:F3; [|discriminate].
    destruct (param (lit "uri") ah) as [uri|] eqn:F4; [|discriminate].
    destruct (param (lit "response") ah) as [resp|] eqn:F5; [|discriminate].
    match type of Hp with (if negb ?b then _ else _) = _ => destruct b eqn:G1; cbn [negb] in Hp; [|discriminate] end.
    match type of Hp with (match ?x with Some _ => _ | None => _ end) = _ => destruct x as [alg|]; [|discriminate] end.
    match type of Hp with (if negb ?b then _ else _) = _ => destruct b eqn:G2; cbn [negb] in Hp; [|discriminate] end.
    match type of Hp with (if negb ?b then _ else _) = _ => destruct b eqn:G3; cbn [negb] in Hp; [|discriminate] end.
    match type of Hp with (if negb ?b then _ else _) = _ => destruct b eqn:G4; cbn [negb] in Hp; [|discriminate] end.
    match type of Hp with (if negb ?b then _ else _) = _ => destruct b eqn:G5; cbn [negb] in Hp; [|discriminate] end.
    destruct (param (lit "opaque") ah) as [o|] eqn:F6; [|discriminate].
    match type of Hp with (if negb ?b then _ else _) = _ => destruct b eqn:G6; cbn [negb] in Hp; [|discriminate] end.
    destruct (param (lit "qop") ah) as [qs|] eqn:F7; [|discriminate].
    destruct (qop_parse qs) as [q0|] eqn:F8; [|discriminate].
    match type of Hp with (if negb ?b then _ else _) = _ => destruct b eqn:G7; cbn [negb] in Hp; [|discriminate] end.
    destruct (param (lit "nc") ah) as [nc|] eqn:F9; [|discriminate].
    destruct (param (lit "cnonce") ah) as [cn|] eqn:F10; [|discriminate].
    destruct (parse_hex_u32 nc) as [n0|] eqn:F11; [|discriminate].
    match type of Hp with (if ?b then _ else _) = _ => destruct b eqn:G8; [discriminate|] end.
    injection Hp as <- <-. apply str_eqb_true in G4, G5, G6. apply qop_eqb_true in G7. subst.
    rewrite !andb_true_iff in G1. cbn [opt_ok] in G3. rewrite !andb_true_iff in G3.
    destruct G1 as [[[[? ?] ?] ?] ?], G3 as [[? ?] ?].
    exists v, ah, (au_opaque a). cbn [dp_user dp_nonce dp_uri dp_response dp_nc dp_cnonce dp_qop].
    repeat match goal with |- _ /\ _ => split end; try assumption; try reflexivity. lia.
  Qed.

  (** forward direction *)
  Lemma pre_nonce_intro : forall a rq h v ah user nnc resp nc cnonce qs n,
    hget (auth_header_name a) h = Some v -> parse_authorization v = Some ah ->
    eq_ic (ah_scheme ah) (lit "Digest") = true ->
    lookup str_eqb (lit "username") (ah_params ah) = Some user ->
    lookup str_eqb (lit "realm") (ah_params ah) = Some (au_realm a) ->
    lookup str_eqb (lit "nonce") (ah_params ah) = Some nnc ->
    lookup str_eqb (lit "uri") (ah_params ah) = Some (aq_uri rq) ->
    lookup str_eqb (lit "response") (ah_params ah) = Some resp ->
    lookup str_eqb (lit "nc") (ah_params ah) = Some nc ->
    lookup str_eqb (lit "cnonce") (ah_params ah) = Some cnonce ->
    lookup str_eqb (lit "opaque") (ah_params ah) = Some (au_opaque a) ->
    lookup str_eqb (lit "qop") (ah_params ah) = Some qs ->
    lookup str_eqb (lit "algorithm") (ah_params ah) = Some (alg_str (au_alg a)) ->
    qop_parse qs = Some (au_qop a) ->
    parse_hex_u32 nc = Some n -> n <= 1000000 ->
    vparam 256 user = true -> vparam 256 (au_realm a) = true -> vparam 128 nnc = true ->
    vparam 2048 (aq_uri rq) = true -> vparam 512 resp = true ->
    vparam 8 nc = true -> vparam 256 cnonce = true -> vparam 256 (au_opaque a) = true ->
    pre_nonce a rq h = inr (mkDp user nnc (aq_uri rq) resp nc cnonce (au_qop a), n).
  Proof.
    intros a rq h v ah user nnc resp nc cnonce qs n E1 E2 E3 F1 F2 F3 F4 F5 F9 F10 F6 F7 FA Q P L
      V1 V2 V3 V4 V5 V6 V7 V8.
    unfold pre_nonce, param. rewrite E1, E2, E3. cbn [negb].
    change (lower (lit "username")) with (lit "username"). change (lower (lit "realm")) with (lit "realm").
    change (lower (lit "nonce")) with (lit "nonce"). change (lower (lit "uri")) with (lit "uri").
    change (lower (lit "response")) with (lit "response"). change (lower (lit "algorithm")) with (lit "algorithm").
    change (lower (lit "nc")) with (lit "nc"). change (lower (lit "cnonce")) with (lit "cnonce").
    change (lower (lit "qop")) with (lit "qop"). change (lower (lit "opaque")) with (lit "opaque").
    rewrite F1, F2, F3, F4, F5, F6, F7, F9, F10, FA, V1, V2, V3, V4, V5. cbn [andb negb].
    assert (AP : alg_parse (alg_str (au_alg a)) = Some (au_alg a)).
    { destruct (au_alg a) as [[] []]; reflexivity. }
    rewrite AP. assert (AE : alg_eqb (au_alg a) (au_alg a) = true) by (destruct (au_alg a) as [[] []]; reflexivity).
    rewrite AE. cbn [negb opt_ok]. rewrite V6, V7, V8. cbn [andb negb].
    assert (R : forall s, str_eqb s s = true) by (intros; now apply str_eqb_spec).
    rewrite !R. cbn [negb]. rewrite Q.
    assert (QE : qop_eqb (au_qop a) (au_qop a) = true) by (destruct (au_qop a); reflexivity).
    rewrite QE, P. cbn [negb]. destruct (1000000 <? n) eqn:X; [lia|reflexivity].
  Qed.

  (** *** prepare *)
  Lemma admit_auth : forall a now rq h a1 ok, admit a now rq h = (a1, ok) ->
    au_realm a1 = au_realm a /\ au_alg a1 = au_alg a /\ au_qop a1 = au_qop a /\ au_store a1 = au_store a
    /\ au_nonces a1 = au_nonces a /\ au_proxy a1 = au_proxy a /\ au_opaque a1 = au_opaque a.
  Proof.
    intros a now rq h a1 ok Ha. unfold admit in Ha.
    destruct (10 * 1024 * 1024 <? llen (aq_body rq)).
    - injection Ha as <- <-. repeat split.
    - destruct (au_limit a) as [[c l]|].
      + destruct (rate_key h) as [k|].
        * destruct (check c now k l) as [l' b]. injection Ha as <- <-. repeat split.
        * injection Ha as <- <-. repeat split.
      + injection Ha as <- <-. repeat split.
  Qed.
  Lemma pre_nonce_same : forall a b rq h,
    au_realm a = au_realm b -> au_alg a = au_alg b -> au_qop a = au_qop b -> au_proxy a = au_proxy b ->
    au_opaque a = au_opaque b -> pre_nonce a rq h = pre_nonce b rq h.
  Proof.
    intros a b rq h E1 E2 E3 E4 E5. unfold pre_nonce, auth_header_name. now rewrite E1, E2, E3, E4, E5.
  Qed.
  Lemma admit_pre_nonce : forall a now rq h a1 ok, admit a now rq h = (a1, ok) ->
    pre_nonce a1 rq h = pre_nonce a rq h.
  Proof. intros. destruct (admit_auth _ _ _ _ _ _ H0) as (A & B & C & D & E & F & G). now apply pre_nonce_same. Qed.

  (** what [prepare] does, case by case *)
  Lemma prepare_cases : forall a now rq h a1 p, prepare H a now rq h = (a1, p) ->
    au_realm a1 = au_realm a /\ au_alg a1 = au_alg a /\ au_qop a1 = au_qop a /\ au_store a1 = au_store a
    /\ au_proxy a1 = au_proxy a /\ au_opaque a1 = au_opaque a
    /\ ((au_nonces a1 = au_nonces a /\ (p = PErr \/ p = PNone))
        \/ exists dp n, pre_nonce a rq h = inr (dp, n)
             /\ jump_ok (dp_nonce dp) n (au_nonces a) = true
             /\ exists good, verify_with_nc H (dp_nonce dp) n now rq (au_nonces a) = (au_nonces a1, good)
             /\ p = if good then PSome dp else PNone).
  Proof.
    intros a now rq h a1 p Hp. unfold prepare in Hp.
    destruct (admit a now rq h) as [a0 ok] eqn:Ea.
    destruct (admit_auth _ _ _ _ _ _ Ea) as (A & B & C & D & E & F & G).
    destruct ok; cbn [negb] in Hp.
    2:{ injection Hp as <- <-. repeat match goal with |- _ /\ _ => split end; auto. }
    assert (P := admit_pre_nonce _ _ _ _ _ _ Ea).
    assert (NP : forall p0, pre_nonce a0 rq h = inl p0 -> p0 = PErr \/ p0 = PNone).
    { intros p0. unfold pre_nonce. 
      repeat match goal with
      | |- inl _ = inl _ -> _ => intros X; injection X as <-; auto
      | |- inr _ = inl _ -> _ => discriminate
      | |- (match ?x with _ => _ end) = _ -> _ => destruct x
      | |- (let q := _ in _) = _ -> _ => cbv zeta
      end. }
    destruct (pre_nonce a0 rq h) as [q|[dp n]] eqn:Ep.
    - injection Hp as <- <-. specialize (NP q eq_refl). repeat match goal with |- _ /\ _ => split end; auto.
    - rewrite E in Hp. destruct (jump_ok (dp_nonce dp) n (au_nonces a)) eqn:Ej; cbn [negb] in Hp.
      + destruct (verify_with_nc H (dp_nonce dp) n now rq (au_nonces a)) as [m good] eqn:Ev.
        injection Hp as <- <-. cbn [with_nonces au_realm au_alg au_qop au_store au_proxy au_opaque au_nonces].
        repeat match goal with |- _ /\ _ => split end; try assumption. right. exists dp, n. 
        split; [congruence|]. split; [assumption|]. exists good. split; [assumption|reflexivity].
      + injection Hp as <- <-. repeat match goal with |- _ /\ _ => split end; auto.
  Qed.

  (** *** Soundness *)
  Lemma verify_nc_true : forall k n now rq m m', verify_with_nc H k n now rq m = (m', true) ->
    exists e e', lookup str_eqb k (nm_nonces m) = Some e /\ nonce_valid now e = true
      /\ validate_nc H (nm_age m) now n rq e = (e', true)
      /\ m' = set_nonces m (insert str_eqb k e' (nm_nonces m)).
  Proof.
    intros k n now rq m m' Hv. unfold verify_with_nc in Hv.
    destruct (lookup str_eqb k (nm_nonces m)) as [e|] eqn:E; [|discriminate].
    destruct (nonce_valid now e) eqn:V; cbn [negb] in Hv; [|discriminate].
    destruct (validate_nc H (nm_age m) now n rq e) as [e' ok] eqn:W.
    injection Hv as <- ->. exists e, e'. auto.
  Qed.
  Lemma compute_is_rfc : forall a user pass mt uri nnc nc cnonce body,
    compute_response H a user pass mt uri nnc nc cnonce (au_qop a) body
    = rfc_response H (au_alg a) (au_qop a) user (au_realm a) pass (method_str mt) uri nnc nc cnonce body.
  Proof.
    intros. unfold compute_response, rfc_response, hs, rfc_ha1, rfc_ha2, apply_sess, ha1, ha2, h_str, hs.
    cbn [join]. destruct (al_sess (au_alg a)), (au_qop a); reflexivity.
  Qed.
  Lemma verify_sound : forall a now rq h, snd (verify H a now rq h) = Some true ->
    exists dp n pass e e', decoded a rq h dp n
      /\ au_store a (dp_user dp) (au_realm a) = Some pass
      /\ dp_response dp = rfc_response H (au_alg a) (au_qop a) (dp_user dp) (au_realm a) pass
            (method_str (aq_method rq)) (aq_uri rq) (dp_nonce dp) (dp_nc dp) (dp_cnonce dp) (aq_body rq)
      /\ lookup str_eqb (dp_nonce dp) (nm_nonces (au_nonces a)) = Some e
      /\ nonce_valid now e = true
      /\ jump_ok (dp_nonce dp) n (au_nonces a) = true
      /\ validate_nc H (nm_age (au_nonces a)) now n rq e = (e', true)
      /\ au_nonces (fst (verify H a now rq h))
         = set_nonces (au_nonces a) (insert str_eqb (dp_nonce dp) e' (nm_nonces (au_nonces a))).
  Proof.
    intros a now rq h Hv. unfold verify in *. destruct (prepare H a now rq h) as [a1 p] eqn:Ep.
    destruct (prepare_cases _ _ _ _ _ _ Ep) as (A & B & C & D & E & F & G).
    destruct p as [| |dp]; [discriminate Hv|discriminate Hv|].
    destruct G as [[_ [G|G]]|(dp' & n & G1 & G2 & good & G3 & G4)]; [discriminate G|discriminate G|].
    destruct good; [|discriminate G4]. injection G4 as <-.
    destruct (verify_nc_true _ _ _ _ _ _ G3) as (e & e' & L1 & L2 & L3 & L4).
    destruct (au_store a1 (dp_user dp) (au_realm a1)) as [pass|] eqn:S; [|discriminate Hv].
    cbn [snd fst] in *. injection Hv as Hv. apply str_eqb_true in Hv.
    assert (Dc := pre_nonce_inr _ _ _ _ _ G1).
    exists dp, n, pass, e, e'. split; [assumption|].
    destruct Dc as (v & ah & o & Dc). 
    assert (U : dp_uri dp = aq_uri rq) by tauto. assert (Q : dp_qop dp = au_qop a) by tauto.
    rewrite A, D in S. split; [assumption|]. split.
    - rewrite <- Hv, U, Q. rewrite <- C. rewrite compute_is_rfc. now rewrite A, B.
    - auto.
  Qed.

  (** *** Completeness *)
  Lemma quotable_vparam : forall mx s, quotable mx s -> vparam mx s = true.
  Proof.
    intros mx s (A & B & C & D). unfold vparam. apply andb_true_iff. split; [lia|].
    apply negb_true_iff. assert (N : forall c, c < 32 -> mem c s = false).
    { intros c Hc. apply mem_false. intros Hi. rewrite <- Bool.not_true_iff_false in C. apply C.
      apply existsb_exists. exists c. split; [assumption|]. unfold is_control, in_range. lia. }
    rewrite !N by lia. reflexivity.
  Qed.
  Lemma quotable_pvalue : forall mx s, quotable mx s -> mx <= 256 -> pvalue_ok s = true.
  Proof.
    intros mx s (A & B & C & D) Hm. unfold pvalue_ok. apply andb_true_iff. split; [lia|].
    apply negb_true_iff. rewrite <- Bool.not_true_iff_false in *. intros X. apply C.
    apply existsb_exists in X. destruct X as [c [Hc X]]. apply existsb_exists. exists c. split; [assumption|].
    now apply andb_true_iff in X.
  Qed.
  Lemma quotable_weaken : forall a b s, quotable a s -> a <= b -> quotable b s.
  Proof. intros a b s (A & B & C & D) Hl. repeat split; auto. lia. Qed.
  Lemma hexs_quotable : forall mx s, forallb hexc s = true -> blen s <= mx -> quotable mx s.
  Proof.
    intros mx s Hs Hl. rewrite forallb_forall in Hs. unfold hexc, is_digit, in_range in Hs.
    assert (N : forall c, (c < 48 \/ c = 92) -> mem c s = false).
    { intros c Hc. apply mem_false. intros Hi. specialize (Hs c Hi). lia. }
    repeat split; try (apply N; lia); [|assumption].
    rewrite <- Bool.not_true_iff_false. intros X. apply existsb_exists in X. destruct X as [c [Hc X]].
    specialize (Hs c Hc). unfold is_control, in_range in X. lia.
  Qed.
  Lemma blen_ascii : forall s, forallb hexc s = true -> blen s = llen s.
  Proof.
    induction s as [|c s IH]; intros Hs; [reflexivity|]. cbn [forallb] in Hs. apply andb_true_iff in Hs.
    destruct Hs as [Hc Hs]. specialize (IH Hs). unfold llen in *. cbn [List.length].
    cbn [blen]. unfold hexc, is_digit, in_range in Hc. unfold len_utf8.
    destruct (c <? 128) eqn:E; lia.
  Qed.
  Lemma hex8_quotable : forall n, quotable 8 (hex8 n).
  Proof.
    intros n. apply hexs_quotable; [apply hex8_hexc|]. rewrite blen_ascii by apply hex8_hexc. cbn. lia.
  Qed.

  Definition gen_fields (user realm nnc uri resp alg : str) (q : qop) (nc cnonce opaque : str) : list field :=
    [mkF true (lit "username") user; mkF true (lit "realm") realm; mkF true (lit "nonce") nnc;
     mkF true (lit "uri") uri; mkF true (lit "response") resp; mkF false (lit "algorithm") alg;
     mkF false (lit "qop") (qop_str q); mkF false (lit "nc") nc; mkF true (lit "cnonce") cnonce;
     mkF true (lit "opaque") opaque].
  Lemma gen_text : forall u realm nnc uri resp als q nc cnonce opaque,
    lit "Digest username=""" ++ u ++ lit """, realm=""" ++ realm ++ lit """, nonce=""" ++ nnc
     ++ lit """, uri=""" ++ uri ++ lit """, response=""" ++ resp ++ lit """, algorithm=" ++ als
     ++ (lit ", qop=" ++ qop_str q ++ lit ", nc=" ++ nc ++ lit ", cnonce=""" ++ cnonce ++ lit """")
     ++ (lit ", opaque=""" ++ opaque ++ lit """")
    = lit "Digest" ++ [32] ++ join sep (map render (gen_fields u realm nnc uri resp als q nc cnonce opaque)).
  Proof.
    intros. unfold gen_fields. generalize (qop_str q) as qs. intros qs.
    unfold render, sep. cbn [map join f_quoted f_name f_value]. rewrite <- !app_assoc. reflexivity.
  Qed.
  Lemma generate_value : forall c mt uri realm nnc al q opaque body cnonce,
      snd (generate H c mt uri realm nnc al (Some q) (Some opaque) body cnonce)
      = lit "Digest" ++ [32] ++ join sep (map render
          (gen_fields (cl_user c) realm nnc uri
             (rfc_response H al q (cl_user c) realm (cl_pass c) (method_str mt) uri nnc
                 (hex8 (N.min (cl_nc c + 1) u32_max)) cnonce body)
             (alg_str al) q (hex8 (N.min (cl_nc c + 1) u32_max)) cnonce opaque)).
  Proof.
    intros. unfold generate. cbn [snd]. rewrite <- gen_text.
    remember (hex8 (N.min (cl_nc c + 1) u32_max)) as nc.
    match goal with |- lit _ ++ _ ++ _ ++ _ ++ _ ++ _ ++ _ ++ _ ++ _ ++ ?r ++ _ = _ =>
      replace r with (rfc_response H al q (cl_user c) realm (cl_pass c) (method_str mt) uri nnc nc cnonce body) end.
    { reflexivity. }
    unfold rfc_response, hs, rfc_ha1, rfc_ha2, client_ha1, h_str, hs. cbn [join].
    destruct (al_sess al), q; reflexivity.
  Qed.

  Lemma name_plain_dec : forall n,
    (match n with [] => false | _ => true end)
    && forallb (fun c => negb (is_ws c || (c =? 34) || (c =? 44) || (c =? 61))) n
    && str_eqb (lower n) n = true -> name_plain n.
  Proof.
    intros n Hn. apply andb_true_iff in Hn. destruct Hn as [Hn C]. apply andb_true_iff in Hn. destruct Hn as [A B].
    split; [|split]; [intros ->; discriminate|assumption|now apply str_eqb_true].
  Qed.
  Lemma quoted_ok : forall n v mx, name_plain n -> quotable mx v -> field_ok (mkF true n v).
  Proof. intros n v mx Hn (A & B & _). repeat split; try assumption; apply Hn. Qed.
  Lemma plain_ok : forall n v, name_plain n ->
    forallb (fun c => negb (is_ws c || (c =? 34) || (c =? 44))) v = true -> field_ok (mkF false n v).
  Proof.
    intros n v Hn Hv. rewrite forallb_forall in Hv. split; [assumption|]. cbn [f_value f_quoted].
    assert (M : forall c, (c = 34 \/ c = 44) -> mem c v = false).
    { intros c Hc. apply mem_false. intros Hi. specialize (Hv c Hi). lia. }
    split; [apply M; auto|]. split; [apply M; auto|]. apply no_edge_all. apply forallb_forall. intros c Hc.
    specialize (Hv c Hc). destruct (is_ws c); [discriminate|reflexivity].
  Qed.
  Lemma hexs_plain : forall v, forallb hexc v = true ->
    forallb (fun c => negb (is_ws c || (c =? 34) || (c =? 44))) v = true.
  Proof.
    intros v Hv. rewrite forallb_forall in *. intros c Hc. specialize (Hv c Hc).
    unfold hexc, is_digit, in_range in Hv.
    assert (W : is_ws c = false) by (unfold is_ws, in_range; lia).
    rewrite W. cbn [orb]. lia.
  Qed.

  Lemma gen_fields_ok : forall user realm nnc uri resp al q nc cnonce opaque,
    quotable 256 user -> quotable 256 realm -> quotable 128 nnc -> quotable 256 uri ->
    forallb hexc resp = true -> blen resp <= 256 -> forallb hexc nc = true -> quotable 8 nc ->
    quotable 256 cnonce -> quotable 256 opaque ->
    let fs := gen_fields user realm nnc uri resp (alg_str al) q nc cnonce opaque in
    Forall field_ok fs /\ NoDup (map f_name fs)
    /\ forallb (fun g => pname_ok (f_name g) && pvalue_ok (f_value g)) fs = true.
  Proof.
    intros user realm nnc uri resp al q nc cnonce opaque Q1 Q2 Q3 Q4 Q5 Q5' Q6 Q6' Q7 Q8 fs.
    assert (NP : forall s : str, name_plain (lit "username") /\ name_plain (lit "realm") /\ name_plain (lit "nonce")
      /\ name_plain (lit "uri") /\ name_plain (lit "response") /\ name_plain (lit "algorithm")
      /\ name_plain (lit "qop") /\ name_plain (lit "nc") /\ name_plain (lit "cnonce") /\ name_plain (lit "opaque")).
    { intros _. repeat match goal with |- _ /\ _ => split end; apply name_plain_dec; reflexivity. }
    destruct (NP []) as (N1 & N2 & N3 & N4 & N5 & N6 & N7 & N8 & N9 & N10). clear NP.
    assert (QR : quotable 256 resp) by (now apply hexs_quotable).
    split; [|split].
    - unfold fs, gen_fields.
      repeat (apply Forall_cons; [first [ eapply quoted_ok; eassumption | idtac ]|]); [| | |apply Forall_nil].
      + apply plain_ok; [assumption|]. destruct al as [[] []]; reflexivity.
      + apply plain_ok; [assumption|]. destruct q; reflexivity.
      + apply plain_ok; [assumption|]. now apply hexs_plain.
    - unfold fs, gen_fields. cbn [map f_name].
      repeat (apply NoDup_cons; [intros Hi; repeat (destruct Hi as [Hi|Hi]; [discriminate Hi|]); exact Hi|]).
      apply NoDup_nil.
    - unfold fs, gen_fields. cbn [forallb f_name f_value].
      rewrite (quotable_pvalue 256 user), (quotable_pvalue 256 realm), (quotable_pvalue 128 nnc),
        (quotable_pvalue 256 uri), (quotable_pvalue 256 resp), (quotable_pvalue 8 nc),
        (quotable_pvalue 256 cnonce), (quotable_pvalue 256 opaque) by (assumption || lia).
      assert (A : pvalue_ok (alg_str al) = true) by (destruct al as [[] []]; reflexivity).
      assert (B : pvalue_ok (qop_str q) = true) by (destruct q; reflexivity).
      rewrite A, B. reflexivity.
  Qed.

  Lemma verify_complete : forall a now rq h c opq cnonce nnc,
    hexy H ->
    snd (admit a now rq h) = true ->
    quotable 256 (cl_user c) -> quotable 256 (au_realm a) -> quotable 128 nnc ->
    quotable 256 (aq_uri rq) -> quotable 256 cnonce -> quotable 256 (au_opaque a) ->
    opq = au_opaque a ->
    au_store a (cl_user c) (au_realm a) = Some (cl_pass c) ->
    cl_nc c < 1000000 ->
    usable (au_nonces a) nnc now (cl_nc c + 1) ->
    hget (auth_header_name a) h
      = Some (snd (generate H c (aq_method rq) (aq_uri rq) (au_realm a) nnc (au_alg a) (Some (au_qop a))
                     (Some opq) (aq_body rq) cnonce)) ->
    snd (verify H a now rq h) = Some true.
  Proof.
    intros a now rq h c opq cnonce nnc Hx Had Q1 Q2 Q3 Q4 Q7 Q8 -> St Hnc Hu Hg.
    remember (cl_nc c + 1) as nc eqn:Enc.
    assert (Emin : N.min (cl_nc c + 1) u32_max = nc) by (unfold u32_max; lia).
    rewrite generate_value, Emin in Hg.
    remember (rfc_response H (au_alg a) (au_qop a) (cl_user c) (au_realm a) (cl_pass c)
                (method_str (aq_method rq)) (aq_uri rq) nnc (hex8 nc) cnonce (aq_body rq)) as resp eqn:Er.
    assert (Hr : forallb hexc resp = true /\ blen resp <= 256).
    { rewrite Er. unfold rfc_response, hs. apply Hx. }
    destruct Hr as [Hr1 Hr2].
    destruct (gen_fields_ok (cl_user c) (au_realm a) nnc (aq_uri rq) resp (au_alg a) (au_qop a) (hex8 nc) cnonce
                (au_opaque a)) as (G1 & G2 & G3); try assumption; [apply hex8_hexc|apply hex8_quotable|].
    unfold verify, prepare. destruct (admit a now rq h) as [a1 ok] eqn:Ea. cbn [snd] in Had. subst ok.
    cbn [negb]. rewrite (admit_pre_nonce _ _ _ _ _ _ Ea).
    destruct (admit_auth _ _ _ _ _ _ Ea) as (A & B & C & D & E & F & G).
    rewrite (pre_nonce_intro a rq h _ _ (cl_user c) nnc resp (hex8 nc) cnonce (qop_str (au_qop a)) nc
               Hg (parse_fields _ _ G1 G2 ltac:(cbn; lia) G3));
      try reflexivity; try (apply quotable_vparam; eauto using quotable_weaken; fail).
    2:{ destruct (au_qop a); reflexivity. }
    2:{ apply parse_hex8. unfold u32_max. lia. }
    2:{ lia. }
    2:{ apply quotable_vparam. eapply quotable_weaken; [exact Q4|lia]. }
    2:{ apply quotable_vparam. apply hexs_quotable; [assumption|lia]. }
    2:{ apply quotable_vparam. apply hex8_quotable. }
    cbn [dp_nonce dp_user dp_uri dp_nc dp_cnonce dp_qop dp_response]. rewrite E.
    destruct Hu as (e & U1 & U2 & U3 & U4 & U5).
    assert (J : jump_ok nnc nc (au_nonces a) = true).
    { unfold jump_ok. rewrite U1. unfold u32_max. lia. }
    rewrite J. cbn [negb]. unfold verify_with_nc. rewrite U1.
    assert (V : nonce_valid now e = true) by (unfold nonce_valid; lia).
    rewrite V. cbn [negb]. unfold validate_nc.
    replace ((0 <? nn_last_nc e) && (nm_age (au_nonces a) <? now - nn_used e)) with false by lia.
    replace (nn_last_nc e <? nc) with true by lia.
    cbn [with_nonces au_store au_realm dp_nonce dp_user dp_uri dp_nc dp_cnonce dp_qop dp_response].
    rewrite A, D, St. cbn [snd]. f_equal.
    apply str_eqb_spec. rewrite Er.
    unfold compute_response, rfc_response, hs, rfc_ha1, rfc_ha2, apply_sess, ha1, ha2, h_str, hs.
    cbn [join au_alg au_qop au_realm with_nonces]. rewrite ?A, ?B, ?C. destruct (al_sess (au_alg a)), (au_qop a); reflexivity.
  Qed.

  (** *** The nonce table *)
  Definition tab (a : auth) := nm_nonces (au_nonces a).
  Lemma filter_nodup_keys : forall (f : str * nonce -> bool) l, NoDup (keys l) -> NoDup (keys (filter f l)).
  Proof.
    intros f l Hn. induction l as [|[k v] l IH]; [exact Hn|]. unfold keys in *. cbn [map fst] in Hn.
    apply NoDup_cons_iff in Hn. destruct Hn as [Hk Hn]. cbn [filter]. destruct (f (k, v)); [|auto].
    cbn [map fst]. apply NoDup_cons; [|auto]. intros X. apply Hk. apply in_map_iff in X.
    destruct X as [p [Hp X]]. apply filter_In in X. apply in_map_iff. exists p. tauto.
  Qed.
  Lemma lookup_filter : forall (f : str * nonce -> bool) l k v, NoDup (keys l) ->
    lookup str_eqb k (filter f l) = Some v -> lookup str_eqb k l = Some v.
  Proof.
    intros f l k v Hn Hl. apply (lookup_in _ str_eqb_spec) in Hl. apply filter_In in Hl. destruct Hl as [Hl _].
    now apply (in_lookup _ str_eqb_spec).
  Qed.
  Lemma fold_remove_keys : forall ks (l : list (str * nonce)) k v, NoDup (keys l) ->
    lookup str_eqb k (fold_left (fun t k => remove_key str_eqb k t) ks l) = Some v ->
    lookup str_eqb k l = Some v.
  Proof.
    induction ks as [|k0 ks IH]; intros l k v Hn Hl; [assumption|]. cbn [fold_left] in Hl.
    apply IH in Hl; [|now apply remove_key_nodup].
    destruct (str_eqb k k0) eqn:E.
    - apply str_eqb_true in E. subst. rewrite lookup_remove_same in Hl. discriminate.
    - rewrite (lookup_remove_other _ str_eqb_spec) in Hl; [assumption|].
      intros ->. rewrite (proj2 (str_eqb_spec k0 k0) eq_refl) in E. discriminate.
  Qed.
  Lemma fold_remove_nodup : forall ks (l : list (str * nonce)), NoDup (keys l) ->
    NoDup (keys (fold_left (fun t k => remove_key str_eqb k t) ks l)).
  Proof. induction ks as [|k0 ks IH]; intros l Hn; [assumption|]. cbn [fold_left]. apply IH. now apply remove_key_nodup. Qed.

  Lemma generate_spec : forall tok now m, NoDup (keys (nm_nonces m)) ->
    let m' := nm_generate tok now m in
    NoDup (keys (nm_nonces m')) /\ nm_ttl m' = nm_ttl m /\ nm_max m' = nm_max m /\ nm_age m' = nm_age m
    /\ forall k n, lookup str_eqb k (nm_nonces m') = Some n ->
         (k = tok /\ n = nonce_new (nm_ttl m) now) \/ (k <> tok /\ lookup str_eqb k (nm_nonces m) = Some n).
  Proof.
    intros tok now m Hn m'. unfold m', nm_generate.
    set (m1 := if nm_max m <=? llen (nm_nonces m) then _ else m).
    assert (M : NoDup (keys (nm_nonces m1)) /\ nm_ttl m1 = nm_ttl m /\ nm_max m1 = nm_max m /\ nm_age m1 = nm_age m
            /\ forall k n, lookup str_eqb k (nm_nonces m1) = Some n -> lookup str_eqb k (nm_nonces m) = Some n).
    { unfold m1. destruct (nm_max m <=? llen (nm_nonces m)); [|auto].
      assert (C1 : NoDup (keys (nm_nonces (nm_cleanup now m)))) by (apply filter_nodup_keys; assumption).
      assert (C2 : forall k n, lookup str_eqb k (nm_nonces (nm_cleanup now m)) = Some n ->
                    lookup str_eqb k (nm_nonces m) = Some n) by (intros k n; now apply lookup_filter).
      cbv zeta. destruct (nm_max m <=? llen (nm_nonces (nm_cleanup now m))); [|auto].
      unfold remove_oldest. cbn [set_nonces nm_nonces nm_ttl nm_max nm_age].
      split; [now apply fold_remove_nodup|]. split; [reflexivity|]. split; [reflexivity|]. split; [reflexivity|].
      intros k n Hl. apply C2. revert Hl. now apply fold_remove_keys. }
    destruct M as (M1 & M2 & M3 & M4 & M5). cbn [set_nonces nm_nonces nm_ttl nm_max nm_age].
    split; [now apply (insert_nodup _ str_eqb_spec)|]. repeat (split; [assumption|]).
    intros k n Hl. destruct (str_eqb k tok) eqn:E.
    - apply str_eqb_true in E. subst k. left. split; [reflexivity|].
      rewrite (lookup_insert_same _ str_eqb_spec) in Hl. congruence.
    - right. assert (k <> tok). { intros ->. rewrite (proj2 (str_eqb_spec tok tok) eq_refl) in E. discriminate. }
      split; [assumption|]. rewrite (lookup_insert_other _ str_eqb_spec) in Hl by assumption. auto.
  Qed.

  Definition same_cfg (a b : auth) : Prop :=
    au_realm a = au_realm b /\ au_alg a = au_alg b /\ au_qop a = au_qop b /\ au_store a = au_store b
    /\ au_proxy a = au_proxy b /\ au_opaque a = au_opaque b /\ nm_ttl (au_nonces a) = nm_ttl (au_nonces b)
    /\ nm_max (au_nonces a) = nm_max (au_nonces b) /\ nm_age (au_nonces a) = nm_age (au_nonces b).
  Lemma same_cfg_refl : forall a, same_cfg a a.
  Proof. intros. repeat split. Qed.
  Lemma same_cfg_trans : forall a b c, same_cfg a b -> same_cfg b c -> same_cfg a c.
  Proof. unfold same_cfg. intros a b c Hab Hbc. intuition congruence. Qed.

  (** the headers an attempt carries *)
  Definition attempt (o : auth_op) : option (areq * headers) :=
    match o with
    | AVerify rq h => Some (rq, h)
    | AInfo rq _ _ => Some (rq, aq_headers rq)
    | _ => None
    end.

  (** what an attempt does to the nonces *)
  Lemma attempt_step : forall a x rq h, attempt (snd x) = Some (rq, h) ->
    exists p, prepare H a (fst x) rq h = (auth_step H a x, p).
  Proof.
    intros a [now o] rq h Ha. destruct o; cbn [attempt snd] in Ha; try discriminate; injection Ha as <- <-.
    - cbn [auth_step fst]. unfold verify. destruct (prepare H a now rq0 hs) as [a1 p].
      exists p. destruct p; try reflexivity. destruct (au_store a1 _ _); reflexivity.
    - cbn [auth_step fst]. unfold build_auth_info. destruct (prepare H a now rq0 _) as [a1 p].
      exists p. destruct p; try reflexivity. destruct (au_store a1 _ _); reflexivity.
  Qed.

  Lemma with_nc_spec : forall k c now rq m m' good, verify_with_nc H k c now rq m = (m', good) ->
    NoDup (keys (nm_nonces m)) ->
    NoDup (keys (nm_nonces m')) /\ nm_ttl m' = nm_ttl m /\ nm_max m' = nm_max m /\ nm_age m' = nm_age m
    /\ llen (nm_nonces m') = llen (nm_nonces m)
    /\ (forall k', k' <> k -> lookup str_eqb k' (nm_nonces m') = lookup str_eqb k' (nm_nonces m))
    /\ (lookup str_eqb k (nm_nonces m') = lookup str_eqb k (nm_nonces m)
        \/ exists n, lookup str_eqb k (nm_nonces m) = Some n /\ nonce_valid now n = true
             /\ lookup str_eqb k (nm_nonces m') = Some (fst (validate_nc H (nm_age m) now c rq n))).
  Proof.
    intros k c now rq m m' good Hv Hn. unfold verify_with_nc in Hv.
    destruct (lookup str_eqb k (nm_nonces m)) as [n|] eqn:E.
    2:{ injection Hv as <- <-. repeat split; auto. }
    destruct (nonce_valid now n) eqn:V; cbn [negb] in Hv.
    2:{ injection Hv as <- <-. repeat split; auto. }
    destruct (validate_nc H (nm_age m) now c rq n) as [n' ok] eqn:W. injection Hv as <- <-.
    cbn [set_nonces nm_nonces nm_ttl nm_max nm_age].
    split; [now apply (insert_nodup _ str_eqb_spec)|]. repeat (split; [reflexivity|]). split; [|split].
    - unfold insert, llen. cbn [List.length].
      assert (In k (keys (nm_nonces m))) as Hi.
      { apply (lookup_in _ str_eqb_spec) in E. unfold keys. change k with (fst (k, n)). now apply in_map. }
      pose proof (remove_key_length_in _ str_eqb_spec k (nm_nonces m) Hn Hi). lia.
    - intros k' Hk. now rewrite (lookup_insert_other _ str_eqb_spec).
    - right. exists n. split; [reflexivity|]. split; [assumption|]. rewrite W. cbn [fst].
      now rewrite (lookup_insert_same _ str_eqb_spec).
  Qed.

  Lemma step_spec : forall a x, NoDup (keys (tab a)) ->
    same_cfg a (auth_step H a x) /\ NoDup (keys (tab (auth_step H a x)))
    /\ forall k n', lookup str_eqb k (tab (auth_step H a x)) = Some n' ->
         (lookup str_eqb k (tab a) = Some n' /\ (forall st, snd x <> AChallenge k st))
         \/ (exists st, snd x = AChallenge k st /\ n' = nonce_new (nm_ttl (au_nonces a)) (fst x))
         \/ (exists n rq h dp c, lookup str_eqb k (tab a) = Some n /\ attempt (snd x) = Some (rq, h)
               /\ decoded a rq h dp c /\ dp_nonce dp = k /\ nonce_valid (fst x) n = true
               /\ jump_ok k c (au_nonces a) = true
               /\ n' = fst (validate_nc H (nm_age (au_nonces a)) (fst x) c rq n)).
  Proof.
    intros a x Hn.
    assert (AT : forall rq h, attempt (snd x) = Some (rq, h) ->
      same_cfg a (auth_step H a x) /\ NoDup (keys (tab (auth_step H a x)))
      /\ forall k n', lookup str_eqb k (tab (auth_step H a x)) = Some n' ->
         (lookup str_eqb k (tab a) = Some n' /\ (forall st, snd x <> AChallenge k st))
         \/ (exists n rq h dp c, lookup str_eqb k (tab a) = Some n /\ attempt (snd x) = Some (rq, h)
               /\ decoded a rq h dp c /\ dp_nonce dp = k /\ nonce_valid (fst x) n = true
               /\ jump_ok k c (au_nonces a) = true
               /\ n' = fst (validate_nc H (nm_age (au_nonces a)) (fst x) c rq n))).
    { intros rq h Ha. destruct (attempt_step a x rq h Ha) as [p Hp].
      assert (NC : forall k st, snd x <> AChallenge k st).
      { intros k st X. rewrite X in Ha. discriminate. }
      destruct (prepare_cases _ _ _ _ _ _ Hp) as (A & B & C & D & E & F & G).
      destruct G as [[G _]|(dp & c & G1 & G2 & good & G3 & G4)].
      - unfold same_cfg, tab. rewrite A, B, C, D, E, F, G. split; [repeat split|]. split; [assumption|].
        intros k n' Hl. left. auto.
      - destruct (with_nc_spec _ _ _ _ _ _ _ G3 Hn) as (W1 & W2 & W3 & W4 & W5 & W6 & W7).
        unfold same_cfg, tab. rewrite A, B, C, D, E, F, W2, W3, W4. split; [repeat split|]. split; [assumption|].
        intros k n' Hl. destruct (str_eqb k (dp_nonce dp)) eqn:K.
        + apply str_eqb_true in K. subst k. destruct W7 as [W7|(n & X1 & X2 & X3)].
          * left. split; [congruence|auto].
          * right. exists n, rq, h, dp, c. rewrite X3 in Hl. injection Hl as <-.
            repeat (split; [first [assumption|reflexivity|now apply pre_nonce_inr]|]). reflexivity.
        + left. split; [|auto]. rewrite <- W6; [assumption|]. intros ->.
          rewrite (proj2 (str_eqb_spec _ _) eq_refl) in K. discriminate. }
    destruct x as [now o]. destruct o as [tok st|rq h|rq body nx|]; cbn [snd attempt] in *.
    - destruct (generate_spec tok now (au_nonces a) Hn) as (A & B & C & D & E).
      cbn [auth_step challenge fst]. unfold same_cfg, tab, with_nonces.
      cbn [au_realm au_alg au_qop au_store au_nonces au_proxy au_opaque].
      rewrite B, C, D. split; [repeat split|]. split; [assumption|].
      intros k n' Hl. destruct (E k n' Hl) as [[-> ->]|[K L]].
      + right. left. exists st. auto.
      + left. split; [assumption|]. intros st' X. injection X as X _. congruence.
    - destruct (AT rq h eq_refl) as (A & B & C). split; [assumption|]. split; [assumption|].
      intros k n' Hl. destruct (C k n' Hl); tauto.
    - destruct (AT rq (aq_headers rq) eq_refl) as (A & B & C). split; [assumption|]. split; [assumption|].
      intros k n' Hl. destruct (C k n' Hl); tauto.
    - cbn [auth_step]. unfold same_cfg, tab, with_nonces, nm_cleanup, set_nonces.
      cbn [au_realm au_alg au_qop au_store au_nonces au_proxy au_opaque nm_nonces nm_ttl nm_max nm_age].
      split; [repeat split|]. split; [now apply filter_nodup_keys|].
      intros k n' Hl. left. split; [now apply lookup_filter in Hl|]. discriminate.
  Qed.

  (** *** Histories *)
  Lemma auth_run_app : forall h1 h2 a, auth_run H a (h1 ++ h2) = auth_run H (auth_run H a h1) h2.
  Proof. induction h1 as [|x h1 IH]; intros h2 a; [reflexivity|]. cbn [app auth_run]. apply IH. Qed.
  Lemma presents_fun : forall a h name v w, presents a h name v -> presents a h name w -> v = w.
  Proof.
    intros a h name v w (x & y & A & B & C) (x' & y' & A' & B' & C'). congruence.
  Qed.
  Lemma decoded_presents : forall a rq h dp c, decoded a rq h dp c ->
    presents a h (lit "nonce") (dp_nonce dp) /\ presents a h (lit "nc") (dp_nc dp)
    /\ parse_hex_u32 (dp_nc dp) = Some c.
  Proof.
    intros a rq h dp c (v & ah & o & A & B & _ & _ & _ & N & _ & _ & _ & NC & _ & _ & _ & _ & P & _).
    split; [|split]; [exists v, ah; auto|exists v, ah; auto|assumption].
  Qed.
  Lemma presents_cfg : forall a b h n v, same_cfg a b -> presents b h n v -> presents a h n v.
  Proof.
    intros a b h n v Hc (x & y & A & B & C). exists x, y. split; [|auto].
    unfold auth_header_name in *. destruct Hc as (_ & _ & _ & _ & E & _). now rewrite E.
  Qed.
  Lemma decoded_offers : forall a b x rq h dp c, same_cfg b a -> attempt (snd x) = Some (rq, h) ->
    decoded a rq h dp c -> offers b x (dp_nonce dp) c.
  Proof.
    intros a b x rq h dp c Hc Ha Hd. destruct (decoded_presents _ _ _ _ _ Hd) as (A & B & C).
    exists h, (dp_nc dp). split.
    - destruct (snd x); cbn [attempt] in Ha; congruence.
    - split; [now apply (presents_cfg b a)|]. split; [now apply (presents_cfg b a)|assumption].
  Qed.

  (** an accepted attempt and the nonce entry before and after it *)
  Lemma accepts_spec : forall a x e, accepts H a x e ->
    exists rq h dp n n', attempt (snd x) = Some (rq, h) /\ rq = ac_request e /\ ac_time e = fst x
      /\ decoded a rq h dp (ac_count e) /\ dp_nonce dp = ac_nonce e
      /\ lookup str_eqb (ac_nonce e) (tab a) = Some n /\ nonce_valid (fst x) n = true
      /\ jump_ok (ac_nonce e) (ac_count e) (au_nonces a) = true
      /\ validate_nc H (nm_age (au_nonces a)) (fst x) (ac_count e) rq n = (n', true)
      /\ tab (auth_step H a x) = insert str_eqb (ac_nonce e) n' (tab a).
  Proof.
    intros a [t o] e He. unfold accepts in He. cbn [snd fst] in *. destruct o as [|rq h| |]; try contradiction.
    destruct He as (A & B & C & D & txt & E & F).
    destruct (verify_sound _ _ _ _ A) as (dp & c & pass & n & n' & V1 & V2 & V3 & V4 & V5 & V6 & V7 & V8).
    destruct (decoded_presents _ _ _ _ _ V1) as (P1 & P2 & P3).
    assert (dp_nonce dp = ac_nonce e) as N1 by (eapply presents_fun; eassumption).
    assert (dp_nc dp = txt) as N2 by (eapply presents_fun; eassumption).
    assert (c = ac_count e) as N3 by (rewrite N2 in P3; congruence). subst c. rewrite N1 in *.
    exists rq, h, dp, n, n'. unfold tab. cbn [auth_step]. rewrite V8. cbn [set_nonces nm_nonces attempt].
    repeat (split; [first [assumption|reflexivity|congruence]|]). reflexivity.
  Qed.

  (** accepted within a history *)
  Definition accepted_in (a : auth) (h : list (N * auth_op)) (e : accept) : Prop :=
    exists p x q, h = p ++ x :: q /\ accepts H (auth_run H a p) x e.

  Definition Inv (a : auth) (past : list (N * auth_op)) : Prop :=
    let b := auth_run H a past in
    same_cfg a b /\ NoDup (keys (tab b))
    /\ (forall k n, lookup str_eqb k (tab b) = Some n ->
          (exists t st, In (t, AChallenge k st) past /\ nn_created n = t) /\ nn_ttl n = nm_ttl (au_nonces a)
          /\ (nn_last_nc n = 0 \/ exists x, In x past /\ fst x = nn_used n /\ offers a x k (nn_last_nc n)))
    /\ (forall e, accepted_in a past e -> In (ac_nonce e) (tokens past)
          /\ forall n, lookup str_eqb (ac_nonce e) (tab b) = Some n ->
               ac_count e < nn_last_nc n
               \/ (ac_count e = nn_last_nc n /\ nn_hash n = Some (request_hash H (ac_request e)))).

  (** how [validate_nc] moves an entry *)
  Lemma validate_spec : forall age now c rq n n' ok, validate_nc H age now c rq n = (n', ok) ->
    nn_created n' = nn_created n /\ nn_ttl n' = nn_ttl n
    /\ (n' = n \/ (nn_last_nc n < c /\ nn_last_nc n' = c /\ nn_hash n' = Some (request_hash H rq) /\ nn_used n' = now)
        \/ (c = nn_last_nc n /\ nn_last_nc n' = c /\ nn_hash n' = Some (request_hash H rq) /\ nn_used n' = now
            /\ (nn_hash n = None \/ nn_hash n = Some (request_hash H rq))))
    /\ (ok = true -> (nn_last_nc n = 0 \/ now <= nn_used n + age)
         /\ nn_last_nc n' = c /\ nn_hash n' = Some (request_hash H rq)
         /\ (nn_last_nc n < c \/ (c = nn_last_nc n /\ (nn_hash n = None \/ nn_hash n = Some (request_hash H rq))))).
  Proof.
    intros age now c rq n n' ok Hv. unfold validate_nc in Hv.
    destruct ((0 <? nn_last_nc n) && (age <? now - nn_used n)) eqn:E1.
    { injection Hv as <- <-. repeat split; auto; discriminate. }
    destruct (nn_last_nc n <? c) eqn:E2.
    { injection Hv as <- <-. cbn. repeat split; auto; try lia. right. left. repeat split. lia. }
    destruct (c =? nn_last_nc n) eqn:E3.
    2:{ injection Hv as <- <-. repeat split; auto; discriminate. }
    apply N.eqb_eq in E3.
    destruct (nn_hash n) as [h0|] eqn:E4.
    - destruct (str_eqb h0 (request_hash H rq)) eqn:E5.
      + apply str_eqb_true in E5. subst h0. injection Hv as <- <-. cbn.
        repeat split; auto; try lia. right. right. repeat split; auto.
      + injection Hv as <- <-. repeat split; auto; discriminate.
    - injection Hv as <- <-. cbn. repeat split; auto; try lia. right. right. repeat split; auto.
  Qed.

  Lemma tokens_app : forall h1 h2, tokens (h1 ++ h2) = tokens h1 ++ tokens h2.
  Proof. intros. unfold tokens. now rewrite flat_map_app. Qed.
  Lemma challenge_in_tokens : forall t k st h, In (t, AChallenge k st) h -> In k (tokens h).
  Proof. intros. unfold tokens. apply in_flat_map. exists (t, AChallenge k st). split; [assumption|]. now left. Qed.

  Lemma inv_step : forall a past x, Inv a past -> NoDup (tokens (past ++ [x])) -> Inv a (past ++ [x]).
  Proof.
    intros a past x (I1 & I2 & I3 & I4) Hd. unfold Inv. rewrite auth_run_app. cbn [auth_run].
    set (b := auth_run H a past) in *.
    destruct (step_spec b x I2) as (S1 & S2 & S3).
    split; [now apply (same_cfg_trans _ b)|]. split; [assumption|]. split.
    - intros k n' Hl. destruct (S3 k n' Hl) as [[L _]|[(st & X & ->)|(n & rq & h & dp & c & L & At & Dc & Dn & V & J & ->)]].
      + destruct (I3 k n' L) as ((t & st & A) & B & C). split; [|split].
        * exists t, st. split; [|tauto]. apply in_or_app. tauto.
        * assumption.
        * destruct C as [C|(y & C1 & C2)]; [tauto|]. right. exists y. split; [|assumption]. apply in_or_app. tauto.
      + split; [|split].
        * exists (fst x), st. split; [|reflexivity]. apply in_or_app. right. left. rewrite <- X. now destruct x.
        * cbn. now destruct I1 as (_ & _ & _ & _ & _ & _ & -> & _).
        * left. reflexivity.
      + destruct (I3 k n L) as ((t & st & A) & B & C).
        destruct (validate_nc H (nm_age (au_nonces b)) (fst x) c rq n) as [n' ok] eqn:W. cbn [fst].
        destruct (validate_spec _ _ _ _ _ _ _ W) as (V1 & V2 & V3 & _). split; [|split].
        * exists t, st. split; [apply in_or_app; tauto|]. rewrite V1. tauto.
        * now rewrite V2.
        * assert (O : offers a x k c) by (rewrite <- Dn; now apply (decoded_offers b a x rq h dp c)).
          destruct V3 as [->|[(_ & Y1 & _ & Y2)|(_ & Y1 & _ & Y2 & _)]].
          -- destruct C as [C|(y & C1 & C2)]; [tauto|]. right. exists y. split; [|assumption]. apply in_or_app. tauto.
          -- right. exists x. split; [apply in_or_app; right; now left|]. rewrite Y1, Y2. auto.
          -- right. exists x. split; [apply in_or_app; right; now left|]. rewrite Y1, Y2. auto.
    - intros e (p & y & q & Hh & Ha).
      destruct q as [|z q] using rev_ind.
      + apply app_inj_tail in Hh. destruct Hh as [<- <-]. fold b in Ha.
        destruct (accepts_spec _ _ _ Ha) as (rq & h & dp & n & n' & A1 & A2 & A3 & A4 & A5 & A6 & A7 & A8 & A9 & A10).
        split.
        * rewrite tokens_app. apply in_or_app. left. destruct (I3 _ _ A6) as ((t & st & A) & _).
          eapply challenge_in_tokens. apply A.
        * intros m Hm. rewrite A10 in Hm. rewrite (lookup_insert_same _ str_eqb_spec) in Hm. injection Hm as <-.
          destruct (validate_spec _ _ _ _ _ _ _ A9) as (_ & _ & _ & V). destruct (V eq_refl) as (_ & V1 & V2 & _).
          right. rewrite V1, V2. subst rq. auto.
      + clear IHq. rewrite app_comm_cons, app_assoc in Hh. apply app_inj_tail in Hh. destruct Hh as [Hh <-].
        assert (Hin : accepted_in a past e) by (exists p, y, q; auto).
        destruct (I4 e Hin) as [T L]. split.
        * rewrite tokens_app. apply in_or_app. now left.
        * intros n' Hl. destruct (S3 _ n' Hl) as [[L' _]|[(st & X & ->)|(n & rq & h & dp & c & L' & At & Dc & Dn & V & J & ->)]].
          -- auto.
          -- exfalso. rewrite tokens_app in Hd. unfold tokens at 2 in Hd. cbn [flat_map] in Hd.
             unfold token_of in Hd. rewrite X in Hd. cbn [app] in Hd.
             apply NoDup_remove_2 in Hd. apply Hd. rewrite app_nil_r. assumption.
          -- specialize (L n L').
             destruct (validate_nc H (nm_age (au_nonces b)) (fst x) c rq n) as [n' ok] eqn:W. cbn [fst].
             destruct (validate_spec _ _ _ _ _ _ _ W) as (_ & _ & V3 & _).
             destruct V3 as [->|[(Y0 & Y1 & Y2 & Y3)|(Y0 & Y1 & Y2 & _ & Y3)]]; [assumption| |].
             ++ left. lia.
             ++ destruct L as [L|[L1 L2]]; [left; lia|]. right. split; [lia|].
                rewrite Y2. destruct Y3 as [Y3|Y3]; congruence.
  Qed.
  Lemma inv_run : forall a h, no_nonces a -> NoDup (tokens h) -> Inv a h.
  Proof.
    intros a h H0. induction h as [|x h IH] using rev_ind; intros Hd.
    - unfold Inv. cbn [auth_run]. unfold tab, no_nonces in *. rewrite H0.
      split; [apply same_cfg_refl|]. split; [apply NoDup_nil|]. split; [discriminate|].
      intros e (p & x & q & X & _). destruct p; discriminate.
    - apply inv_step; [|assumption]. apply IH. rewrite tokens_app in Hd.
      clear -Hd. induction (tokens h) as [|k l IH]; [apply NoDup_nil|]. cbn [app] in Hd.
      apply NoDup_cons_iff in Hd. destruct Hd as [A B]. apply NoDup_cons; [|auto].
      intros X. apply A. apply in_or_app. now left.
  Qed.

  Lemma replay : forall a p x q y r e e', no_nonces a -> NoDup (tokens (p ++ x :: q ++ y :: r)) ->
    accepts H (auth_run H a p) x e -> accepts H (auth_run H a (p ++ x :: q)) y e' ->
    ac_nonce e = ac_nonce e' ->
    ac_count e < ac_count e'
    \/ (ac_count e = ac_count e' /\ request_hash H (ac_request e) = request_hash H (ac_request e')).
  Proof.
    intros a p x q y r e e' H0 Hd Ha Ha' En.
    assert (Hd' : NoDup (tokens (p ++ x :: q))).
    { rewrite app_comm_cons, app_assoc, tokens_app in Hd. clear -Hd.
      induction (tokens (p ++ x :: q)) as [|k l IH]; [apply NoDup_nil|]. cbn [app] in Hd.
      apply NoDup_cons_iff in Hd. destruct Hd as [A B]. apply NoDup_cons; [|auto].
      intros X. apply A. apply in_or_app. now left. }
    destruct (inv_run a (p ++ x :: q) H0 Hd') as (I1 & I2 & I3 & I4).
    destruct (accepts_spec _ _ _ Ha') as (rq & h & dp & n & n' & A1 & A2 & A3 & A4 & A5 & A6 & A7 & A8 & A9 & A10).
    destruct (I4 e) as [_ L]; [exists p, x, q; auto|]. rewrite En in L. specialize (L n A6).
    destruct (validate_spec _ _ _ _ _ _ _ A9) as (_ & _ & _ & V). destruct (V eq_refl) as (_ & _ & _ & V2).
    subst rq. destruct V2 as [V2|[V2 V3]]; [left; destruct L as [L|[L _]]; lia|].
    destruct L as [L|[L1 L2]]; [left; lia|]. right. split; [lia|]. destruct V3 as [V3|V3]; congruence.
  Qed.

  Lemma step_bound : forall a p x e, no_nonces a -> NoDup (tokens p) -> accepts H (auth_run H a p) x e ->
    ac_count e <= 1000 \/ exists y c, In y p /\ offers a y (ac_nonce e) c /\ ac_count e <= c + 1000.
  Proof.
    intros a p x e H0 Hd Ha. destruct (inv_run a p H0 Hd) as (I1 & I2 & I3 & I4).
    destruct (accepts_spec _ _ _ Ha) as (rq & h & dp & n & n' & A1 & A2 & A3 & A4 & A5 & A6 & A7 & A8 & A9 & A10).
    unfold jump_ok in A8. unfold tab in A6. rewrite A6 in A8.
    destruct (I3 _ _ A6) as (_ & _ & [C|(y & C1 & C2 & C3)]).
    - left. rewrite C in A8. lia.
    - right. exists y, (nn_last_nc n). split; [assumption|]. split; [assumption|]. lia.
  Qed.

  Lemma not_expired : forall a p x e, no_nonces a -> NoDup (tokens p) -> accepts H (auth_run H a p) x e ->
    exists t st, In (t, AChallenge (ac_nonce e) st) p /\ ac_time e <= t + nm_ttl (au_nonces a).
  Proof.
    intros a p x e H0 Hd Ha. destruct (inv_run a p H0 Hd) as (I1 & I2 & I3 & I4).
    destruct (accepts_spec _ _ _ Ha) as (rq & h & dp & n & n' & A1 & A2 & A3 & A4 & A5 & A6 & A7 & A8 & A9 & A10).
    destruct (I3 _ _ A6) as ((t & st & B1 & B2) & B3 & _). exists t, st. split; [assumption|].
    unfold nonce_valid in A7. rewrite B2, B3 in A7. lia.
  Qed.

  Lemma reuse_window : forall a p x e q y e', no_nonces a -> NoDup (tokens (p ++ x :: q)) ->
    accepts H (auth_run H a p) x e -> accepts H (auth_run H a (p ++ x :: q)) y e' ->
    ac_nonce e = ac_nonce e' -> 0 < ac_count e ->
    exists z c, In z (p ++ x :: q) /\ offers a z (ac_nonce e) c /\ ac_time e' <= fst z + nm_age (au_nonces a).
  Proof.
    intros a p x e q y e' H0 Hd Ha Ha' En Hc. destruct (inv_run a _ H0 Hd) as (I1 & I2 & I3 & I4).
    destruct (accepts_spec _ _ _ Ha') as (rq & h & dp & n & n' & A1 & A2 & A3 & A4 & A5 & A6 & A7 & A8 & A9 & A10).
    destruct (I4 e) as [_ L]; [exists p, x, q; auto|]. rewrite En in L. specialize (L n A6).
    destruct (validate_spec _ _ _ _ _ _ _ A9) as (_ & _ & _ & V). destruct (V eq_refl) as (V1 & _).
    destruct (I3 _ _ A6) as (_ & _ & [C|(z & C1 & C2 & C3)]); [destruct L; lia|].
    exists z, (nn_last_nc n). split; [assumption|]. rewrite En. split; [assumption|].
    rewrite A3, C2. destruct I1 as (_ & _ & _ & _ & _ & _ & _ & _ & I1). rewrite I1.
    destruct V1 as [V1|V1]; [|assumption]. destruct L; lia.
  Qed.

  (** *** Size of the nonce table *)
  Lemma by_age_keys : forall l k, In k (map fst (by_age l)) -> In k (map fst l).
  Proof.
    assert (I : forall x l y, In y (ins_by_age x l) -> y = x \/ In y l).
    { intros x l. induction l as [|z l IH]; intros y; cbn [ins_by_age].
      - intros [->|[]]; auto.
      - destruct (nn_created (snd x) <=? nn_created (snd z)).
        + intros [->|Hy]; auto.
        + intros [->|Hy]; [right; now left|]. destruct (IH y Hy); auto. right. now right. }
    assert (S : forall l x, In x (by_age l) -> In x l).
    { induction l as [|z l IH]; intros x Hx; [contradiction|]. cbn in Hx. apply I in Hx.
      destruct Hx as [->|Hx]; [now left|right; auto]. }
    intros l k Hk. apply in_map_iff in Hk. destruct Hk as [x [<- Hx]]. apply in_map. auto.
  Qed.
  Lemma ins_by_age_perm : forall x l, Permutation (ins_by_age x l) (x :: l).
  Proof.
    induction l as [|z l IH]; cbn [ins_by_age]; [reflexivity|].
    destruct (nn_created (snd x) <=? nn_created (snd z)); [reflexivity|].
    apply (perm_trans (perm_skip z IH)). apply perm_swap.
  Qed.
  Lemma by_age_perm : forall l, Permutation (by_age l) l.
  Proof. induction l as [|x l IH]; [reflexivity|]. cbn [by_age fold_right]. fold (by_age l). rewrite ins_by_age_perm. now apply perm_skip. Qed.
  Lemma fold_remove_length : forall ks (l : list (str * nonce)), NoDup (keys l) -> NoDup ks ->
    (forall k, In k ks -> In k (keys l)) ->
    (List.length (fold_left (fun t k => remove_key str_eqb k t) ks l) + List.length ks = List.length l)%nat.
  Proof.
    induction ks as [|k ks IH]; intros l Hn Hk Hi; cbn [fold_left List.length]; [lia|].
    apply NoDup_cons_iff in Hk. destruct Hk as [Hk1 Hk2].
    pose proof (remove_key_length_in _ str_eqb_spec k l Hn (Hi k (or_introl eq_refl))) as R.
    specialize (IH (remove_key str_eqb k l) (remove_key_nodup _ k l Hn) Hk2).
    rewrite R. rewrite <- IH; [lia|]. intros k' Hk'.
    assert (k' <> k) by (intros ->; contradiction).
    specialize (Hi k' (or_intror Hk')). unfold keys in *. apply in_map_iff in Hi. destruct Hi as [[k'' v] [E Hi]].
    cbn in E. subst k''. apply in_map_iff. exists (k', v). split; [reflexivity|].
    apply (lookup_in _ str_eqb_spec). rewrite (lookup_remove_other _ str_eqb_spec) by assumption.
    now apply (in_lookup _ str_eqb_spec).
  Qed.
  Lemma generate_bound : forall tok now m, NoDup (keys (nm_nonces m)) -> 10 <= nm_max m ->
    llen (nm_nonces m) <= nm_max m -> llen (nm_nonces (nm_generate tok now m)) <= nm_max m.
  Proof.
    intros tok now m Hn H10 Hl. unfold nm_generate.
    assert (I : forall (k : str) (v : nonce) l, llen (insert str_eqb k v l) <= llen l + 1).
    { intros. unfold insert, llen. cbn [List.length]. pose proof (remove_key_length _ str_eqb_spec k l). lia. }
    set (m1 := if nm_max m <=? llen (nm_nonces m) then _ else m).
    assert (M : llen (nm_nonces m1) < nm_max m).
    { unfold m1. destruct (nm_max m <=? llen (nm_nonces m)) eqn:E; [|lia]. cbv zeta.
      assert (F : llen (nm_nonces (nm_cleanup now m)) <= llen (nm_nonces m)).
      { unfold nm_cleanup, set_nonces, llen. cbn [nm_nonces]. clear.
        induction (nm_nonces m) as [|x l IH]; cbn [filter List.length]; [lia|].
        destruct (nonce_valid now (snd x)); cbn [List.length]; lia. }
      destruct (nm_max m <=? llen (nm_nonces (nm_cleanup now m))) eqn:E'; [|lia].
      assert (Hn' : NoDup (keys (nm_nonces (nm_cleanup now m)))) by (apply filter_nodup_keys; assumption).
      set (mc := nm_cleanup now m) in *. unfold remove_oldest, set_nonces. cbn [nm_nonces].
      remember (N.to_nat (nm_max m / 10)) as c eqn:Ec.
      assert (1 <= c)%nat. { assert (1 <= nm_max m / 10) by (apply N.div_le_lower_bound; lia). lia. }
      pose proof (by_age_perm (nm_nonces mc)) as P.
      assert (Hk : NoDup (map fst (firstn c (by_age (nm_nonces mc))))).
      { assert (B : NoDup (map fst (by_age (nm_nonces mc)))).
        { apply (Permutation_NoDup (l := keys (nm_nonces mc))); [|assumption].
          unfold keys. apply Permutation_map. now symmetry. }
        rewrite <- (firstn_skipn c (by_age (nm_nonces mc))), map_app in B. clear -B.
        induction (map fst (firstn c (by_age (nm_nonces mc)))) as [|k l IH]; [apply NoDup_nil|]. cbn [app] in B.
        apply NoDup_cons_iff in B. destruct B as [A B]. apply NoDup_cons; [|auto].
        intros X. apply A. apply in_or_app. now left. }
      assert (FL := fold_remove_length _ (nm_nonces mc) Hn' Hk). 
      match type of FL with ?P -> _ => assert (Sub : P) end.
      { intros k Hi. apply by_age_keys. apply in_map_iff in Hi. destruct Hi as [z [<- Hi]]. apply in_map.
        rewrite <- (firstn_skipn c). apply in_or_app. now left. }
      specialize (FL Sub). rewrite map_length, firstn_length in FL.
      rewrite (Permutation_length P) in FL. unfold llen in *. lia. }
    cbn [set_nonces nm_nonces]. specialize (I tok (nonce_new (nm_ttl m) now) (nm_nonces m1)). lia.
  Qed.

  Lemma step_size : forall a x, NoDup (keys (tab a)) -> 10 <= nm_max (au_nonces a) ->
    llen (tab a) <= nm_max (au_nonces a) -> llen (tab (auth_step H a x)) <= nm_max (au_nonces a).
  Proof.
    intros a x Hn H10 Hl.
    destruct (attempt (snd x)) as [[rq h]|] eqn:At.
    - destruct (attempt_step a x rq h At) as [p Hp].
      destruct (prepare_cases _ _ _ _ _ _ Hp) as (_ & _ & _ & _ & _ & _ & [[G _]|(dp & c & _ & _ & good & G & _)]).
      + unfold tab. rewrite G. assumption.
      + destruct (with_nc_spec _ _ _ _ _ _ _ G Hn) as (_ & _ & _ & _ & W & _). unfold tab in *. lia.
    - destruct x as [now o]. destruct o; try discriminate At.
      + cbn [auth_step challenge fst]. unfold tab. cbn [with_nonces au_nonces]. now apply generate_bound.
      + cbn [auth_step]. unfold tab in *. cbn [with_nonces au_nonces nm_cleanup set_nonces nm_nonces].
        assert (F : forall (f : str * nonce -> bool) l, llen (filter f l) <= llen l).
        { intros f l. unfold llen. induction l as [|y l IH]; cbn [filter List.length]; [lia|].
          destruct (f y); cbn [List.length]; lia. }
        specialize (F (fun p => nonce_valid now (snd p)) (nm_nonces (au_nonces a))). lia.
  Qed.
  Lemma run_size : forall h a, NoDup (keys (tab a)) -> 10 <= nm_max (au_nonces a) ->
    llen (tab a) <= nm_max (au_nonces a) -> llen (tab (auth_run H a h)) <= nm_max (au_nonces a).
  Proof.
    induction h as [|x h IH]; intros a Hn H10 Hl; [assumption|]. cbn [auth_run].
    destruct (step_spec a x Hn) as (S1 & S2 & _).
    destruct S1 as (_ & _ & _ & _ & _ & _ & _ & S1 & _). rewrite S1.
    apply IH; [assumption|lia|]. rewrite <- S1. now apply step_size.
  Qed.

  (** *** What a refused attempt changes *)
  Lemma refused_step : forall a now rq h k n, NoDup (keys (tab a)) ->
    lookup str_eqb k (tab a) = Some n ->
    lookup str_eqb k (tab (fst (verify H a now rq h))) = Some n
    \/ exists n' c, lookup str_eqb k (tab (fst (verify H a now rq h))) = Some n'
        /\ offers a (now, AVerify rq h) k c /\ nn_last_nc n' = c
        /\ nn_last_nc n <= c /\ c <= nn_last_nc n + 1000
        /\ nn_created n' = nn_created n /\ nn_ttl n' = nn_ttl n
        /\ (c = nn_last_nc n -> nn_hash n <> None -> nn_hash n' = nn_hash n).
  Proof.
    intros a now rq h k n Hn Hl.
    destruct (prepare H a now rq h) as [a1 p] eqn:Ep.
    assert (F : fst (verify H a now rq h) = a1).
    { unfold verify. rewrite Ep. destruct p; try reflexivity. destruct (au_store a1 _ _); reflexivity. }
    rewrite F. destruct (prepare_cases _ _ _ _ _ _ Ep) as (_ & _ & _ & _ & _ & _ & [[G _]|(dp & c & G1 & G2 & good & G3 & _)]).
    { left. unfold tab. now rewrite G. }
    destruct (with_nc_spec _ _ _ _ _ _ _ G3 Hn) as (_ & _ & _ & _ & _ & W6 & W7). unfold tab in *.
    destruct (str_eqb k (dp_nonce dp)) eqn:K.
    2:{ left. rewrite W6; [assumption|]. intros ->. rewrite (proj2 (str_eqb_spec _ _) eq_refl) in K. discriminate. }
    apply str_eqb_true in K. subst k. destruct W7 as [W7|(m & X1 & X2 & X3)]; [left; congruence|].
    assert (m = n) by congruence. subst m.
    destruct (validate_nc H (nm_age (au_nonces a)) now c rq n) as [n' ok] eqn:W. cbn [fst] in X3.
    destruct (validate_spec _ _ _ _ _ _ _ W) as (V1 & V2 & V3 & _).
    unfold jump_ok in G2. rewrite Hl in G2.
    assert (O : offers a (now, AVerify rq h) (dp_nonce dp) c).
    { apply (decoded_offers a a (now, AVerify rq h) rq h dp c); [apply same_cfg_refl|reflexivity|now apply pre_nonce_inr]. }
    destruct V3 as [->|[(Y0 & Y1 & Y2 & Y3)|(Y0 & Y1 & Y2 & _ & Y3)]]; [left; assumption| |].
    - right. exists n', c. repeat (split; [first [assumption|lia]|]). intros X. lia.
    - right. exists n', c. repeat (split; [first [assumption|lia]|]). intros _ X.
      rewrite Y2. destruct Y3; congruence.
  Qed.

  (** *** Authentication-Info *)
  Lemma strip_quotes_quoted : forall v, strip_quotes ([34] ++ v ++ [34]) = v.
  Proof.
    intros v. unfold strip_quotes.
    assert (T : trim ([34] ++ v ++ [34]) = [34] ++ v ++ [34]).
    { apply trim_by_id. split; [reflexivity|]. rewrite rev_app_distr, rev_app_distr. reflexivity. }
    rewrite T. assert (B : 2 <=? blen ([34] ++ v ++ [34]) = true).
    { assert (A : forall x y, blen (x ++ y) = blen x + blen y).
      { induction x as [|c x IH]; intros y; cbn [app blen]; [lia|]. rewrite IH. lia. }
      rewrite !A. change (blen [34]) with 1. lia. }
    rewrite B. assert (E : ends_with (lit """") ([34] ++ v ++ [34]) = true).
    { unfold ends_with. rewrite rev_app_distr, rev_app_distr. reflexivity. }
    rewrite E. cbn [andb]. assert (S : starts_with (lit """") ([34] ++ v ++ [34]) = true) by reflexivity.
    rewrite S. cbn [andb app skipn]. rewrite rev_app_distr. cbn [rev app skipn]. apply rev_involutive.
  Qed.
  Lemma strip_quotes_plain : forall v, mem 34 v = false -> no_edge is_ws v -> strip_quotes v = v.
  Proof.
    intros v Hv He. unfold strip_quotes, trim. rewrite trim_by_id by assumption.
    assert (S : starts_with (lit """") v = false).
    { destruct v as [|c v]; [reflexivity|]. apply mem_cons_false in Hv. 
      unfold starts_with. cbn. destruct (34 =? c) eqn:E; [lia|]. destruct c; [reflexivity|].
      cbn in E. now rewrite ?E. }
    rewrite S, andb_false_r. reflexivity.
  Qed.
  Lemma strip_field : forall f, field_ok f ->
    strip_quotes (trim (if f_quoted f then [34] ++ f_value f ++ [34] else f_value f)) = f_value f.
  Proof.
    intros f [_ [Hv Hq]]. destruct (f_quoted f).
    - unfold trim. rewrite (trim_by_id is_ws ([34] ++ f_value f ++ [34])).
      + apply strip_quotes_quoted.
      + split; [reflexivity|]. rewrite rev_app_distr, rev_app_distr. reflexivity.
    - unfold trim. rewrite trim_by_id by apply Hq. apply strip_quotes_plain; tauto.
  Qed.
  Definition info_set (i : option qop * option str * option str * option str * option str) (f : field) :=
    let '(q, rs, cn, nc, nx) := i in
    if str_eqb (f_name f) (lit "qop") then (qop_parse (f_value f), rs, cn, nc, nx)
    else if str_eqb (f_name f) (lit "rspauth") then (q, Some (f_value f), cn, nc, nx)
    else if str_eqb (f_name f) (lit "cnonce") then (q, rs, Some (f_value f), nc, nx)
    else if str_eqb (f_name f) (lit "nc") then (q, rs, cn, Some (f_value f), nx)
    else if str_eqb (f_name f) (lit "nextnonce") then (q, rs, cn, nc, Some (f_value f))
    else i.
  Lemma info_param_field : forall i f, field_ok f -> info_param i (render f) = info_set i f.
  Proof.
    intros i f Hf. assert (Hf2 := Hf). destruct Hf2 as [Hn _]. unfold info_param, render.
    rewrite split_once_plain by (apply name_plain_mem; auto). rewrite strip_field by assumption.
    rewrite (name_plain_trim _ Hn). destruct Hn as (_ & _ & Hn). rewrite Hn. reflexivity.
  Qed.
  Lemma split_info_fields : forall f fs, Forall field_ok (f :: fs) ->
    split_auth_info_params (join sep (map render (f :: fs))) = map render (f :: fs).
  Proof.
    intros f fs Hf. inversion Hf; subst. unfold split_auth_info_params. rewrite scan_fields by assumption.
    cbn [fst rev app]. now apply nonblank_render.
  Qed.
  Lemma fold_info : forall fs i, Forall field_ok fs -> fold_left info_param (map render fs) i = fold_left info_set fs i.
  Proof.
    induction fs as [|f fs IH]; intros i Hf; [reflexivity|]. inversion Hf; subst. cbn [map fold_left].
    rewrite info_param_field by assumption. now apply IH.
  Qed.
  Definition info_fields (i : auth_info) : list field :=
    (match ai_qop i with Some q => [mkF false (lit "qop") (qop_str q)] | None => [] end)
    ++ [mkF true (lit "rspauth") (ai_rspauth i)]
    ++ (match ai_cnonce i with Some c => [mkF true (lit "cnonce") c] | None => [] end)
    ++ (match ai_nc i with Some c => [mkF false (lit "nc") c] | None => [] end)
    ++ (match ai_next i with Some c => [mkF true (lit "nextnonce") c] | None => [] end).
  Lemma info_text : forall i, info_value i = join sep (map render (info_fields i)).
  Proof.
    intros [q rs cn nc nx]. unfold info_value, info_fields.
    cbn [ai_qop ai_rspauth ai_cnonce ai_nc ai_next].
    destruct q as [q|], cn, nc, nx; cbn [app map join]; unfold render, sep; cbn [f_quoted f_name f_value];
      rewrite ?app_nil_r, <- ?app_assoc;
      try (generalize (qop_str q); intros qs); reflexivity.
  Qed.
  Lemma info_roundtrip : forall i, info_ok i -> info_parse (info_value i) = Some i.
  Proof.
    intros i (A & B & C & D). rewrite info_text.
    assert (F : Forall field_ok (info_fields i)).
    { assert (NP : name_plain (lit "qop") /\ name_plain (lit "rspauth") /\ name_plain (lit "cnonce")
        /\ name_plain (lit "nc") /\ name_plain (lit "nextnonce")).
      { repeat match goal with |- _ /\ _ => split end; apply name_plain_dec; reflexivity. }
      destruct NP as (N1 & N2 & N3 & N4 & N5).
      unfold info_fields. apply Forall_app. split; [destruct (ai_qop i) as [q|]; [apply Forall_cons; [|apply Forall_nil]|apply Forall_nil]|].
      { apply plain_ok; [assumption|]. destruct q; reflexivity. }
      apply Forall_app. split; [apply Forall_cons; [|apply Forall_nil]|].
      { split; [assumption|]. cbn. tauto. }
      apply Forall_app. split; [destruct (ai_cnonce i) as [c|]; [apply Forall_cons; [|apply Forall_nil]|apply Forall_nil]|].
      { specialize (B c eq_refl). split; [assumption|]. cbn. tauto. }
      apply Forall_app. split; [destruct (ai_nc i) as [c|]; [apply Forall_cons; [|apply Forall_nil]|apply Forall_nil]|].
      { destruct (D c eq_refl) as (D1 & D2 & D3). split; [assumption|]. cbn [f_value f_quoted].
        split; [assumption|]. split; [assumption|]. rewrite <- D3. apply trim_by_no_edge. }
      destruct (ai_next i) as [c|]; [apply Forall_cons; [|apply Forall_nil]|apply Forall_nil].
      specialize (C c eq_refl). split; [assumption|]. cbn. tauto. }
    unfold info_parse.
    assert (Q : forall q, qop_parse (qop_str q) = Some q) by (intros []; reflexivity).
    destruct (info_fields i) as [|f fs] eqn:E.
    { unfold info_fields in E. destruct (ai_qop i); discriminate. }
    rewrite split_info_fields, fold_info by assumption. rewrite <- E. clear.
    destruct i as [q rs cn nc nx]. unfold info_fields. cbn [ai_qop ai_rspauth ai_cnonce ai_nc ai_next].
    destruct q as [[]|], cn, nc, nx; reflexivity.
  Qed.
  Lemma info_agrees : forall a now rq body next b i c dp_nnc, build_auth_info H a now rq body next = (b, Some (Some i)) ->
    presents a (aq_headers rq) (lit "username") (cl_user c) ->
    presents a (aq_headers rq) (lit "nonce") dp_nnc ->
    au_store a (cl_user c) (au_realm a) = Some (cl_pass c) ->
    verify_auth_info H c i (au_realm a) (aq_uri rq) dp_nnc (au_alg a) body = Some next.
  Proof.
    intros a now rq body next b i c nnc Hb Hu Hn Hs. unfold build_auth_info in Hb.
    destruct (prepare H a now rq (aq_headers rq)) as [a1 p] eqn:Ep.
    destruct (prepare_cases _ _ _ _ _ _ Ep) as (A & B & C & D & E & F & G).
    destruct p as [| |dp]; [discriminate Hb|discriminate Hb|].
    destruct G as [[_ [G|G]]|(dp' & n & G1 & _ & good & _ & G4)]; [discriminate G|discriminate G|].
    destruct good; [|discriminate G4]. injection G4 as <-.
    assert (Dc := pre_nonce_inr _ _ _ _ _ G1).
    destruct (decoded_presents _ _ _ _ _ Dc) as (P1 & _).
    assert (dp_nonce dp = nnc) by (eapply presents_fun; eassumption). subst nnc.
    destruct Dc as (v & ah & o & D1 & D2 & D3 & D4 & D5 & D6 & D7 & D8 & D9).
    assert (dp_user dp = cl_user c) as U.
    { apply (presents_fun a (aq_headers rq) (lit "username")); [exists v, ah; auto|assumption]. }
    rewrite A, D, U, Hs in Hb. injection Hb as <- <-.
    unfold verify_auth_info. cbn [ai_qop ai_cnonce ai_nc ai_rspauth ai_next].
    match goal with |- (if ?b then _ else _) = _ => assert (X : b = true) end.
    { apply str_eqb_spec. unfold rspauth, client_ha1, apply_sess, ha1, h_str. rewrite A, B, D8.
      destruct (al_sess (au_alg a)); reflexivity. }
    now rewrite X.
  Qed.

  (** *** The rate limiter in front of the credential check *)
  Definition proj (x : N * auth_op) : list (N * rl_op) :=
    match attempt (snd x) with
    | Some (rq, h) => if 10 * 1024 * 1024 <? llen (aq_body rq) then []
                      else match rate_key h with Some k => [(fst x, RCheck k)] | None => [] end
    | None => []
    end.
  Lemma prepare_limit : forall a now rq h, au_limit (fst (prepare H a now rq h)) = au_limit (fst (admit a now rq h)).
  Proof.
    intros. unfold prepare. destruct (admit a now rq h) as [a1 ok]. destruct ok; cbn [negb fst]; [|reflexivity].
    destruct (pre_nonce a1 rq h) as [p|[dp n]]; [reflexivity|].
    destruct (jump_ok (dp_nonce dp) n (au_nonces a1)); cbn [negb fst]; [|reflexivity].
    destruct (verify_with_nc H (dp_nonce dp) n now rq (au_nonces a1)) as [m good]. reflexivity.
  Qed.
  Lemma step_limit : forall a x c l, au_limit a = Some (c, l) ->
    au_limit (auth_step H a x) = Some (c, fst (rl_run c l (proj x))).
  Proof.
    intros a x c l Hl. destruct (attempt (snd x)) as [[rq h]|] eqn:At.
    - destruct (attempt_step a x rq h At) as [p Hp].
      replace (auth_step H a x) with (fst (prepare H a (fst x) rq h)) by (now rewrite Hp).
      rewrite prepare_limit. unfold admit, proj. rewrite At, Hl.
      destruct (10 * 1024 * 1024 <? llen (aq_body rq)); [exact Hl|].
      destruct (rate_key h) as [k|]; [|exact Hl]. cbn [rl_run rl_step].
      destruct (check c (fst x) k l) as [l' ok]. reflexivity.
    - unfold proj. rewrite At. destruct x as [now o]. destruct o; try discriminate At; exact Hl.
  Qed.
  Lemma verdicts_app1 : forall k h1 h2 v1 v2, List.length v1 = List.length h1 ->
    verdicts k (h1 ++ h2) (v1 ++ v2) = verdicts k h1 v1 ++ verdicts k h2 v2.
  Proof.
    induction h1 as [|[t o] h1 IH]; intros h2 v1 v2 Hv; destruct v1 as [|v v1]; try discriminate Hv; [reflexivity|].
    cbn [app verdicts]. cbn in Hv. rewrite IH by lia. destruct (is_check k o); reflexivity.
  Qed.
  Lemma rl_run_app1 : forall c h1 h2 s, rl_run c s (h1 ++ h2)
    = (fst (rl_run c (fst (rl_run c s h1)) h2), snd (rl_run c s h1) ++ snd (rl_run c (fst (rl_run c s h1)) h2)).
  Proof.
    intros c h1. induction h1 as [|x h1 IH]; intros h2 s; [cbn; now destruct (rl_run c s h2)|].
    cbn [app rl_run]. destruct (rl_step c s x) as [s1 v]. rewrite IH.
    destruct (rl_run c s1 h1) as [s2 vs]. cbn [fst snd]. now destruct (rl_run c s2 h2).
  Qed.
  Lemma rl_run_len : forall c h s, List.length (snd (rl_run c s h)) = List.length h.
  Proof.
    intros c h. induction h as [|x h IH]; intros s; [reflexivity|]. cbn [rl_run].
    destruct (rl_step c s x) as [s1 v]. specialize (IH s1). destruct (rl_run c s1 h) as [s2 vs]. cbn in *. lia.
  Qed.
  Lemma count_true_app : forall a b, count_true (a ++ b) = count_true a + count_true b.
  Proof. induction a as [|x a IH]; intros b; cbn [app count_true]; [lia|]. rewrite IH. lia. Qed.
  Lemma admitted_app : forall k c s h1 h2, admitted k c s (h1 ++ h2)
    = admitted k c s h1 + admitted k c (fst (rl_run c s h1)) h2.
  Proof.
    intros. unfold admitted. rewrite rl_run_app1. cbn [snd].
    rewrite verdicts_app1 by apply rl_run_len. apply count_true_app.
  Qed.
  Lemma answered_admitted : forall k h a c l, au_limit a = Some (c, l) ->
    answered H k a h <= admitted k c l (flat_map proj h).
  Proof.
    intros k h. induction h as [|x h IH]; intros a c l Hl; [apply N.le_0_l|].
    cbn [answered flat_map]. rewrite admitted_app.
    specialize (IH (auth_step H a x) c _ (step_limit a x c l Hl)).
    enough (match snd x with
            | AVerify rq hd => if verify_from k x && is_some (snd (verify H a (fst x) rq hd)) then 1 else 0
            | _ => 0
            end <= admitted k c l (proj x)) by lia.
    clear IH. destruct x as [now o]. cbn [snd fst]. destruct o as [|rq hd| |]; try apply N.le_0_l.
    unfold verify_from. cbn [snd]. destruct (rate_key hd) as [k'|] eqn:K; [|apply N.le_0_l].
    destruct (str_eqb k k') eqn:E; cbn [andb]; [|apply N.le_0_l]. apply str_eqb_true in E. subst k'.
    destruct (snd (verify H a now rq hd)) as [b|] eqn:V; cbn [is_some]; [|apply N.le_0_l].
    unfold proj. cbn [snd fst attempt]. rewrite K.
    unfold verify, prepare, admit in V. rewrite Hl, K in V.
    destruct (10 * 1024 * 1024 <? llen (aq_body rq)); [discriminate V|].
    unfold admitted. cbn [rl_run rl_step]. destruct (check c now k l) as [l' ok].
    cbn [snd verdicts is_check]. rewrite (proj2 (str_eqb_spec k k) eq_refl).
    destruct ok; [cbn; lia|]. cbn [negb] in V. discriminate V.
  Qed.
  Lemma proj_chrono : forall h t, in_order t h -> chrono t (flat_map proj h).
  Proof.
    assert (W : forall h t t', chrono t h -> t' <= t -> chrono t' h).
    { intros [|[u o] h] t t'; cbn [chrono]; [trivial|]. intros [A B] C. split; [lia|assumption]. }
    induction h as [|[u o] h IH]; intros t Ho; [exact I|]. destruct Ho as [A B]. cbn [flat_map].
    unfold proj at 1. cbn [snd fst]. specialize (IH u B).
    destruct (attempt o) as [[rq hd]|]; [|now apply (W _ u)].
    destruct (10 * 1024 * 1024 <? llen (aq_body rq)); [now apply (W _ u)|].
    destruct (rate_key hd); [|now apply (W _ u)]. cbn [app chrono]. auto.
  Qed.
  Lemma proj_within : forall lo hi h, Forall (fun x => lo <= fst x <= hi) h -> within lo hi (flat_map proj h).
  Proof.
    intros lo hi h Hf. unfold within. apply Forall_forall. intros y Hy. apply in_flat_map in Hy.
    destruct Hy as [x [Hx Hy]]. rewrite Forall_forall in Hf. specialize (Hf x Hx). unfold proj in Hy.
    destruct (attempt (snd x)) as [[rq hd]|]; [|contradiction].
    destruct (10 * 1024 * 1024 <? llen (aq_body rq)); [contradiction|].
    destruct (rate_key hd); [|contradiction]. destruct Hy as [<-|[]]. exact Hf.
  Qed.
  Lemma proj_unreset : forall k h, unreset k (flat_map proj h).
  Proof.
    intros k h. apply Forall_forall. intros y Hy. apply in_flat_map in Hy.
    destruct Hy as [x [Hx Hy]]. unfold proj in Hy.
    destruct (attempt (snd x)) as [[rq hd]|]; [|contradiction].
    destruct (10 * 1024 * 1024 <? llen (aq_body rq)); [contradiction|].
    destruct (rate_key hd); [|contradiction]. destruct Hy as [<-|[]]. cbn. split; discriminate.
  Qed.
  Lemma run_limit : forall h a c l, au_limit a = Some (c, l) ->
    au_limit (auth_run H a h) = Some (c, fst (rl_run c l (flat_map proj h))).
  Proof.
    induction h as [|x h IH]; intros a c l Hl; [exact Hl|]. cbn [auth_run flat_map].
    rewrite (IH _ c _ (step_limit a x c l Hl)). now rewrite rl_run_app1.
  Qed.
End Auth.
