(** Properties C114 to C118: signed caller identity. *)
From Coq Require Import ZArith NArith Bool String List Lia ZifyBool ZifyN ZifyNat.
Import ListNotations.
From Verif Require Import Base BaseFacts NumFacts Text TextFacts Json Identity IdentitySpec JsonProofs IdentityProofs.
Open Scope N_scope.
Open Scope list_scope.

(** ** C114: what is signed is what is read and verified *)
(** the arguments are text, and the time fits *)
Definition well_formed (a : params) : Prop :=
  is_str (pr_x5u a) = true /\ is_str (pr_orig a) = true /\ forallb is_str (pr_dest a) = true
  /\ (forall g, pr_origid a = Some g -> is_str g = true)
  /\ (-9223372036854775808 <= pr_iat a <= 9223372036854775807)%Z.
Lemma well_formed_ok : forall a, well_formed a -> params_ok a.
Proof. intros a (H1 & H2 & H3 & H4 & H5). repeat split; try assumption; try apply H5. destruct (pr_origid a) as [g|]; [now apply H4|exact I]. Qed.
Theorem C114_round_trip : forall a signer tok, well_formed a -> (forall m s, signer m = Some s -> is_bytes s = true) ->
  sign a signer = Ok tok ->
  exists p, decode tok = Ok p
    /\ pp_header p = mkPHeader (lit "ES256") (Some (lit "passport")) (Some (lit "shaken")) (pr_x5u a)
    /\ pp_claims p = mkPClaims (Some (pr_attest a)) (Some (pr_orig a)) (pr_dest a) (Some (pr_iat a)) (pr_origid a)
    /\ signer (pp_input p) = Some (pp_sig p)
    /\ forall ecdsa pk x y, pk = 4 :: x ++ y -> llen x = 32 -> llen y = 32 ->
         (forall m s, signer m = Some s -> ecdsa pk m s = true) -> verify_signature ecdsa p pk = Ok tt.
Proof.
  intros a signer tok Ha Hs H. destruct (sign_decode a signer tok (well_formed_ok a Ha) Hs H) as (p & c & sig & _ & Es & _ & _ & _ & D). eexists. split; [exact D|].
  cbn [pp_header pp_claims pp_input pp_sig]. split; [reflexivity|]. split; [reflexivity|]. split; [exact Es|]. intros ecdsa pk x y -> Lx Ly Hv. unfold verify_signature. cbn [pp_header ph_alg pp_input pp_sig].
  rewrite llen_cons, llen_app, Lx, Ly. cbn [N.eqb Pos.eqb N.add Pos.add negb orb str_eqb]. rewrite str_eqb_refl. cbn [negb]. now rewrite (Hv _ _ Es).
Qed.
Print Assumptions C114_round_trip.
(** signing fails for lack of a number, or when the key does *)
Theorem C114_signs : forall a signer, (forall m, signer m <> None) -> (pr_dest a <> [] /\ pr_orig a <> []) <-> exists tok, sign a signer = Ok tok.
Proof.
  intros a signer Hs. unfold sign. destruct (pr_dest a) as [|d l] eqn:Ed; [split; [tauto|intros (t & H); discriminate]|]. cbn [length Nat.eqb]. destruct (pr_orig a) as [|o r]; [split; [tauto|intros (t & H); discriminate]|]. cbn [length Nat.eqb]. cbv zeta.
  split; [intros _|split; discriminate]. destruct (signer _) as [s|] eqn:E; [eauto|]. now apply Hs in E.
Qed.
Print Assumptions C114_signs.
(** a stand-in for the key *)
Definition some_signer (m : list N) : option (list N) := Some (map (fun x => x mod 256) (firstn 64 m)).
Lemma some_signer_bytes : forall m s, some_signer m = Some s -> is_bytes s = true.
Proof. intros m s [= <-]. unfold is_bytes. apply forallb_forall. intros x Hx. apply in_map_iff in Hx as (y & <- & _). apply N.ltb_lt. apply N.mod_lt. discriminate. Qed.
Definition example_params : params := mkParams (lit "https://cert.example.org/sti.crt") LA (lit "+12155551212") [lit "+13035551234"; [233; 34; 92; 7]] (-5) (Some (lit "d5b8f9a0")).
Example C114_example : well_formed example_params /\ exists tok, sign example_params some_signer = Ok tok.
Proof. split; [repeat split; try reflexivity; try (cbn; lia); intros g [= <-]; reflexivity|]. apply C114_signs; [discriminate|]. split; discriminate. Qed.

(** the header value is read back when the certificate's address has no semicolon and it is not too long *)
Lemma bare_lit : forall s, forallb (fun c => negb (is_ws c)) s = true -> bare s.
Proof.
  intros s H. rewrite forallb_forall in H. split.
  - intros c r ->. specialize (H c (or_introl eq_refl)). now apply negb_true_iff in H.
  - intros r c ->. specialize (H c). rewrite in_app_iff in H. specialize (H (or_intror (or_introl eq_refl))). now apply negb_true_iff in H.
Qed.
Lemma bare_ends : forall c s d, is_ws c = false -> is_ws d = false -> bare ([c] ++ s ++ [d]).
Proof.
  intros c s d Hc Hd. split; [intros x r [= <- _]; assumption|]. intros r x E. cbn [app] in E. change (c :: s ++ [d]) with ((c :: s) ++ [d]) in E. apply app_inj_tail in E as [_ <-]. assumption.
Qed.
Lemma header_laid : forall tok p ps, decode tok = Ok p -> forall w1 w2, blank w1 -> blank w2 -> Forall piece_ok ps ->
  blen (w1 ++ tok ++ w2 ++ concat (map piece_text ps)) <= 8192 ->
  id_parse (w1 ++ tok ++ w2 ++ concat (map piece_text ps)) =
  match id_params (map seg_of ps) None None None with None => Err InvalidParam | Some (i, a, t) => Ok (mkIdHeader p i a t tok) end.
Proof.
  intros tok p ps D w1 w2 W1 W2 Hp L. unfold id_parse, MAX_ID_HEADER. replace (8192 <? _) with false by (symmetry; apply N.ltb_ge; exact L).
  pose proof D as D0. apply decode_parts in D0 as (a & c & s & hb & cb & E1 & E2 & E3 & E4 & _). apply split_three in E1.
  pose proof (b64_dec_chars _ _ E2) as Ka. pose proof (b64_dec_chars _ _ E3) as Kc. pose proof (b64_dec_chars _ _ E4) as Ks.
  assert (Kt : forallb (fun x => b64_char x || (x =? 46)) tok = true).
  { rewrite E1. rewrite !forallb_app. cbn [forallb]. rewrite orb_true_r. assert (X : forall u, forallb b64_char u = true -> forallb (fun x => b64_char x || (x =? 46)) u = true) by (intros u Hu; apply forallb_forall; intros x Hx; rewrite forallb_forall in Hu; rewrite (Hu x Hx); reflexivity).
    now rewrite !X. }
  assert (Bt : bare tok).
  { apply bare_lit. apply forallb_forall. intros x Hx. rewrite forallb_forall in Kt. apply Kt in Hx. apply orb_prop in Hx as [Hx|Hx]; [apply b64_char_facts in Hx as (_ & _ & -> & _); reflexivity|apply N.eqb_eq in Hx; subst; reflexivity]. }
  assert (Sp : forall s, blank s -> mem 59 s = false) by (intros u H; apply mem_false; intros Hi; unfold blank in H; rewrite forallb_forall in H; apply H in Hi; discriminate).
  assert (M : mem 59 (w1 ++ tok ++ w2) = false).
  { rewrite !mem_app, (Sp w1), (Sp w2) by assumption. rewrite orb_false_r. cbn [orb]. apply mem_false. intros Hi. rewrite forallb_forall in Kt. apply Kt in Hi. discriminate. }
  replace (w1 ++ tok ++ w2 ++ concat (map piece_text ps)) with ((w1 ++ tok ++ w2) ++ concat (map piece_text ps)) by (rewrite <- !app_assoc; reflexivity).
  rewrite split_pieces by assumption. rewrite trim_pad by assumption. destruct tok as [|tc tr] eqn:Et; [destruct a; discriminate E1|]. rewrite D.
  destruct (id_params (map seg_of ps) None None None) as [[[i al] t]|]; reflexivity.
Qed.
Lemma sign_pieces : forall x, mem 59 x = false ->
  Forall piece_ok [mkPiece [] (lit "info") [] [] ([60] ++ x ++ [62]) []; mkPiece [] (lit "alg") [] [] (lit "ES256") []; mkPiece [] (lit "ppt") [] [] (lit "shaken") []].
Proof.
  intros x Hx. pose proof (bare_ends 60 x 62 eq_refl eq_refl) as Bx. assert (Nx : ~ In 59 ([60] ++ x ++ [62])) by (apply mem_false; rewrite !mem_app, Hx; reflexivity).
  assert (P : forall k v, bare k -> bare v -> k <> [] -> ~ In 59 k -> ~ In 61 k -> ~ In 59 v -> piece_ok (mkPiece [] k [] [] v [])) by (intros; repeat split; try assumption; try apply H; apply H0).
  repeat apply Forall_cons; try apply Forall_nil; apply P; try assumption; try (apply bare_lit; reflexivity); try discriminate; apply mem_false; reflexivity.
Qed.
Lemma header_value_laid : forall tok x, header_value tok x = [] ++ tok ++ [] ++ concat (map piece_text [mkPiece [] (lit "info") [] [] ([60] ++ x ++ [62]) []; mkPiece [] (lit "alg") [] [] (lit "ES256") []; mkPiece [] (lit "ppt") [] [] (lit "shaken") []]).
Proof. intros tok x. unfold header_value. cbn [map concat piece_text app]. unfold piece_text. cbn [b1 key b2 b3 val b4 app]. change (60 :: x ++ [62]) with ([60] ++ x ++ [62]). rewrite <- !app_assoc. apply (f_equal (app tok)).
  transitivity (lit ";info=<" ++ (x ++ lit ">;alg=ES256;ppt=shaken")); [reflexivity|]. transitivity ((lit ";" ++ lit "info" ++ lit "=" ++ [60]) ++ (x ++ lit ">;alg=ES256;ppt=shaken")); [reflexivity|]. change (60 :: x ++ [62] ++ []) with ([60] ++ (x ++ [62] ++ [])). rewrite <- !app_assoc. reflexivity.
Qed.
Theorem C114_header_partial : forall a signer tok, well_formed a -> (forall m s, signer m = Some s -> is_bytes s = true) ->
  sign a signer = Ok tok -> ~ In 59 (pr_x5u a) -> bare (pr_x5u a) -> blen (header_value tok (pr_x5u a)) <= 8192 ->
  exists p, decode tok = Ok p
    /\ id_parse (header_value tok (pr_x5u a)) = Ok (mkIdHeader p (Some (pr_x5u a)) (Some (lit "ES256")) (Some (lit "shaken")) tok).
Proof.
  intros a signer tok Ha Hs H N59 Hb L. destruct (C114_round_trip a signer tok Ha Hs H) as (p & D & _). exists p. split; [exact D|]. apply mem_false in N59.
  rewrite header_value_laid in *. rewrite (header_laid tok p _ D [] []); try reflexivity; [|now apply sign_pieces|exact L].
  rewrite id_params_pieces; [|now apply sign_pieces|].
  - cbn [fold_left pick key val]. unfold pick. cbn [key val]. replace (eq_ic (lit "info") (lit "info")) with true by reflexivity. replace (eq_ic (lit "alg") (lit "info")) with false by reflexivity. replace (eq_ic (lit "ppt") (lit "info")) with false by reflexivity.
    replace (eq_ic (lit "info") (lit "alg")) with false by reflexivity. replace (eq_ic (lit "alg") (lit "alg")) with true by reflexivity. replace (eq_ic (lit "ppt") (lit "alg")) with false by reflexivity.
    replace (eq_ic (lit "info") (lit "ppt")) with false by reflexivity. replace (eq_ic (lit "alg") (lit "ppt")) with false by reflexivity. replace (eq_ic (lit "ppt") (lit "ppt")) with true by reflexivity.
    unfold angle_of. rewrite (proj2 (strip_ends_spec 60 62 ([60] ++ pr_x5u a ++ [62]) (pr_x5u a)) eq_refl). rewrite trim_bare by assumption. reflexivity.
  - intros q [<-|[<-|[<-|[]]]] K; [now exists (pr_x5u a)|discriminate|discriminate].
Qed.
Print Assumptions C114_header_partial.
(** with a semicolon in that address the receiver refuses the header *)
Theorem C114_header_refuted : forall a signer tok pre post, well_formed a -> (forall m s, signer m = Some s -> is_bytes s = true) ->
  sign a signer = Ok tok -> pr_x5u a = pre ++ lit ";" ++ post -> ~ In 59 pre -> ~ In 62 pre -> blen (header_value tok (pr_x5u a)) <= 8192 ->
  id_parse (header_value tok (pr_x5u a)) = Err InvalidParam.
Proof.
  intros a signer tok pre post Ha Hs H -> N59 N62 L. destruct (C114_round_trip a signer tok Ha Hs H) as (p & D & _).
  unfold id_parse, MAX_ID_HEADER. replace (8192 <? _) with false by (symmetry; apply N.ltb_ge; exact L).
  destruct (sign_decode a signer tok (well_formed_ok a Ha) Hs H) as (h & c & sig & Et & _ & Kh & Kc & Bs & _). pose proof (b64_enc_chars _ Bs) as Ks.
  assert (M : mem 59 tok = false) by (rewrite Et, !mem_app, (b64_no h 59), (b64_no c 59), (b64_no (b64_enc sig) 59) by (assumption || now right); reflexivity).
  apply mem_false in N59.
  unfold header_value. replace (tok ++ lit ";info=<" ++ (pre ++ lit ";" ++ post) ++ lit ">;alg=ES256;ppt=shaken") with (tok ++ 59 :: (lit "info=<" ++ pre) ++ 59 :: post ++ lit ">;alg=ES256;ppt=shaken")
    by (change (lit ";info=<") with (59 :: lit "info=<"); rewrite <- !app_assoc; reflexivity).
  rewrite split_on_app by assumption. rewrite split_on_app by (rewrite mem_app, N59; reflexivity).
  assert (Kt : forallb (fun x => negb (is_ws x)) tok = true).
  { rewrite Et. rewrite !forallb_app. assert (X : forall u, forallb b64_char u = true -> forallb (fun x => negb (is_ws x)) u = true) by (intros u Hu; apply forallb_forall; intros x Hx; rewrite forallb_forall in Hu; apply Hu, b64_char_facts in Hx as (_ & _ & -> & _); reflexivity).
    rewrite (X h), (X c), (X (b64_enc sig)) by assumption. reflexivity. }
  rewrite (trim_bare tok) by now apply bare_lit. destruct tok as [|tc tr]; [destruct h; discriminate Et|]. rewrite D. cbn [id_params].
  assert (Tp : exists u, trim (lit "info=<" ++ pre) = lit "info=<" ++ u /\ mem 62 u = false).
  { assert (No : is_ws 105 = false) by reflexivity. unfold trim, trim_by, trim_start_by. change (lit "info=<" ++ pre) with (105 :: lit "nfo=<" ++ pre). cbn [drop_while]. rewrite No. rewrite trim_end_by_rev. change (105 :: lit "nfo=<" ++ pre) with (lit "info=<" ++ pre). rewrite rev_app_distr.
    destruct (drop_while_suffix is_ws (rev pre)) as (w & E & _). destruct (drop_while is_ws (rev pre)) as [|y q] eqn:Eq.
    - exists []. split; [|reflexivity]. rewrite app_nil_r in E. assert (W : forallb is_ws (rev pre) = true) by (clear - Eq; induction (rev pre) as [|z r IH]; [reflexivity|]; cbn [drop_while forallb] in *; destruct (is_ws z); [now apply IH|discriminate]).
      assert (X : drop_while is_ws (rev pre ++ rev (lit "info=<")) = drop_while is_ws (rev (lit "info=<"))).
      { clear - W. induction (rev pre) as [|z r IH]; [reflexivity|]. cbn [forallb app drop_while] in *. apply andb_prop in W as [-> W]. now apply IH. }
      rewrite X. reflexivity.
    - exists (rev (y :: q)). split.
      + assert (X : drop_while is_ws (rev pre ++ rev (lit "info=<")) = (y :: q) ++ rev (lit "info=<")).
        { clear - Eq. induction (rev pre) as [|z r IH]; [discriminate|]. cbn [app drop_while] in *. destruct (is_ws z); [now apply IH|]. injection Eq as -> ->. reflexivity. }
        rewrite X, rev_app_distr, rev_involutive. reflexivity.
      + apply mem_false. intros Hi. apply N62. rewrite in_rev, E. apply in_or_app. right. now rewrite in_rev. }
  destruct Tp as (u & -> & Mu). assert (Sw : split_once 61 (lit "info=<" ++ u) = Some (lit "info", 60 :: u)) by (change (lit "info=<" ++ u) with (lit "info" ++ 61 :: 60 :: u); now apply split_once_app).
  destruct (lit "info=<" ++ u) as [|wc wr]; [discriminate|]. rewrite Sw. cbv zeta.
  replace (str_eqb (lower (trim (lit "info"))) (lit "info")) with true by reflexivity.
  assert (Z : strip_angle (trim (60 :: u)) = None); [|now rewrite Z].
  unfold strip_angle. rewrite trim_idem. destruct (strip_ends 60 62 (trim (60 :: u))) as [x|] eqn:Ex; [|reflexivity]. apply strip_ends_spec in Ex. exfalso.
  assert (In 62 (60 :: u)). { destruct (trim_by_sub is_ws (60 :: u)) as (s1 & s2 & Es & _). fold (trim (60 :: u)) in Es. rewrite Es, Ex. rewrite !in_app_iff. right. left. right. right. now left. }
  destruct H0 as [|Hi]; [discriminate|]. now apply mem_false in Mu.
Qed.
Print Assumptions C114_header_refuted.
(** the reader's limit can refuse a header of our own *)
Theorem C114_length_refuted : forall a signer tok, sign a signer = Ok tok -> 8192 < blen (pr_x5u a) -> id_parse (header_value tok (pr_x5u a)) = Err HeaderTooLong.
Proof.
  intros a signer tok _ L. unfold id_parse, MAX_ID_HEADER. replace (8192 <? _) with true; [reflexivity|]. symmetry. apply N.ltb_lt. unfold header_value. rewrite !blen_app. lia.
Qed.
Print Assumptions C114_length_refuted.
Example C114_header_example : bare (pr_x5u example_params) /\ ~ In 59 (pr_x5u example_params).
Proof. split; [apply bare_lit; reflexivity|apply mem_false; reflexivity]. Qed.

(** ** C115: the signature covers the token as sent, and there is one token for what is read *)
Theorem C115_reads : forall t p, decode t = Ok p <-> token_says t p.
Proof. exact decode_spec. Qed.
Print Assumptions C115_reads.
Lemma input_parts : forall a c a' c', forallb b64_char a = true -> forallb b64_char a' = true -> a ++ [46] ++ c = a' ++ [46] ++ c' -> a = a' /\ c = c'.
Proof.
  intros a c a' c' Ha Ha' E. assert (X : split_once 46 (a ++ 46 :: c) = split_once 46 (a' ++ 46 :: c')) by (cbn [app] in E; now rewrite E).
  rewrite !split_once_app in X by (apply b64_no; [assumption|now left]). injection X as -> ->. now split.
Qed.
Lemma utf8_b64 : forall a c, forallb b64_char a = true -> forallb b64_char c = true -> utf8 (a ++ [46] ++ c) = a ++ [46] ++ c.
Proof. intros a c Ha Hc. apply utf8_ascii. rewrite !forallb_app. rewrite (b64_ascii a Ha), (b64_ascii c Hc). reflexivity. Qed.
Theorem C115_covered : forall t1 t2 p1 p2, decode t1 = Ok p1 -> decode t2 = Ok p2 -> pp_input p1 = pp_input p2 -> pp_header p1 = pp_header p2 /\ pp_claims p1 = pp_claims p2.
Proof.
  intros t1 t2 p1 p2 H1 H2 E. apply decode_parts in H1 as (a & c & s & hb & cb & _ & Ea & Ec & _ & Ei & Eh & El). apply decode_parts in H2 as (a' & c' & s' & hb' & cb' & _ & Ea' & Ec' & _ & Ei' & Eh' & El').
  rewrite Ei, Ei', !utf8_b64 in E by (eapply b64_dec_chars; eassumption). apply input_parts in E as [-> ->]; [|eapply b64_dec_chars; eassumption|eapply b64_dec_chars; eassumption].
  rewrite Ea in Ea'. injection Ea' as <-. rewrite Ec in Ec'. injection Ec' as <-. rewrite El in El'. injection El' as El'. split; [|exact El'].
  rewrite Eh in Eh'. destruct (pp_header p1) as [q1 q2 q3 q4], (pp_header p2) as [r1 r2 r3 r4]. cbn [ph_alg ph_typ ph_ppt ph_x5u] in Eh'. congruence.
Qed.
Print Assumptions C115_covered.
Theorem C115_one_token : forall t1 t2 p, decode t1 = Ok p -> decode t2 = Ok p -> t1 = t2.
Proof.
  intros t1 t2 p H1 H2. apply decode_parts in H1 as (a & c & s & hb & cb & E1 & Ea & Ec & Es & Ei & _). apply decode_parts in H2 as (a' & c' & s' & hb' & cb' & E2 & Ea' & Ec' & Es' & Ei' & _).
  apply split_three in E1, E2. rewrite Ei in Ei'. rewrite !utf8_b64 in Ei' by (eapply b64_dec_chars; eassumption). apply input_parts in Ei' as [-> ->]; [|eapply b64_dec_chars; eassumption|eapply b64_dec_chars; eassumption].
  apply b64_dec_enc in Es as [-> _], Es' as [-> _]. now subst.
Qed.
Print Assumptions C115_one_token.
Lemma last_part : forall (d : N) x x' s s', mem d s = false -> mem d s' = false -> x ++ d :: s = x' ++ d :: s' -> x = x'.
Proof.
  intros d x x' s s' Hs Hs' E. apply (f_equal (@rev N)) in E. rewrite !rev_app_distr in E. cbn [rev] in E. rewrite <- !app_assoc in E. cbn [app] in E.
  assert (R : forall u, mem d u = false -> mem d (rev u) = false) by (intros u H; apply mem_false; intros K; rewrite <- in_rev in K; now apply mem_false in K).
  assert (X : split_once d (rev s ++ d :: rev x) = split_once d (rev s' ++ d :: rev x')) by now rewrite E. rewrite !split_once_app in X by now apply R. injection X as _ X. rewrite <- (rev_involutive x), X, rev_involutive. reflexivity.
Qed.
Theorem C115_verifies : forall ecdsa t p pk, decode t = Ok p ->
  verify_signature ecdsa p pk = Ok tt <->
  ph_alg (pp_header p) = lit "ES256" /\ (exists x y, pk = 4 :: x ++ y /\ llen x = 32 /\ llen y = 32)
  /\ exists signed s, t = signed ++ lit "." ++ s /\ ~ In 46 s /\ ecdsa pk signed (pp_sig p) = true.
Proof.
  intros ecdsa t p pk D. apply decode_spec in D as (a & c & s & hb & cb & hv & cv & Et & Ei & Ba & Bc & Bs & Is & _).
  assert (Cs : forall u b, base64url u b -> is_bytes b = true -> forallb b64_char u = true) by (intros u b H1 H2; eapply b64_dec_chars; apply b64_spec; split; eassumption).
  unfold verify_signature. split.
  - destruct (str_eqb (ph_alg (pp_header p)) (lit "ES256")) eqn:E; [|discriminate]. cbn [negb]. apply str_eqb_spec in E. destruct pk as [|k r]; [discriminate|]. destruct (llen (k :: r) =? 65) eqn:L; [|discriminate]. destruct (k =? 4) eqn:K; [|discriminate]. cbn [negb orb].
    destruct (ecdsa (k :: r) (pp_input p) (pp_sig p)) eqn:Ev; [|discriminate]. intros _. split; [assumption|]. apply N.eqb_eq in L, K. subst k. split.
    + exists (firstn 32 r), (skipn 32 r). rewrite llen_cons in L. unfold llen in *. split; [now rewrite firstn_skipn|]. rewrite firstn_length, skipn_length. lia.
    + exists (pp_input p), s. split; [rewrite Et, Ei, <- !app_assoc; reflexivity|]. split; [|assumption]. apply mem_false, b64_no; [now apply (Cs s (pp_sig p))|now left].
  - intros (E & (x & y & -> & Lx & Ly) & signed & s' & Es & N46 & Ev). rewrite E, str_eqb_refl. cbn [negb]. rewrite llen_cons, llen_app, Lx, Ly. cbn [N.eqb Pos.eqb N.add Pos.add negb orb].
    assert (signed = pp_input p); [|subst signed; now rewrite Ev].
    rewrite Ei. apply (last_part 46 signed (a ++ lit "." ++ c) s' s); [now apply mem_false|apply b64_no; [now apply (Cs s (pp_sig p))|now left]|]. transitivity t; [exact (eq_sym Es)|]. rewrite Et, <- !app_assoc. reflexivity.
Qed.
Print Assumptions C115_verifies.
Lemma unit_bytes_raw : forall b u t, unit_bytes u = Some t -> unit_bytes (map JB b ++ u) = Some (b ++ t).
Proof. induction b as [|c b IH]; intros u t H; [exact H|]. cbn [map app unit_bytes]. now rewrite (IH u t H). Qed.
Theorem C115_strings : forall u s, spells u s -> is_str s = true -> json_text u = Some s.
Proof.
  intros u s H I. unfold json_text. enough (unit_bytes u = Some (utf8 s)) as -> by (cbn [obind]; now apply from_utf8_utf8). clear I.
  induction H as [|c u s H IH|c u s Hc H IH|hi lo u s Hh Hl H IH]; [reflexivity| | |].
  - now apply unit_bytes_raw.
  - cbn [unit_bytes]. replace (is_high c) with false by (unfold is_high, in_range; lia). replace (is_low c) with false by (unfold is_low, in_range; lia). now rewrite IH.
  - cbn [unit_bytes]. replace (is_high (55296 + hi)) with true by (unfold is_high, in_range; lia). replace (is_low (56320 + lo)) with true by (unfold is_low, in_range; lia). rewrite IH.
    replace ((55296 + hi - 55296) * 1024 + (56320 + lo - 56320) + 65536) with (65536 + hi * 1024 + lo) by lia. reflexivity.
Qed.
Print Assumptions C115_strings.
Theorem C115_half_pairs : forall u s, json_text u = Some s -> paired u.
Proof.
  assert (K : forall n u t, (List.length u <= n)%nat -> unit_bytes u = Some t -> paired u).
  - induction n as [|n IH]; intros u t L H; [destruct u; [constructor|cbn [List.length] in L; lia]|]. destruct u as [|[b|c] u]; [constructor| |]; cbn [List.length] in L; cbn [unit_bytes] in H.
    + destruct (unit_bytes u) as [t'|] eqn:E; [|discriminate]. constructor. apply (IH u t'); [lia|assumption].
    + destruct (is_high c) eqn:Eh.
      * destruct u as [|[b|m] u]; try discriminate. destruct (is_low m) eqn:El; [|discriminate]. destruct (unit_bytes u) as [t'|] eqn:E; [|discriminate]. unfold is_high, is_low, in_range in *. constructor; [lia|lia|]. apply (IH u t'); [cbn [List.length] in L; lia|assumption].
      * destruct (is_low c) eqn:El; [discriminate|]. destruct (unit_bytes u) as [t'|] eqn:E; [|discriminate]. unfold is_high, is_low, in_range in *. constructor; [lia|]. apply (IH u t'); [lia|assumption].
  - intros u s H. unfold json_text in H. destruct (unit_bytes u) as [t|] eqn:E; [|discriminate]. now apply (K (List.length u) u t).
Qed.
Print Assumptions C115_half_pairs.
Example C115_strings_example : spells [JB 65; JU 233; JU 55357; JU 56832] [65; 233; 128512] /\ is_str [65; 233; 128512] = true /\ json_text [JU 56832] = None.
Proof. split; [|split; reflexivity]. apply (S_raw 65); apply (S_unit 233); [lia|]. apply (S_pair 61 512); [lia|lia|constructor]. Qed.
(** there are tokens to read, and their readings differ *)
Example C115_example : exists t p, sign example_params some_signer = Ok t /\ decode t = Ok p /\ pc_orig (pp_claims p) = Some (lit "+12155551212").
Proof.
  destruct C114_example as [W (t & H)]. exists t. destruct (C114_round_trip example_params some_signer t W some_signer_bytes H) as (p & D & _ & C & _). exists p. split; [exact H|]. split; [exact D|]. now rewrite C.
Qed.

(** ** C116: against a certificate chain *)
Theorem C116_chain : forall w t p leaf inter anchors now, decode t = Ok p ->
  verify_with_chain w p leaf inter anchors now = Ok tt <->
  ph_alg (pp_header p) = lit "ES256"
  /\ exists ee roots r s d, read_leaf w leaf = Some ee /\ Forall2 (fun b a => read_anchor w b = Some a) anchors roots
       /\ path_ok w ee roots inter now = true
       /\ pp_sig p = r ++ s /\ llen r = 32 /\ llen s = 32 /\ der_signature (be r) (be s) d /\ leaf_verifies w ee (pp_input p) d = true.
Proof.
  intros w t p leaf inter anchors now D. apply decode_spec in D as (a & c & s & hb & cb & hv & cv & _ & _ & _ & _ & _ & Is & _). unfold verify_with_chain. split.
  - destruct (str_eqb (ph_alg (pp_header p)) (lit "ES256")) eqn:E; [|discriminate]. cbn [negb]. apply str_eqb_spec in E. destruct (read_leaf w leaf) as [ee|]; [|discriminate]. destruct (all_some (read_anchor w) anchors) as [an|] eqn:Ea; [|discriminate]. apply all_some_spec in Ea.
    destruct (path_ok w ee an inter now) eqn:Ep; [|discriminate]. cbn [negb]. destruct (jose_to_der (pp_sig p)) as [d|] eqn:Ed; [|discriminate]. destruct (leaf_verifies w ee (pp_input p) d) eqn:Ev; [|discriminate]. intros _. apply (jose_to_der_spec _ _ Is) in Ed as [L Ed].
    split; [assumption|]. exists ee, an, (firstn 32 (pp_sig p)), (skipn 32 (pp_sig p)), d. unfold llen in *. repeat split; try assumption; [now rewrite firstn_skipn|rewrite firstn_length; lia|rewrite skipn_length; lia].
  - intros (E & ee & an & r & s' & d & E1 & E2 & E3 & E4 & L1 & L2 & E5 & E6). rewrite E, str_eqb_refl, E1. cbn [negb]. apply all_some_spec in E2. rewrite E2, E3. cbn [negb].
    assert (X : jose_to_der (pp_sig p) = Some d); [|now rewrite X, E6]. apply (jose_to_der_spec _ _ Is). rewrite E4. unfold llen in *. split; [rewrite app_length; lia|].
    replace 32%nat with (length r) by lia. rewrite firstn_app, firstn_all, skipn_app, skipn_all, Nat.sub_diag. cbn [firstn skipn app]. now rewrite app_nil_r.
Qed.
Print Assumptions C116_chain.
Theorem C116_one_encoding : forall r s a b, der_signature r s a -> der_signature r s b -> a = b.
Proof. exact der_signature_unique. Qed.
Print Assumptions C116_one_encoding.
Example C116_example : der_signature 128 1 [48; 7; 2; 2; 0; 128; 2; 1; 1].
Proof.
  exists [2; 2; 0; 128], [2; 1; 1]. split; [|split; [|split; reflexivity]].
  - exists [0; 128]. repeat split; cbn; lia.
  - exists [1]. repeat split; cbn; lia.
Qed.

(** ** C117: the Identity header's parameters *)
Definition padded (x r : str) : Prop := bare r /\ exists w1 w2, blank w1 /\ blank w2 /\ x = w1 ++ r ++ w2.
Definition address (v r : str) : Prop := exists x, bracketed v x /\ padded x r.
Lemma trim_padded : forall x, padded x (trim x).
Proof.
  intros x. split.
  - assert (E : trim (trim x) = trim x) by apply trim_idem. pose proof (trim_by_no_edge is_ws x) as Ne. fold (trim x) in Ne. unfold no_edge in Ne. split; [intros c r Eq|intros r c Eq].
    + rewrite Eq in Ne. destruct Ne as [Ne _]. exact Ne.
    + rewrite Eq in Ne. destruct Ne as [_ Ne]. rewrite rev_app_distr in Ne. exact Ne.
  - destruct (trim_by_sub is_ws x) as (a & b & E & A & B). now exists a, b.
Qed.
Lemma pick_unquoted : forall n ps, exists o, last_param n ps o /\ via unquoted o (fold_left (pick n unquote) ps None).
Proof. intros n ps. destruct (fold_pick n unquote ps None) as [(o & L & ->)|[L ->]]; [exists (Some o); split; [exact L|apply unquote_spec]|now exists None]. Qed.
Lemma pick_address : forall ps, (forall q, In q ps -> eq_ic (key q) (lit "info") = true -> exists x, bracketed (val q) x) ->
  exists o, last_param (lit "info") ps o /\ via address o (fold_left (pick (lit "info") angle_of) ps None).
Proof.
  intros ps Hi. destruct (fold_pick (lit "info") angle_of ps None) as [(o & L & ->)|[L ->]]; [|now exists None]. exists (Some o). split; [exact L|]. destruct L as (l1 & q & l2 & -> & Q1 & -> & _).
  destruct (Hi q) as (x & Hx); [apply in_or_app; right; now left|assumption|]. exists x. split; [assumption|]. unfold angle_of. rewrite (proj2 (strip_ends_spec 60 62 (val q) x) Hx). apply trim_padded.
Qed.
Theorem C117_reads : forall w1 tok w2 ps p, blank w1 -> blank w2 -> Forall piece_ok ps -> decode tok = Ok p ->
  let v := w1 ++ tok ++ w2 ++ concat (map piece_text ps) in
  blen v <= 8192 ->
  ((forall q, In q ps -> eq_ic (key q) (lit "info") = true -> exists x, bracketed (val q) x) ->
     exists h i a t, id_parse v = Ok h /\ ih_passport h = p /\ ih_token h = tok
       /\ last_param (lit "info") ps i /\ via address i (ih_info h)
       /\ last_param (lit "alg") ps a /\ via unquoted a (ih_alg h)
       /\ last_param (lit "ppt") ps t /\ via unquoted t (ih_ppt h))
  /\ (forall q, In q ps -> eq_ic (key q) (lit "info") = true -> (forall x, ~ bracketed (val q) x) -> id_parse v = Err InvalidParam).
Proof.
  intros w1 tok w2 ps p W1 W2 Hp D v L. unfold v in *. split.
  - intros Hi. rewrite (header_laid tok p ps D w1 w2) by assumption. rewrite id_params_pieces by assumption.
    destruct (pick_unquoted (lit "alg") ps) as (a & La & Va), (pick_unquoted (lit "ppt") ps) as (t & Lt & Vt), (pick_address ps Hi) as (i & Li & Vi). eexists. exists i, a, t. split; [reflexivity|]. cbn [ih_passport ih_token ih_info ih_alg ih_ppt]. auto 10.
  - intros q Hq Ki Hx. rewrite (header_laid tok p ps D w1 w2) by assumption. rewrite id_params_refuse; [reflexivity|assumption|]. now exists q.
Qed.
Print Assumptions C117_reads.
Theorem C117_too_long : forall v, 8192 < blen v -> id_parse v = Err HeaderTooLong.
Proof. intros v H. unfold id_parse, MAX_ID_HEADER. apply N.ltb_lt in H. now rewrite H. Qed.
Print Assumptions C117_too_long.
(** whatever is accepted begins with a token that decodes *)
Theorem C117_token : forall v h, id_parse v = Ok h ->
  blen v <= 8192 /\ decode (ih_token h) = Ok (ih_passport h)
  /\ exists w1 w2 rest, blank w1 /\ blank w2 /\ v = w1 ++ ih_token h ++ w2 ++ rest /\ (rest = [] \/ exists r, rest = lit ";" ++ r).
Proof.
  intros v h H. unfold id_parse, MAX_ID_HEADER in H. destruct (8192 <? blen v) eqn:L; [discriminate|]. apply N.ltb_ge in L. split; [assumption|].
  destruct (split_on 59 v) as [|t segs] eqn:S; [discriminate|]. destruct (trim t) as [|tc tr] eqn:Et; [discriminate|]. destruct (decode (tc :: tr)) as [p|] eqn:D; [|discriminate].
  destruct (id_params segs None None None) as [[[i a] x]|]; [|discriminate]. injection H as <-. cbn [ih_token ih_passport]. split; [assumption|].
  destruct (trim_by_sub is_ws t) as (w1 & w2 & E & A & B). fold (trim t) in E. rewrite Et in E. exists w1, w2.
  pose proof (join_split_on 59 v) as J. rewrite S in J. destruct segs as [|s1 segs].
  - exists []. cbn [join] in J. rewrite app_nil_r, <- J, <- E. auto.
  - exists (59 :: join [59] (s1 :: segs)). split; [assumption|]. split; [assumption|]. split; [|right; eexists; reflexivity]. rewrite <- J. cbn [join]. rewrite E at 1. rewrite <- !app_assoc. reflexivity.
Qed.
Print Assumptions C117_token.
(** nothing compares the parameters with the token they accompany *)
Theorem C117_consistent_refuted : forall tok p, decode tok = Ok p -> blen tok <= 8000 ->
  id_parse (tok ++ lit ";info=<https://other.example.net/x>;alg=none;ppt=""div""")
  = Ok (mkIdHeader p (Some (lit "https://other.example.net/x")) (Some (lit "none")) (Some (lit "div")) tok).
Proof.
  intros tok p D L.
  set (ps := [mkPiece [] (lit "info") [] [] (lit "<https://other.example.net/x>") []; mkPiece [] (lit "alg") [] [] (lit "none") []; mkPiece [] (lit "ppt") [] [] (lit """div""") []]).
  assert (E : lit ";info=<https://other.example.net/x>;alg=none;ppt=""div""" = concat (map piece_text ps)) by reflexivity.
  assert (P : Forall piece_ok ps) by (assert (P : forall k v, bare k -> bare v -> k <> [] -> ~ In 59 k -> ~ In 61 k -> ~ In 59 v -> piece_ok (mkPiece [] k [] [] v [])) by (intros; repeat split; try assumption; try apply H; apply H0);
    repeat apply Forall_cons; try apply Forall_nil; apply P; try (apply bare_lit; reflexivity); try discriminate; apply mem_false; reflexivity).
  pose proof (header_laid tok p ps D [] [] eq_refl eq_refl P) as X. cbn [app] in X. rewrite E, X; [reflexivity|]. rewrite blen_app. assert (Lc : blen (concat (map piece_text ps)) <= 100) by (intros K; discriminate K). lia.
Qed.
Print Assumptions C117_consistent_refuted.

(** ** C118: what SHAKEN requires of a token *)
Definition complete (p : passport) : Prop :=
  ph_typ (pp_header p) = Some (lit "passport") /\ ph_ppt (pp_header p) = Some (lit "shaken")
  /\ pc_attest (pp_claims p) <> None /\ pc_orig (pp_claims p) <> None /\ pc_dest (pp_claims p) <> [] /\ pc_iat (pp_claims p) <> None /\ pc_origid (pp_claims p) <> None.
(** every one of them may be missing from a token that is read and verified *)
Theorem C118_required_refuted : forall ecdsa pk x y sig, pk = 4 :: x ++ y -> llen x = 32 -> llen y = 32 -> is_bytes sig = true ->
  let signed := b64_enc (lit "{""alg"":""ES256"",""x5u"":""""}") ++ lit "." ++ b64_enc (lit "{}") in
  ecdsa pk signed sig = true ->
  exists p, decode (signed ++ lit "." ++ b64_enc sig) = Ok p /\ verify_signature ecdsa p pk = Ok tt
    /\ pp_header p = mkPHeader (lit "ES256") None None [] /\ pp_claims p = mkPClaims None None [] None None /\ ~ complete p.
Proof.
  intros ecdsa pk x y sig -> Lx Ly Is signed Ev.
  set (p := mkPassport (mkPHeader (lit "ES256") None None []) (mkPClaims None None [] None None) signed sig). exists p.
  assert (D : decode (signed ++ lit "." ++ b64_enc sig) = Ok p).
  { unfold signed. rewrite <- !app_assoc. change (lit ".") with [46]. unfold decode. rewrite three_parts; [|reflexivity|reflexivity|apply b64_no; [now apply b64_enc_chars|now left]]. rewrite (b64_round sig Is).
    replace (b64_dec (b64_enc (lit "{""alg"":""ES256"",""x5u"":""""}"))) with (Some (lit "{""alg"":""ES256"",""x5u"":""""}")) by (vm_compute; reflexivity). replace (b64_dec (b64_enc (lit "{}"))) with (Some (lit "{}")) by (vm_compute; reflexivity).
    replace (obind (json_parse (lit "{""alg"":""ES256"",""x5u"":""""}")) raw_header) with (Some (lit "ES256", @None str, @None str, Some (@nil N))) by (vm_compute; reflexivity).
    replace (obind (json_parse (lit "{}")) raw_claims) with (Some (@None str, @None (option str), @None (option (list str)), @None Z, @None str)) by (vm_compute; reflexivity).
    cbn [oflat]. unfold p, signed. rewrite utf8_b64; [reflexivity| |]; vm_compute; reflexivity. }
  split; [exact D|]. split; [|split; [reflexivity|split; [reflexivity|intros (K & _); discriminate]]].
  apply (C115_verifies ecdsa _ p (4 :: x ++ y) D). split; [reflexivity|]. split; [now exists x, y|]. exists signed, (b64_enc sig). split; [reflexivity|]. split; [|assumption]. apply mem_false, b64_no; [now apply b64_enc_chars|now left].
Qed.
Print Assumptions C118_required_refuted.
(** what a decoded token does carry *)
Theorem C118_required_partial : forall t p, decode t = Ok p ->
  exists a c s hb hv alg x5u o1 o2, t = a ++ lit "." ++ c ++ lit "." ++ s /\ base64url a hb /\ json_document hv hb
    /\ has_fields [lit "alg"; lit "typ"; lit "ppt"; lit "x5u"] hv [Some alg; o1; o2; Some x5u]
    /\ text alg (ph_alg (pp_header p)) /\ text x5u (ph_x5u (pp_header p)).
Proof.
  intros t p D. apply decode_spec in D as (a & c & s & hb & cb & hv & cv & Et & _ & Ba & _ & _ & _ & _ & Jh & (alg & typ & ppt & x5u & F & T1 & _ & _ & T2) & _).
  now exists a, c, s, hb, hv, alg, x5u, typ, ppt.
Qed.
Print Assumptions C118_required_partial.
Example C117_example : Forall piece_ok [mkPiece (lit " ") (lit "Info") [] [] (lit "< https://a.example/ >") (lit " "); mkPiece [] (lit "ppt") (lit " ") [] (lit """shaken""") []]
  /\ exists tok p, decode tok = Ok p.
Proof.
  split.
  - assert (P : forall w k w' v w'', blank w -> blank w' -> blank w'' -> bare k -> bare v -> k <> [] -> ~ In 59 k -> ~ In 61 k -> ~ In 59 v -> piece_ok (mkPiece w k w' [] v w'')) by (intros; repeat split; try assumption; try apply H2; apply H3).
    repeat apply Forall_cons; try apply Forall_nil; apply P; try reflexivity; try (apply bare_lit; reflexivity); try discriminate; try (apply mem_false; reflexivity).
    change (lit "< https://a.example/ >") with ([60] ++ lit " https://a.example/ " ++ [62]). now apply bare_ends.
  - destruct C115_example as (t & p & _ & D & _). eauto.
Qed.
